(** * Numbers with two infinities, in order

    What a float other than a NaN stands for, to say in C92 what the order of exact results is. *)
From Coq Require Import Reals.
From Flocq Require Import Core IEEE754.Binary.
Local Open Scope R_scope.

Inductive ext := Below | At (r : R) | Above.
Definition ext_lt (a b : ext) : Prop :=
  match a, b with
  | At x, At y => x < y
  | Below, At _ | Below, Above | At _, Above => True
  | _, _ => False
  end.
(** Times a positive number. *)
Definition scaled (a : ext) (f : R) : ext := match a with At x => At (x * f) | Below => Below | Above => Above end.

Section F.
Context {prec emax : Z}.
Definition stands (x : binary_float prec emax) (a : ext) : Prop :=
  match a with
  | Below => x = B754_infinity prec emax true
  | Above => x = B754_infinity prec emax false
  | At r => is_finite prec emax x = true /\ B2R prec emax x = r
  end.
(** Finite and above zero. *)
Definition positive (f : binary_float prec emax) : Prop := is_finite prec emax f = true /\ 0 < B2R prec emax f.
End F.

(** The relations, as they hold of what a comparison finds. *)
From Verif Require Import Programs.
Definition holds (r : relation) (c : comparison) : bool :=
  match r, c with
  | Eq, Datatypes.Eq | Ne, (Datatypes.Lt | Datatypes.Gt) | Lt, Datatypes.Lt | Gt, Datatypes.Gt
  | Le, (Datatypes.Lt | Datatypes.Eq) | Ge, (Datatypes.Gt | Datatypes.Eq) => true
  | _, _ => false
  end.
(** The ways to multiply a value by a unit: [u.new(x)], [x * u] and [u * x] (for numbers and for
    quantities), and the ways to divide it by one: [q.value_in(u)], [q / u], [x / u]. *)
Inductive multiplies {k} (u : unit_expr) (p : prog k) : prog k -> Prop :=
| m_new : multiplies u p (New u p)
| m_times : multiplies u p (Times p u)
| m_times_left : multiplies u p (TimesLeft u p)
| m_number_times : multiplies u p (NumberTimes p u).
Inductive divides {k} (u : unit_expr) (p : prog k) : prog k -> Prop :=
| d_value_in : divides u p (ValueIn p u)
| d_over : divides u p (Over p u)
| d_number_over : divides u p (NumberOver p u).
