(** * Model of diman_unit_system/src/types/expression.rs *)
From Coq Require Import List.
From Verif Require Import Ratio.
Import ListNotations.

(** expression.rs:3-8. *)
Inductive operator := OMul | ODiv.

(** expression.rs:10-42: [Expr], [BinaryOperator], [Factor] ([Box] is transparent). *)
Inductive expr (T E : Type) :=
| EVal (f : factor T E)
| EBin (lhs : expr T E) (rhs : factor T E) (op : operator)
with factor (T E : Type) :=
| FVal (t : T)
| FPow (t : T) (e : E)
| FParen (x : expr T E).
Arguments EVal {T E}. Arguments EBin {T E}.
Arguments FVal {T E}. Arguments FPow {T E}. Arguments FParen {T E}.

Scheme expr_ind2 := Induction for expr Sort Prop
  with factor_ind2 := Induction for factor Sort Prop.
Combined Scheme expr_factor_ind from expr_ind2, factor_ind2.

(** expression.rs:50-66 and 93-103: [map]. *)
Fixpoint expr_map {T T2 E} (f : T -> T2) (x : expr T E) : expr T2 E :=
  match x with
  | EVal v => EVal (factor_map f v)
  | EBin l r op => EBin (expr_map f l) (factor_map f r) op
  end
with factor_map {T T2 E} (f : T -> T2) (x : factor T E) : factor T2 E :=
  match x with
  | FVal t => FVal (f t)
  | FPow t e => FPow (f t) e
  | FParen y => FParen (expr_map f y)
  end.

(** expression.rs:68-83 and 105-114: [map_exp].  The mapped function can panic
    ([read_exponent] calls [Ratio::new]), hence the option. *)
Fixpoint expr_map_exp {T E E2} (f : E -> option E2) (x : expr T E) : option (expr T E2) :=
  match x with
  | EVal v => let? v' := factor_map_exp f v in Some (EVal v')
  | EBin l r op =>
      let? l' := expr_map_exp f l in let? r' := factor_map_exp f r in Some (EBin l' r' op)
  end
with factor_map_exp {T E E2} (f : E -> option E2) (x : factor T E) : option (factor T E2) :=
  match x with
  | FVal t => Some (FVal t)
  | FPow t e => let? e' := f e in Some (FPow t e')
  | FParen y => let? y' := expr_map_exp f y in Some (FParen y')
  end.

(** expression.rs:85-90 and 116-122: [iter_vals] (left to right). *)
Fixpoint expr_vals {T E} (x : expr T E) : list T :=
  match x with
  | EVal v => factor_vals v
  | EBin l r _ => expr_vals l ++ factor_vals r
  end
with factor_vals {T E} (x : factor T E) : list T :=
  match x with
  | FVal t => [t]
  | FPow t _ => [t]
  | FParen y => expr_vals y
  end.

(** expression.rs:44-48: the [MulDiv] trait; [None] is a panic (exponent overflow). *)
Record muldiv (T E : Type) := {
  md_mul : T -> T -> option T;
  md_div : T -> T -> option T;
  md_pow : T -> E -> option T
}.
Arguments md_mul {T E}. Arguments md_div {T E}. Arguments md_pow {T E}.

(** expression.rs:125-149: [eval]. *)
Fixpoint expr_eval {T E} (A : muldiv T E) (x : expr T E) : option T :=
  match x with
  | EVal v => factor_eval A v
  | EBin l r op =>
      let? a := expr_eval A l in
      let? b := factor_eval A r in
      match op with OMul => md_mul A a b | ODiv => md_div A a b end
  end
with factor_eval {T E} (A : muldiv T E) (x : factor T E) : option T :=
  match x with
  | FVal t => Some t
  | FPow t e => md_pow A t e
  | FParen y => expr_eval A y
  end.
