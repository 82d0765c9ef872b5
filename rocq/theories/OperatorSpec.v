(** * Specification of the operators on quantities, independent of the table of impls

    Which operand types an operator accepts and what it returns.  [ty] is the type of an operand:
    owned, [&] or [&mut], and either a quantity with raw type [s] and dimension [d] or a bare
    number of raw type [s]. *)
From Coq Require Import String List Bool ZArith.
From Verif Require Import MachineInt Ratio F64 Magnitude Exponent SMap Types CodegenDimension
  Storage Operators.
Import ListNotations.

Section Spec.
Context (X : exp_ops) (fields : list string).
Context (raw_op : trait -> sty -> sty -> option sty) (raw_copy : sty -> bool).
Context (storages : list storage).

(** [a] may be read through [r]: owned or shared reference. *)
Definition readable (r : ref_kind) : Prop := r = Value \/ r = Reference.
(** [a] may be updated: a variable of the type itself or a [&mut] to one. *)
Definition writable (r : ref_kind) : Prop := r = Value \/ r = MutableReference.

(** The raw types support the operator, with raw result type [o]; operands behind references are
    copied. *)
Definition raw_supports op r1 s1 r2 s2 o : Prop :=
  raw_op op s1 s2 = Some o /\
  (r1 <> Value -> raw_copy s1 = true) /\ (r2 <> Value -> raw_copy s2 = true).

Definition supported (s : sty) : Prop := exists c, s = Known c /\ In c storages.

(** The raw types of the enabled features support the operators on themselves (true of f32, f64
    and glam's vectors). *)
Definition storages_ok : Prop :=
  forall c, In c storages ->
    raw_copy (Known c) = true /\
    (forall op, has_output_type op = true -> raw_op op (Known c) (Known c) = Some (Known c)) /\
    (forall op, In op [TAddAssign; TSubAssign; TMulAssign; TDivAssign] ->
                raw_op op (Known c) (Known c) <> None).

Definition dimensionless (d : dimval X) : Prop := dim_none X fields = Some d.

Definition spec (op : trait) (tl tr : ty X) (out : option (sty * dimval X)) : Prop :=
  let '(r1, b1) := tl in
  let '(r2, b2) := tr in
  match b1, b2 with
  | TyQ s1 d1, TyQ s2 d2 =>
      exists o, raw_supports op r1 s1 r2 s2 o /\
      match op with
      | TAdd | TSub => readable r1 /\ readable r2 /\ d1 = d2 /\ out = Some (o, d1)
      | TMul => readable r1 /\ readable r2 /\
                exists d, dim_add X fields d1 d2 = Some d /\ out = Some (o, d)
      | TDiv => readable r1 /\ readable r2 /\
                exists d, dim_sub X fields d1 d2 = Some d /\ out = Some (o, d)
      | TAddAssign | TSubAssign => writable r1 /\ readable r2 /\ d1 = d2 /\ out = None
      | TMulAssign | TDivAssign => writable r1 /\ readable r2 /\ dimensionless d2 /\ out = None
      | TPartialEq | TPartialOrd =>
          readable r1 /\ readable r2 /\ ~ (r1 = Reference /\ r2 = Reference) /\ d1 = d2 /\ out = None
      end
  | TyQ s d, TyS s' =>
      exists o, raw_supports op r1 s r2 s' o /\
      match op with
      | TAdd | TSub => readable r1 /\ readable r2 /\ s = s' /\ dimensionless d /\ out = Some (o, d)
      | TMul | TDiv => readable r1 /\ readable r2 /\ supported s' /\ out = Some (o, d)
      | TAddAssign | TSubAssign => writable r1 /\ readable r2 /\ s = s' /\ dimensionless d /\ out = None
      | TMulAssign | TDivAssign => r1 = Value /\ readable r2 /\ s = s' /\ supported s' /\ out = None
      | TPartialEq | TPartialOrd => r1 = Value /\ r2 = Value /\ supported s' /\ dimensionless d /\ out = None
      end
  | TyS s, TyQ s' d =>
      exists o, raw_supports op r1 s r2 s' o /\ supported s /\
      match op with
      | TAdd | TSub => readable r1 /\ readable r2 /\ s = s' /\ dimensionless d /\ out = Some (o, d)
      | TMul => readable r1 /\ readable r2 /\ out = Some (o, d)
      | TDiv => readable r1 /\ readable r2 /\
                exists d', dim_neg X fields d = Some d' /\ out = Some (o, d')
      | TAddAssign | TSubAssign | TMulAssign | TDivAssign =>
          r1 = Value /\ readable r2 /\ s = s' /\ dimensionless d /\ out = None
      | TPartialEq | TPartialOrd => r1 = Value /\ r2 = Value /\ dimensionless d /\ out = None
      end
  | TyS _, TyS _ => False
  end.
End Spec.
