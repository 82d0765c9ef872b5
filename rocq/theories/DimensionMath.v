(** * Model of diman_unit_system/src/dimension_math.rs *)
From Coq Require Import String List Bool ZArith.
From Verif Require Import MachineInt Ratio F64 Magnitude Exponent SMap Expression.
Import ListNotations.

Section Exp.
Context (X : exp_ops) (env : fenv).

(** dimension_math.rs:11-14: [BaseDimensions]; the hash map as a finite map. *)
Definition bdims := smap X.

(** dimension_math.rs:16-20. *)
Record dimmag := mkDM { dm_dims : bdims; dm_mag : magnitude }.

(** dimension_math.rs:22-32: the hand-written [PartialEq]: every entry of [self] is matched in
    [other] (entries only present in [other] are not looked at). *)
Definition bd_eq (self other : bdims) : bool :=
  forallb (fun kv => match sget (fst kv) other with
                     | Some v => e_eqb X (snd kv) v
                     | None => false
                     end) self.

(** dimension_math.rs:34-38. *)
Definition bd_none : bdims := [].

(** dimension_math.rs:40-44. *)
Definition bd_for_base (d : string) : bdims := sinsert d (e_one X) [].

(** dimension_math.rs:67-78: one iteration of the loop over the entries of [rhs]. *)
Definition bd_mul_step (fields : bdims) (kv : string * X) : option bdims :=
  match sget (fst kv) fields with
  | Some v => let? v' := e_add X v (snd kv) in Some (sinsert (fst kv) v' fields)
  | None => Some (sinsert (fst kv) (snd kv) fields)
  end.

(** The loop over the entries of [rhs] in a given (hash) order. *)
Fixpoint bd_mul_entries (fields : bdims) (rhs : list (string * X)) : option bdims :=
  match rhs with
  | [] => Some fields
  | kv :: rhs' => let? f := bd_mul_step fields kv in bd_mul_entries f rhs'
  end.

(** dimension_math.rs:63-79.  The model iterates in key order; [DimensionMathFacts.bd_mul_order]
    shows that every iteration order gives the same result. *)
Definition bd_mul (a b : bdims) : option bdims := bd_mul_entries a b.

(** dimension_math.rs:81-88. *)
Definition bd_inv (a : bdims) : option bdims := smap_opt (e_neg X) a.

(** dimension_math.rs:90-97. *)
Definition bd_div (a b : bdims) : option bdims := let? i := bd_inv b in bd_mul a i.

(** dimension_math.rs:99-109. *)
Definition bd_pow (a : bdims) (p : X) : option bdims := smap_opt (fun v => e_mul X v p) a.

(** dimension_math.rs:112-124: constructors [magnitude] and [dimensions]. *)
Definition dm_of_magnitude (x : magnitude) : dimmag := mkDM bd_none x.
Definition dm_of_dimensions (d : bdims) : dimmag := mkDM d (from_f64 f64_one).

(** dimension_math.rs:127-136. *)
Definition dm_mul (a b : dimmag) : option dimmag :=
  let? d := bd_mul (dm_dims a) (dm_dims b) in
  Some (mkDM d (mag_mul env (dm_mag a) (dm_mag b))).

(** dimension_math.rs:138-147. *)
Definition dm_div (a b : dimmag) : option dimmag :=
  let? d := bd_div (dm_dims a) (dm_dims b) in
  Some (mkDM d (mag_div env (dm_mag a) (dm_mag b))).

(** dimension_math.rs:149-156. *)
Definition dm_pow (a : dimmag) (p : X) : option dimmag :=
  let? d := bd_pow (dm_dims a) p in
  Some (mkDM d (e_float_pow X env (dm_mag a) p)).

Definition dm_algebra : muldiv dimmag X :=
  {| md_mul := dm_mul; md_div := dm_div; md_pow := dm_pow |}.
End Exp.
Arguments dm_dims {X}. Arguments dm_mag {X}. Arguments mkDM {X}.
