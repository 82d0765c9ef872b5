(** * Model of diman_lib/src/ratio.rs *)
From Coq Require Import ZArith Bool String.
From Verif Require Import MachineInt.
Local Open Scope Z_scope.

(** ratio.rs:3-14.  [#[derive(PartialEq, Eq)]] is structural equality, i.e. [=]. *)
Record ratio := mkRatio { num : Z; denom : Z }.

Notation "'let?' x ':=' e 'in' k" :=
  (match e with Some x => k | None => None end)
  (at level 200, x pattern, e at level 100, k at level 200, right associativity).

(** ratio.rs:16-23: the Euclidean loop of [gcd].  The Rust loop is unbounded; the model
    runs on fuel and yields [None] when it runs out (excluded for all [i64] inputs by
    [RatioFacts.gcd_loop_enough]). *)
Fixpoint gcd_loop (fuel : nat) (a b : Z) : option Z :=
  match fuel with
  | O => None
  | S f => if b =? 0 then Some a else let? r := i64_rem a b in gcd_loop f b r
  end.

(** ratio.rs:16-23. *)
Definition gcd (m : ovf) (a b : Z) : option Z :=
  let? g := gcd_loop 200 a b in i64_abs m g.

(** ratio.rs:26-28. *)
Definition rint (n : Z) : ratio := mkRatio n 1.

(** ratio.rs:38-44: [new]; no normalisation of the sign of the denominator. *)
Definition rnew (m : ovf) (n d : Z) : option ratio :=
  let? g := gcd m n d in
  let? n' := i64_div n g in
  let? d' := i64_div d g in
  Some (mkRatio n' d').

(** ratio.rs:46-50: [powi] multiplies numerator and denominator by the exponent. *)
Definition rpowi (m : ovf) (r : ratio) (e : Z) : option ratio :=
  let? n := i64_mul m (num r) e in
  let? d := i64_mul m (denom r) e in
  rnew m n d.

(** ratio.rs:52-56 ([add]) and 123-129 ([add_assign]). *)
Definition radd (m : ovf) (a b : ratio) : option ratio :=
  let? x := i64_mul m (num a) (denom b) in
  let? y := i64_mul m (num b) (denom a) in
  let? n := i64_add m x y in
  let? d := i64_mul m (denom a) (denom b) in
  rnew m n d.

(** ratio.rs:62-67 ([neg]) and 131-140 ([core::ops::Neg]). *)
Definition rneg (m : ovf) (a : ratio) : option ratio :=
  let? n := i64_neg m (num a) in Some (mkRatio n (denom a)).

(** ratio.rs:58-60. *)
Definition rsub (m : ovf) (a b : ratio) : option ratio :=
  let? nb := rneg m b in radd m a nb.

(** ratio.rs:69-73 ([mul]) and 115-121 ([core::ops::Mul]). *)
Definition rmul (m : ovf) (a b : ratio) : option ratio :=
  let? n := i64_mul m (num a) (num b) in
  let? d := i64_mul m (denom a) (denom b) in
  rnew m n d.

(** ratio.rs:79-84. *)
Definition rinv (a : ratio) : ratio := mkRatio (denom a) (num a).

(** ratio.rs:75-77. *)
Definition rdiv (m : ovf) (a b : ratio) : option ratio := rmul m a (rinv b).

(** ratio.rs:88-94. *)
Definition rone : ratio := mkRatio 1 1.
Definition rzero : ratio := mkRatio 0 1.

(** ratio.rs:100-102: [from_int(i as i64)]. *)
Definition rfrom_int (i : Z) : ratio := rint i.

Definition ratio_eqb (a b : ratio) : bool := (num a =? num b) && (denom a =? denom b).

Lemma ratio_eqb_eq a b : ratio_eqb a b = true <-> a = b.
Proof.
  destruct a as [an ad], b as [bn bd]. unfold ratio_eqb; simpl.
  rewrite andb_true_iff, !Z.eqb_eq. split; [intros [-> ->]; auto | now inversion 1].
Qed.
