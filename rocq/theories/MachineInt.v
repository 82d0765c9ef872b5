(** * Machine integers: Rust's [i64] (and the [as i32] cast) on top of [Z].

    Rust semantics modelled: [+], [-], [*], unary [-] and [abs] on [i64]
    panic on overflow when overflow checks are on (debug profile; const items)
    and wrap modulo 2^64 when they are off (release profile).  [/] and [%]
    truncate towards zero and panic for a zero divisor and for
    [i64::MIN / -1] in both profiles.  A panic is [None]. *)
From Coq Require Import ZArith Lia Bool.
Local Open Scope Z_scope.

(** The overflow-check setting of the compilation profile (rustc's
    [-C overflow-checks]); not in /repo, a parameter of every arithmetic
    operation the repository's code performs. *)
Inductive ovf := Checked | Wrapping.

(** rustc: [i64::MIN], [i64::MAX]. *)
Definition i64_min : Z := - 2 ^ 63.
Definition i64_max : Z := 2 ^ 63 - 1.
Definition in_i64 (z : Z) : bool := (i64_min <=? z) && (z <=? i64_max).

(** Two's complement wrap-around of a mathematical integer into [n] bits. *)
Definition wrap (n : Z) (z : Z) : Z := (z + 2 ^ (n - 1)) mod 2 ^ n - 2 ^ (n - 1).

(** [x as i32] for an [i64] value (used at diman_lib/src/dimension_exponent.rs:29). *)
Definition as_i32 (z : Z) : Z := wrap 32 z.

(** The result of an overflowing operator with mathematical result [z]. *)
Definition fit (m : ovf) (z : Z) : option Z :=
  if in_i64 z then Some z
  else match m with Checked => None | Wrapping => Some (wrap 64 z) end.

(** rustc: the operators [+ - * neg abs] on [i64]. *)
Definition i64_add m a b := fit m (a + b).
Definition i64_sub m a b := fit m (a - b).
Definition i64_mul m a b := fit m (a * b).
Definition i64_neg m a := fit m (- a).
Definition i64_abs m a := fit m (Z.abs a).

(** rustc: [/] and [%] on [i64] (truncating; always checked). *)
Definition i64_div a b : option Z :=
  if b =? 0 then None else if in_i64 (Z.quot a b) then Some (Z.quot a b) else None.
Definition i64_rem a b : option Z :=
  if b =? 0 then None else if in_i64 (Z.quot a b) then Some (Z.rem a b) else None.

(** ** Facts *)

Lemma in_i64_iff z : in_i64 z = true <-> - 2 ^ 63 <= z < 2 ^ 63.
Proof. unfold in_i64, i64_min, i64_max. rewrite andb_true_iff, !Z.leb_le. lia. Qed.

Lemma wrap_bound n z : 0 < n -> - 2 ^ (n - 1) <= wrap n z < 2 ^ (n - 1).
Proof.
  intros Hn. unfold wrap.
  assert (H2 : 2 ^ n = 2 * 2 ^ (n - 1))
    by (replace n with (Z.succ (n - 1)) at 1 by lia; rewrite Z.pow_succ_r; lia).
  assert (0 < 2 ^ (n - 1)) by (apply Z.pow_pos_nonneg; lia).
  pose proof (Z.mod_pos_bound (z + 2 ^ (n - 1)) (2 ^ n)). lia.
Qed.

Lemma wrap_congr n z : 0 < n -> (2 ^ n | wrap n z - z).
Proof.
  intros Hn. unfold wrap.
  assert (0 < 2 ^ n) by (apply Z.pow_pos_nonneg; lia).
  exists (- ((z + 2 ^ (n - 1)) / 2 ^ n)).
  pose proof (Z.div_mod (z + 2 ^ (n - 1)) (2 ^ n)). lia.
Qed.

Lemma wrap_id n z : 0 < n -> - 2 ^ (n - 1) <= z < 2 ^ (n - 1) -> wrap n z = z.
Proof.
  intros Hn Hz. unfold wrap.
  assert (H2 : 2 ^ n = 2 * 2 ^ (n - 1))
    by (replace n with (Z.succ (n - 1)) at 1 by lia; rewrite Z.pow_succ_r; lia).
  rewrite Z.mod_small by lia. lia.
Qed.

Lemma fit_in m z : in_i64 z = true -> fit m z = Some z.
Proof. unfold fit. now intros ->. Qed.

Lemma fit_checked_Some z r : fit Checked z = Some r -> r = z /\ in_i64 z = true.
Proof. unfold fit. destruct (in_i64 z) eqn:E; intros H; now inversion H. Qed.

Lemma fit_range m z r : fit m z = Some r -> in_i64 r = true.
Proof.
  unfold fit. destruct (in_i64 z) eqn:E; [intros H; now inversion H; subst|].
  destruct m; intros H; inversion H; subst.
  apply in_i64_iff. pose proof (wrap_bound 64 z ltac:(lia)) as HB.
  change (64 - 1) with 63 in HB. lia.
Qed.

Lemma fit_wrapping_congr z r : fit Wrapping z = Some r -> (2 ^ 64 | r - z).
Proof.
  unfold fit. destruct (in_i64 z); intros H; inversion H; subst.
  - exists 0. lia.
  - apply wrap_congr. lia.
Qed.

Lemma fit_wrapping_total z : exists r, fit Wrapping z = Some r.
Proof. unfold fit. destruct (in_i64 z); eauto. Qed.

(** Turning overflow checks off never changes a result that exists with checks on. *)
Lemma fit_checked_agrees m z r : fit Checked z = Some r -> fit m z = Some r.
Proof. intros H. apply fit_checked_Some in H as [-> H]. now apply fit_in. Qed.

Lemma i64_div_Some a b q :
  i64_div a b = Some q -> b <> 0 /\ q = Z.quot a b /\ in_i64 q = true.
Proof.
  unfold i64_div. destruct (Z.eqb_spec b 0); [discriminate|].
  destruct (in_i64 (Z.quot a b)) eqn:E; intros H; inversion H; subst; auto.
Qed.

Lemma i64_rem_Some a b r : i64_rem a b = Some r -> b <> 0 /\ r = Z.rem a b.
Proof.
  unfold i64_rem. destruct (Z.eqb_spec b 0); [discriminate|].
  destruct (in_i64 (Z.quot a b)) eqn:E; intros H; inversion H; subst; auto.
Qed.
