(** * Facts for C72: counting roundings in either precision *)
From Coq Require Import ZArith QArith Qreals Reals Lra Lia Psatz.
From Flocq Require Import Core IEEE754.Binary.
From Verif Require Import F64 NumericFacts FloatFacts FloatAccuracy RoundingSpec RoundingFacts.
Close Scope Q_scope.
Local Open Scope R_scope.

Section P.
Context (p : Z) (Hp : (10 <= p)%Z).
Notation w := (bpow radix2 (- p)).
Lemma w0 : 0 < w <= / 8.
Proof. split; [apply bpow_gt_0|]. change (/ 8) with (bpow radix2 (-3)). apply bpow_le. lia. Qed.
Lemma wpow m : 0 < (1 - w) ^ m <= 1.
Proof. pose proof w0. split; [apply pow_lt; lra|]. replace 1 with (1 ^ m) at 2 by apply pow1. apply pow_incr. lra. Qed.
Definition nearp (m : nat) (x y : R) : Prop := exists t, (1 - w) ^ m <= t <= / (1 - w) ^ m /\ y = x * t.
Lemma nearp_trans m n x y z : nearp m x y -> nearp n y z -> nearp (m + n) x z.
Proof.
  intros (t & B & ->) (s & D & ->). exists (t * s). split; [|ring].
  pose proof (wpow m). pose proof (wpow n). rewrite pow_add, Rinv_mult. split; apply Rmult_le_compat; lra.
Qed.
Lemma nearp_mul m n x y x' y' : nearp m x x' -> nearp n y y' -> nearp (m + n) (x * y) (x' * y').
Proof.
  intros (t & B & ->) (s & D & ->). exists (t * s). split; [|ring].
  pose proof (wpow m). pose proof (wpow n). rewrite pow_add, Rinv_mult. split; apply Rmult_le_compat; lra.
Qed.
Lemma nearp_inv m x y : nearp m x y -> nearp m (/ x) (/ y).
Proof.
  intros (t & B & ->). exists (/ t). pose proof (wpow m). split; [|now rewrite Rinv_mult]. split.
  - rewrite <- (Rinv_inv ((1 - w) ^ m)). apply Rinv_le_contravar; lra.
  - apply Rinv_le_contravar; lra.
Qed.
Lemma nearp_div m n x y x' y' : nearp m x x' -> nearp n y y' -> nearp (m + n) (x / y) (x' / y').
Proof. intros A B. apply nearp_mul; [exact A|]. now apply nearp_inv. Qed.
Lemma nearp_0 x : nearp 0 x x.
Proof. exists 1. rewrite !pow_O. lra. Qed.
Lemma nearp_round x e : Rabs e <= w -> nearp 1 x (x * (1 + e)).
Proof.
  intros H. apply Rabs_le_inv in H. pose proof w0. exists (1 + e). split; [|reflexivity]. rewrite pow_1.
  set (v := w) in *. split; [lra|]. apply Rmult_le_reg_r with (1 - v); [lra|]. rewrite Rinv_l by lra. nra.
Qed.
Lemma wbernoulli m : 1 - INR m * w <= (1 - w) ^ m.
Proof.
  pose proof w0. induction m as [|m IH]; [rewrite pow_O; cbn [INR]; lra|]. rewrite S_INR. cbn [pow]. pose proof (wpow m).
  set (v := w) in *. pose proof (pos_INR m). nra.
Qed.
Lemma nearp_factor m t : INR m * w <= / 8 -> (1 - w) ^ m <= t <= / (1 - w) ^ m -> 1 - INR m * w <= t <= 1 + 2 * (INR m * w).
Proof.
  intros H B. pose proof (wbernoulli m) as BB. pose proof w0.
  assert (0 <= INR m * w) by (apply Rmult_le_pos; [apply pos_INR|lra]).
  split; [lra|]. apply Rle_trans with (/ (1 - w) ^ m); [lra|].
  apply Rle_trans with (/ (1 - INR m * w)); [apply Rinv_le_contravar; lra|].
  apply Rmult_le_reg_r with (1 - INR m * w); [lra|]. rewrite Rinv_l by lra. nra.
Qed.
Lemma nearp_bounds m x y : INR m * w <= / 8 -> nearp m x y -> Rabs x / 2 <= Rabs y <= 2 * Rabs x.
Proof.
  intros H (t & B & ->). pose proof (nearp_factor m t H B). pose proof w0.
  assert (0 <= INR m * w) by (apply Rmult_le_pos; [apply pos_INR|lra]).
  rewrite Rabs_mult, (Rabs_pos_eq t) by lra. pose proof (Rabs_pos x). split; nra.
Qed.
Lemma nearp_error m x y : INR m * w <= / 8 -> nearp m x y -> Rabs (y - x) <= 2 * INR m * w * Rabs x.
Proof.
  intros H (t & B & ->). pose proof (nearp_factor m t H B). pose proof w0.
  assert (0 <= INR m * w) by (apply Rmult_le_pos; [apply pos_INR|lra]).
  replace (x * t - x) with (x * (t - 1)) by ring. rewrite Rabs_mult, Rmult_comm.
  apply Rmult_le_compat_r; [apply Rabs_pos|]. apply Rabs_le. lra.
Qed.
Lemma nearp_zero m x y : nearp m x y -> x <> 0 -> y <> 0.
Proof. intros (t & B & ->) H. pose proof (wpow m). apply Rmult_integral_contrapositive. split; [exact H|lra]. Qed.
End P.

(** Up to [2^29] roundings in double precision count as one in single precision. *)
Lemma near_single m x y : (Z.of_nat m <= 2 ^ 29)%Z -> near m x y -> nearp 24 1 x y.
Proof.
  intros H (t & B & ->). exists t. split; [|reflexivity]. rewrite pow_1.
  pose proof (pw m). pose proof (w0 24 ltac:(lia)). pose proof (wbernoulli 53 ltac:(lia) m) as BB.
  change (bpow radix2 (- (53))) with (bpow radix2 (-53)) in BB.
  assert (E : INR m * bpow radix2 (-53) <= bpow radix2 (- (24))).
  { rewrite INR_IZR_INZ. apply IZR_le in H.
    apply Rle_trans with (IZR (2 ^ 29) * bpow radix2 (-53)); [apply Rmult_le_compat_r; [apply bpow_ge_0|exact H]|].
    change 2%Z with (radix_val radix2) at 1. rewrite (IZR_Zpower radix2) by lia. rewrite <- bpow_plus. right. reflexivity. }
  assert (K : 1 - bpow radix2 (- (24)) <= (1 - bpow radix2 (-53)) ^ m) by lra.
  split; [lra|]. apply Rle_trans with (/ (1 - bpow radix2 (-53)) ^ m); [lra|]. apply Rinv_le_contravar; lra.
Qed.

(** The two operations of a conversion, in double and in single precision.
    [r] is the number, [g1] and [g2] the exact factors. *)
Definition within_range (lo hi : Z) (x : R) : Prop := x = 0 \/ bpow radix2 lo <= Rabs x <= bpow radix2 hi.

Lemma range_by p (Hp : (10 <= p)%Z) lo hi (rg : R -> Prop) :
  (forall x, x = 0 \/ bpow radix2 (lo - 1) <= Rabs x <= bpow radix2 (hi + 1) -> rg x) ->
  forall m x y, INR m * bpow radix2 (- p) <= / 8 -> nearp p m x y -> within_range lo hi x -> rg y.
Proof.
  intros R m x y Hm N W. apply R. destruct W as [-> |[L H]].
  - left. destruct N as (t & _ & ->). ring.
  - right. pose proof (nearp_bounds p Hp m x y Hm N) as [A B]. unfold Zminus. rewrite !bpow_plus.
    change (bpow radix2 (- (1))) with (/ 2). change (bpow radix2 1) with 2. lra.
Qed.
Lemma range64_by m x y : INR m * bpow radix2 (-53) <= / 8 -> nearp 53 m x y -> within_range (-1000) 1000 x -> range64 y.
Proof.
  apply (range_by 53 ltac:(lia)). intros z [-> |[L H]]; [now left|]. right. split.
  - eapply Rle_trans; [|exact L]. apply bpow_le. lia.
  - eapply Rle_trans; [exact H|]. apply Rle_trans with (bpow radix2 1023); [apply bpow_le; lia|].
    change (bpow radix2 1024) with (bpow radix2 (1 + 1023)). rewrite bpow_plus. change (bpow radix2 1) with 2.
    pose proof (bpow_gt_0 radix2 1023). change (bpow radix2 (- (53))) with (bpow radix2 (-53)). pose proof u0. nra.
Qed.
Lemma range32_by m x y : INR m * bpow radix2 (- (24)) <= / 8 -> nearp 24 m x y -> within_range (-120) 120 x -> range32 y.
Proof.
  apply (range_by 24 ltac:(lia)). intros z [-> |[L H]]; [now left|]. right. split.
  - eapply Rle_trans; [|exact L]. apply bpow_le. lia.
  - eapply Rle_trans; [exact H|]. apply Rle_trans with (bpow radix2 127); [apply bpow_le; lia|].
    change (bpow radix2 128) with (bpow radix2 (1 + 127)). rewrite bpow_plus. change (bpow radix2 1) with 2.
    pose proof (bpow_gt_0 radix2 127). pose proof (w0 24 ltac:(lia)). nra.
Qed.

Lemma convert64 x f1 f2 g1 g2 m n :
  (Z.of_nat m <= 2 ^ 40)%Z -> (Z.of_nat n <= 2 ^ 40)%Z ->
  fin64 x -> approx m g1 f1 -> approx n g2 f2 -> g2 <> 0 ->
  within_range (-1000) 1000 (v64 x * g1) -> within_range (-1000) 1000 (v64 x * g1 / g2) ->
  fin64 (f64_div (f64_mul x f1) f2) /\
  Rabs (v64 (f64_div (f64_mul x f1) f2) - v64 x * g1 / g2) <=
    2 * INR (m + n + 2) * bpow radix2 (-53) * Rabs (v64 x * g1 / g2).
Proof.
  intros Hm Hn Fx [F1 N1] [F2 N2] Nz W1 W2.
  change (nearp 53 m g1 (v64 f1)) in N1. change (nearp 53 n g2 (v64 f2)) in N2.
  assert (Sm : forall k, (Z.of_nat k <= 2 ^ 42)%Z -> INR k * bpow radix2 (-53) <= / 8) by (intros k Hk; apply few; lia).
  pose proof (nearp_mul 53 ltac:(lia) 0 m _ _ _ _ (nearp_0 53 (v64 x)) N1) as A.
  destruct (f64_mul_error x f1 Fx F1) as (Fz & e & Be & Ez); [apply (range64_by _ _ _ (Sm (0 + m)%nat ltac:(lia)) A W1)|].
  assert (B : nearp 53 (0 + m + 1) (v64 x * g1) (v64 (f64_mul x f1))).
  { rewrite Ez. eapply nearp_trans; [lia|exact A|]. apply nearp_round; [lia|exact Be]. }
  pose proof (nearp_div 53 ltac:(lia) _ _ _ _ _ _ B N2) as D.
  destruct (f64_div_error (f64_mul x f1) f2 Fz) as (Fy & e' & Be' & Ey).
  { apply (nearp_zero 53 ltac:(lia) _ _ _ N2 Nz). }
  { apply (range64_by (0 + m + 1 + n) (v64 x * g1 / g2)); [apply Sm; lia|exact D|exact W2]. }
  split; [exact Fy|]. apply (nearp_error 53 ltac:(lia) (m + n + 2)); [apply Sm; lia|].
  replace (m + n + 2)%nat with (0 + m + 1 + n + 1)%nat by lia. rewrite Ey.
  eapply nearp_trans; [lia|exact D|]. apply nearp_round; [lia|exact Be'].
Qed.

Lemma single_factor m g f : (Z.of_nat m <= 2 ^ 29)%Z -> approx m g f -> within_range (-120) 120 g ->
  fin32 (f64_to_f32 f) /\ nearp 24 2 g (v32 (f64_to_f32 f)).
Proof.
  intros Hm [F N] W. apply near_single in N; [|exact Hm].
  assert (S1 : INR 1 * bpow radix2 (- (24)) <= / 8) by (pose proof (w0 24 ltac:(lia)); cbn [INR]; lra).
  pose proof (range32_by 1 g (v64 f) S1 N W) as Rg.
  pose proof (f64_to_f32_nearest f F) as H. unfold nearest32 in H.
  rewrite Rlt_bool_true in H by exact (rnd_small 24 128 eq_refl eq_refl _ Rg). destruct H as [Ff E]. split; [exact Ff|].
  destruct (rnd_error 24 128 eq_refl _ Rg) as (e & Be & Ee). rewrite E. unfold rnd32.
  match goal with |- nearp 24 2 g ?y => replace y with (v64 f * (1 + e)) by (rewrite <- Ee; reflexivity) end.
  apply (nearp_trans 24 ltac:(lia) 1 1 g (v64 f)); [exact N|]. apply nearp_round; [lia|exact Be].
Qed.

Lemma convert32 x f1 f2 g1 g2 m n :
  (Z.of_nat m <= 2 ^ 29)%Z -> (Z.of_nat n <= 2 ^ 29)%Z ->
  fin32 x -> approx m g1 f1 -> approx n g2 f2 -> g2 <> 0 ->
  within_range (-120) 120 g1 -> within_range (-120) 120 g2 ->
  within_range (-120) 120 (v32 x * g1) -> within_range (-120) 120 (v32 x * g1 / g2) ->
  fin32 (f32_div (f32_mul x (f64_to_f32 f1)) (f64_to_f32 f2)) /\
  Rabs (v32 (f32_div (f32_mul x (f64_to_f32 f1)) (f64_to_f32 f2)) - v32 x * g1 / g2) <=
    12 * bpow radix2 (-24) * Rabs (v32 x * g1 / g2).
Proof.
  intros Hm Hn Fx A1 A2 Nz G1 G2 W1 W2.
  destruct (single_factor m g1 f1 Hm A1 G1) as [F1 N1]. destruct (single_factor n g2 f2 Hn A2 G2) as [F2 N2].
  assert (S' : bpow radix2 (- (24)) <= / 64) by (change (/ 64) with (bpow radix2 (-6)); apply bpow_le; lia).
  assert (Sm : forall k, (k <= 6)%nat -> INR k * bpow radix2 (- (24)) <= / 8).
  { intros k Hk. apply le_INR in Hk. replace (INR 6) with 6 in Hk by (cbn; lra).
    pose proof (pos_INR k). pose proof (bpow_ge_0 radix2 (- (24))). set (w := bpow radix2 (- (24))) in *. nra. }
  pose proof (nearp_mul 24 ltac:(lia) 0 2 _ _ _ _ (nearp_0 24 (v32 x)) N1) as A.
  destruct (f32_mul_error x (f64_to_f32 f1) Fx F1) as (Fz & e & Be & Ez); [apply (range32_by _ _ _ (Sm 2%nat ltac:(lia)) A W1)|].
  assert (B : nearp 24 3 (v32 x * g1) (v32 (f32_mul x (f64_to_f32 f1)))).
  { rewrite Ez. apply (nearp_trans 24 ltac:(lia) 2 1 _ _ _ A). apply nearp_round; [lia|exact Be]. }
  pose proof (nearp_div 24 ltac:(lia) 3 2 _ _ _ _ B N2) as D.
  destruct (f32_div_error (f32_mul x (f64_to_f32 f1)) (f64_to_f32 f2) Fz) as (Fy & e' & Be' & Ey).
  { apply (nearp_zero 24 ltac:(lia) _ _ _ N2 Nz). }
  { apply (range32_by 5 (v32 x * g1 / g2)); [apply Sm; lia|exact D|exact W2]. }
  split; [exact Fy|]. replace 12 with (2 * INR 6) by (cbn; lra). apply (nearp_error 24 ltac:(lia) 6); [apply Sm; lia|].
  rewrite Ey. apply (nearp_trans 24 ltac:(lia) 5 1 _ _ _ D). apply nearp_round; [lia|exact Be'].
Qed.
