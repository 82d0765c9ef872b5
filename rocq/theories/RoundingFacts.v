(** * Facts on roundings; the two implementations of powi are accurate *)
From Coq Require Import String List Bool ZArith QArith Qreals Reals Lra Lia Psatz.
From Flocq Require Import Core Relative IEEE754.Binary IEEE754.Bits.
From Flocq Require IEEE754.BinarySingleNaN.
From Verif Require Import F64 FloatOps DecimalFacts NumericFacts FloatFacts FloatAccuracy Types Parse Grammar
  Accuracy RoundingSpec.
Import ListNotations.
Local Open Scope R_scope.
Notation u := (bpow radix2 (-53)).

Lemma u0 : 0 < u < / 8.
Proof.
  split; [apply bpow_gt_0|]. change (/ 8) with (bpow radix2 (-3)). apply bpow_lt. lia.
Qed.
Lemma pw m : 0 < (1 - u) ^ m <= 1.
Proof.
  pose proof u0. split; [apply pow_lt; lra|]. replace 1 with (1 ^ m) at 2 by apply pow1. apply pow_incr. lra.
Qed.
Lemma near_0 x : near 0 x x.
Proof. exists 1. simpl. lra. Qed.
Lemma near_mono m n x y : (m <= n)%nat -> near m x y -> near n x y.
Proof.
  intros H (t & B & ->). exists t. split; [|reflexivity]. pose proof (pw m). pose proof (pw n).
  assert (E : (1 - u) ^ n <= (1 - u) ^ m).
  { replace n with (m + (n - m))%nat by lia. rewrite pow_add. pose proof (pw (n - m)). nra. }
  split; [lra|]. apply Rle_trans with (/ (1 - u) ^ m); [lra|]. apply Rinv_le_contravar; lra.
Qed.
Lemma near_mul m n x y x' y' : near m x x' -> near n y y' -> near (m + n) (x * y) (x' * y').
Proof.
  intros (t & B & ->) (s & D & ->). exists (t * s). split; [|ring].
  pose proof (pw m). pose proof (pw n). rewrite pow_add, Rinv_mult. split; apply Rmult_le_compat; lra.
Qed.
Lemma near_inv m x y : near m x y -> near m (/ x) (/ y).
Proof.
  intros (t & B & ->). exists (/ t). pose proof (pw m). split; [|now rewrite Rinv_mult].
  split.
  - rewrite <- (Rinv_inv ((1 - u) ^ m)). apply Rinv_le_contravar; lra.
  - apply Rinv_le_contravar; lra.
Qed.
Lemma near_div m n x y x' y' : near m x x' -> near n y y' -> near (m + n) (x / y) (x' / y').
Proof. intros A B. unfold Rdiv. apply near_mul; [exact A|]. now apply near_inv. Qed.
Lemma near_trans m n x y z : near m x y -> near n y z -> near (m + n) x z.
Proof.
  intros (t & B & ->) (s & D & ->). exists (t * s). split; [|ring].
  pose proof (pw m). pose proof (pw n). rewrite pow_add, Rinv_mult. split; apply Rmult_le_compat; lra.
Qed.
Lemma near_pow k m x y : near m x y -> near (k * m) (x ^ k) (y ^ k).
Proof. intros H. induction k as [|k IH]; [apply near_0|]. cbn [pow Nat.mul]. now apply near_mul. Qed.
Lemma near_powerRZ z m x y : near m x y -> near (Z.abs_nat z * m) (powerRZ x z) (powerRZ y z).
Proof.
  intros H. destruct z as [|p|p]; cbn [powerRZ Z.abs_nat]; [apply near_0|now apply near_pow|].
  apply near_inv. now apply near_pow.
Qed.
Lemma near_round x e : Rabs e <= u -> near 1 x (x * (1 + e)).
Proof.
  intros H. apply Rabs_le_inv in H. pose proof u0. exists (1 + e). split; [|reflexivity]. rewrite pow_1.
  split; [lra|]. apply Rmult_le_reg_r with (1 - u); [lra|]. rewrite Rinv_l by lra. nra.
Qed.
Lemma within_near m x y : within 53 m x y -> near m x y.
Proof.
  intros (t & B & ->). exists t. split; [|reflexivity]. change (bpow radix2 (- (53))) with u in B.
  pose proof (pw m). pose proof u0. split; [lra|].
  apply Rle_trans with ((1 + u) ^ m); [lra|]. apply Rmult_le_reg_r with ((1 - u) ^ m); [lra|].
  rewrite Rinv_l by lra. rewrite <- Rpow_mult_distr. replace 1 with (1 ^ m) at 3 by apply pow1. apply pow_incr. set (w := u) in *. split; nra.
Qed.

(** Few roundings change little. *)
Lemma few m : (Z.of_nat m <= 2 ^ 45)%Z -> INR m * u <= / 8.
Proof.
  intros H. rewrite INR_IZR_INZ. apply IZR_le in H.
  apply Rle_trans with (IZR (2 ^ 45) * u); [apply Rmult_le_compat_r; [apply bpow_ge_0|exact H]|].
  change 2%Z with (radix_val radix2) at 1. rewrite (IZR_Zpower radix2) by lia. rewrite <- bpow_plus.
  change (/ 8) with (bpow radix2 (-3)). apply bpow_le. lia.
Qed.
Lemma near_factor m t : (Z.of_nat m <= 2 ^ 45)%Z -> (1 - u) ^ m <= t <= / (1 - u) ^ m ->
  1 - INR m * u <= t <= 1 + 2 * (INR m * u).
Proof.
  intros H B. pose proof (few m H). pose proof (bernoulli 53 eq_refl m) as BB. change (bpow radix2 (- (53))) with u in BB.
  assert (0 <= INR m * u) by (apply Rmult_le_pos; [apply pos_INR|left; apply u0]).
  split; [lra|]. apply Rle_trans with (/ (1 - u) ^ m); [lra|].
  apply Rle_trans with (/ (1 - INR m * u)); [apply Rinv_le_contravar; lra|].
  apply Rmult_le_reg_r with (1 - INR m * u); [lra|]. rewrite Rinv_l by lra. nra.
Qed.
Lemma near_bounds m x y : (Z.of_nat m <= 2 ^ 45)%Z -> near m x y -> Rabs x / 2 <= Rabs y <= 2 * Rabs x.
Proof.
  intros H (t & B & ->). pose proof (near_factor m t H B). pose proof (few m H).
  assert (0 <= INR m * u) by (apply Rmult_le_pos; [apply pos_INR|left; apply u0]).
  rewrite Rabs_mult, (Rabs_pos_eq t) by lra. pose proof (Rabs_pos x). split; nra.
Qed.
Lemma near_error m x y : (Z.of_nat m <= 2 ^ 45)%Z -> near m x y -> Rabs (y - x) <= 2 * INR m * u * Rabs x.
Proof.
  intros H (t & B & ->). pose proof (near_factor m t H B).
  assert (0 <= INR m * u) by (apply Rmult_le_pos; [apply pos_INR|left; apply u0]).
  replace (x * t - x) with (x * (t - 1)) by ring. rewrite Rabs_mult, Rmult_comm.
  apply Rmult_le_compat_r; [apply Rabs_pos|]. apply Rabs_le. lra.
Qed.

(** ** Operations *)
Notation fin x := (is_finite 53 1024 x = true).
Notation val := (B2R 53 1024).
Definition approx (m : nat) (x : R) (v : f64) : Prop := fin v /\ near m x (val v).
Definition wide (x : R) : Prop := bpow radix2 (-1010) <= Rabs x <= bpow radix2 1010.

Lemma wide_range x : wide x -> range64 x.
Proof.
  intros [L H]. right. split.
  - eapply Rle_trans; [|exact L]. apply bpow_le. lia.
  - eapply Rle_trans; [exact H|]. apply Rle_trans with (bpow radix2 1023); [apply bpow_le; lia|].
    change (bpow radix2 1024) with (bpow radix2 (1 + 1023)). rewrite bpow_plus. change (bpow radix2 1) with 2.
    pose proof (bpow_gt_0 radix2 1023). change (bpow radix2 (- (53))) with u. pose proof u0. nra.
Qed.
Lemma near_wide m x y : (Z.of_nat m <= 2 ^ 45)%Z -> near m x y ->
  bpow radix2 (-1009) <= Rabs x <= bpow radix2 1009 -> wide y.
Proof.
  intros Hm N [L H]. pose proof (near_bounds m x y Hm N) as [A B]. split.
  - eapply Rle_trans; [|exact A]. change (-1009)%Z with (1 + -1010)%Z in L. rewrite bpow_plus in L.
    change (bpow radix2 1) with 2 in L. lra.
  - eapply Rle_trans; [exact B|]. change (1010)%Z with (1 + 1009)%Z. rewrite bpow_plus. change (bpow radix2 1) with 2. lra.
Qed.
Lemma approx_mul m n x y a b : (Z.of_nat (m + n) <= 2 ^ 45)%Z -> approx m x a -> approx n y b ->
  bpow radix2 (-1009) <= Rabs (x * y) <= bpow radix2 1009 -> approx (m + n + 1) (x * y) (f64_mul a b).
Proof.
  intros H [Fa Na] [Fb Nb] W. pose proof (near_mul _ _ _ _ _ _ Na Nb) as N.
  destruct (f64_mul_error a b Fa Fb) as (F & e & Be & E); [apply wide_range, (near_wide _ _ _ H N W)|].
  split; [exact F|]. rewrite E. eapply near_trans; [exact N|]. now apply near_round.
Qed.
Lemma approx_div m n x y a b : (Z.of_nat (m + n) <= 2 ^ 45)%Z -> approx m x a -> approx n y b -> y <> 0 ->
  bpow radix2 (-1009) <= Rabs (x / y) <= bpow radix2 1009 -> approx (m + n + 1) (x / y) (f64_div a b).
Proof.
  intros H [Fa Na] [Fb Nb] Y W. pose proof (near_div _ _ _ _ _ _ Na Nb) as N.
  assert (Z : val b <> 0).
  { destruct Nb as (t & B & ->). pose proof (pw n). apply Rmult_integral_contrapositive. split; [exact Y|lra]. }
  destruct (f64_div_error a b Fa Z) as (F & e & Be & E); [apply wide_range, (near_wide _ _ _ H N W)|].
  split; [exact F|]. rewrite E. eapply near_trans; [exact N|]. now apply near_round.
Qed.

(** ** powi *)
Section Powi.
Context (x : R) (N : nat).
Hypothesis HN : INR N * u <= / 2.
Hypothesis HL : bpow radix2 (-1021) <= Rabs x ^ N.
Hypothesis HH : Rabs x ^ N <= bpow radix2 1021.

Lemma mul_step (a b : f64) ka kb ma mb :
  fin a -> fin b -> within 53 ma (x ^ ka) (val a) -> within 53 mb (x ^ kb) (val b) ->
  (ka + kb <= N)%nat -> (ma + mb <= N)%nat ->
  fin (f64_mul a b) /\ within 53 (S (ma + mb)) (x ^ (ka + kb)) (val (f64_mul a b)).
Proof.
  intros. unfold f64_mul, b64_mult. apply (step_mul 53 1024 eq_refl eq_refl ltac:(lia) _ x N); auto. lia.
Qed.

Lemma rt_pos p : forall (r a : f64) kr ka,
  fin r -> fin a -> within 53 kr (x ^ kr) (val r) -> within 53 (Nat.pred ka) (x ^ ka) (val a) -> (1 <= ka)%nat ->
  (kr + ka * Pos.to_nat p <= N)%nat ->
  fin (powi_rt_pos r a p) /\ within 53 (kr + ka * Pos.to_nat p) (x ^ (kr + ka * Pos.to_nat p)) (val (powi_rt_pos r a p)).
Proof.
  induction p as [p IH|p IH|]; intros r a kr ka Fr Fa Wr Wa K H; cbn [powi_rt_pos].
  - rewrite Pos2Nat.inj_xI in H |- *.
    assert (1 <= Pos.to_nat p)%nat by (pose proof (Pos2Nat.is_pos p); lia).
    destruct (mul_step r a kr ka kr (Nat.pred ka) Fr Fa Wr Wa) as [F1 W1]; [nia|nia|].
    destruct (mul_step a a ka ka (Nat.pred ka) (Nat.pred ka) Fa Fa Wa Wa) as [F2 W2]; [nia|nia|].
    replace (S (kr + Nat.pred ka)) with (kr + ka)%nat in W1 by lia.
    replace (S (Nat.pred ka + Nat.pred ka)) with (Nat.pred (ka + ka)) in W2 by lia.
    replace (kr + ka * S (2 * Pos.to_nat p))%nat with (kr + ka + (ka + ka) * Pos.to_nat p)%nat in * by ring.
    apply IH; auto; lia.
  - rewrite Pos2Nat.inj_xO in H |- *.
    assert (1 <= Pos.to_nat p)%nat by (pose proof (Pos2Nat.is_pos p); lia).
    destruct (mul_step a a ka ka (Nat.pred ka) (Nat.pred ka) Fa Fa Wa Wa) as [F2 W2]; [nia|nia|].
    replace (S (Nat.pred ka + Nat.pred ka)) with (Nat.pred (ka + ka)) in W2 by lia.
    replace (kr + ka * (2 * Pos.to_nat p))%nat with (kr + (ka + ka) * Pos.to_nat p)%nat in * by ring.
    apply IH; auto; lia.
  - rewrite Pos2Nat.inj_1, Nat.mul_1_r in *.
    destruct (mul_step r a kr ka kr (Nat.pred ka) Fr Fa Wr Wa) as [F1 W1]; [lia|lia|].
    replace (S (kr + Nat.pred ka)) with (kr + ka)%nat in W1 by lia. auto.
Qed.

(** The exponent left for the accumulator loop: [n] without its lowest bit. *)
Definition rest (n : positive) : nat := match n with xH => 0 | xO p | xI p => 2 * Pos.to_nat p end.
Lemma nt_acc p : forall (r a : f64) kr ka,
  fin r -> fin a -> within 53 (Nat.pred kr) (x ^ kr) (val r) -> within 53 (Nat.pred ka) (x ^ ka) (val a) ->
  (1 <= kr)%nat -> (1 <= ka)%nat -> (kr + ka * rest p <= N)%nat ->
  fin (pow_nt_acc r a p) /\ within 53 (Nat.pred (kr + ka * rest p)) (x ^ (kr + ka * rest p)) (val (pow_nt_acc r a p)).
Proof.
  assert (SQ : forall (a : f64) ka, fin a -> within 53 (Nat.pred ka) (x ^ ka) (val a) -> (1 <= ka)%nat -> (2 * ka <= N)%nat ->
    fin (f64_mul a a) /\ within 53 (Nat.pred (2 * ka)) (x ^ (2 * ka)) (val (f64_mul a a))).
  { intros a ka Fa Wa K H. destruct (mul_step a a ka ka (Nat.pred ka) (Nat.pred ka) Fa Fa Wa Wa) as [F W]; [lia|lia|].
    replace (S (Nat.pred ka + Nat.pred ka)) with (Nat.pred (2 * ka)) in W by lia.
    replace (ka + ka)%nat with (2 * ka)%nat in W by lia. auto. }
  assert (ST : forall q, (forall (r a : f64) kr ka,
      fin r -> fin a -> within 53 (Nat.pred kr) (x ^ kr) (val r) -> within 53 (Nat.pred ka) (x ^ ka) (val a) ->
      (1 <= kr)%nat -> (1 <= ka)%nat -> (kr + ka * rest q <= N)%nat ->
      fin (pow_nt_acc r a q) /\ within 53 (Nat.pred (kr + ka * rest q)) (x ^ (kr + ka * rest q)) (val (pow_nt_acc r a q))) ->
    forall (r a : f64) kr ka,
      fin r -> fin a -> within 53 (Nat.pred kr) (x ^ kr) (val r) -> within 53 (Nat.pred ka) (x ^ ka) (val a) ->
      (1 <= kr)%nat -> (1 <= ka)%nat -> (kr + ka * (2 * Pos.to_nat q) <= N)%nat ->
      let z := match q with
               | xO _ => pow_nt_acc r (f64_mul a a) q
               | _ => pow_nt_acc (f64_mul r (f64_mul a a)) (f64_mul a a) q
               end in
      fin z /\ within 53 (Nat.pred (kr + ka * (2 * Pos.to_nat q))) (x ^ (kr + ka * (2 * Pos.to_nat q))) (val z)).
  { intros q IH r a kr ka Fr Fa Wr Wa Kr Ka H. cbv zeta. pose proof (Pos2Nat.is_pos q).
    destruct (SQ a ka Fa Wa Ka ltac:(nia)) as [F2 W2].
    assert (OD : (1 <= 2 * Pos.to_nat q - 2 * rest q)%nat -> rest q = (Pos.to_nat q - 1)%nat ->
      fin (pow_nt_acc (f64_mul r (f64_mul a a)) (f64_mul a a) q) /\
      within 53 (Nat.pred (kr + ka * (2 * Pos.to_nat q))) (x ^ (kr + ka * (2 * Pos.to_nat q)))
        (val (pow_nt_acc (f64_mul r (f64_mul a a)) (f64_mul a a) q))).
    { intros _ Er. destruct (mul_step r (f64_mul a a) kr (2 * ka) (Nat.pred kr) (Nat.pred (2 * ka)) Fr F2 Wr W2) as [F3 W3]; [nia|nia|].
      replace (S (Nat.pred kr + Nat.pred (2 * ka))) with (Nat.pred (kr + 2 * ka)) in W3 by lia.
      replace (kr + ka * (2 * Pos.to_nat q))%nat with (kr + 2 * ka + 2 * ka * rest q)%nat by (rewrite Er; nia).
      apply IH; auto; try lia. rewrite Er. nia. }
    destruct q as [s|s|].
    - apply OD; cbn [rest]; rewrite Pos2Nat.inj_xI; lia.
    - replace (kr + ka * (2 * Pos.to_nat s~0))%nat with (kr + 2 * ka * rest s~0)%nat
        by (cbn [rest]; rewrite Pos2Nat.inj_xO; nia).
      apply IH; auto; try lia. cbn [rest]. rewrite Pos2Nat.inj_xO in H. nia.
    - apply OD; cbn [rest]; rewrite ?Pos2Nat.inj_1; lia. }
  induction p as [p IH|p IH|]; intros r a kr ka Fr Fa Wr Wa Kr Ka H.
  - exact (ST p IH r a kr ka Fr Fa Wr Wa Kr Ka H).
  - exact (ST p IH r a kr ka Fr Fa Wr Wa Kr Ka H).
  - cbn [pow_nt_acc rest] in *. rewrite Nat.mul_0_r, Nat.add_0_r. auto.
Qed.
Lemma nt_pos p : forall (a : f64) ka,
  fin a -> within 53 (Nat.pred ka) (x ^ ka) (val a) -> (1 <= ka)%nat -> (ka * Pos.to_nat p <= N)%nat ->
  fin (pow_nt a p) /\ within 53 (Nat.pred (ka * Pos.to_nat p)) (x ^ (ka * Pos.to_nat p)) (val (pow_nt a p)).
Proof.
  induction p as [p IH|p IH|]; intros a ka Fa Wa K H; cbn [pow_nt].
  - replace (ka * Pos.to_nat p~1)%nat with (ka + ka * rest p~1)%nat in * by (cbn [rest]; rewrite Pos2Nat.inj_xI; nia).
    apply nt_acc; auto.
  - rewrite Pos2Nat.inj_xO in H |- *. pose proof (Pos2Nat.is_pos p).
    destruct (mul_step a a ka ka (Nat.pred ka) (Nat.pred ka) Fa Fa Wa Wa) as [F2 W2]; [nia|nia|].
    replace (S (Nat.pred ka + Nat.pred ka)) with (Nat.pred (ka + ka)) in W2 by lia.
    replace (ka * (2 * Pos.to_nat p))%nat with ((ka + ka) * Pos.to_nat p)%nat in * by ring.
    apply IH; auto; lia.
  - rewrite Pos2Nat.inj_1, Nat.mul_1_r. auto.
Qed.
End Powi.

Lemma one_R : fin f64_one /\ val f64_one = 1.
Proof. destruct (f64_of_Z_exact 1) as (F & E & _); [reflexivity|]. exact (conj F E). Qed.
Lemma few_powers p : (Zpos p < 2 ^ 31)%Z -> INR (Pos.to_nat p) * u <= / 8.
Proof. intros H. apply few. rewrite positive_nat_Z. lia. Qed.

Lemma powi_rt_accurate : accurate_powi powi_rt.
Proof.
  intros a z Fa Hz [L H]. destruct one_R as [F1 V1].
  assert (P : forall p, (Zpos p < 2 ^ 31)%Z ->
    bpow radix2 (-1021) <= Rabs (val a) ^ Pos.to_nat p <= bpow radix2 1021 ->
    fin (powi_rt_pos f64_one a p) /\ near (Pos.to_nat p) (val a ^ Pos.to_nat p) (val (powi_rt_pos f64_one a p))).
  { intros p Hp [L' H']. pose proof (few_powers p Hp) as Fw.
    destruct (rt_pos (val a) (Pos.to_nat p) ltac:(lra) L' H' p f64_one a 0%nat 1%nat F1 Fa) as [A B].
    - exists 1. rewrite V1. simpl. lra.
    - exists 1. simpl. lra.
    - lia.
    - lia.
    - replace (0 + 1 * Pos.to_nat p)%nat with (Pos.to_nat p) in B by lia. split; [exact A|]. now apply within_near. }
  destruct z as [|p|p]; cbn [powi_rt powerRZ Z.abs_nat] in *.
  - split; [exact F1|]. rewrite V1. apply near_0.
  - rewrite <- RPow_abs in L, H. destruct (P p Hz) as [A B].
    + split; [eapply Rle_trans; [|exact L]|eapply Rle_trans; [exact H|]]; apply bpow_le; lia.
    + split; [exact A|]. eapply near_mono; [|exact B]. lia.
  - rewrite Rabs_inv, <- RPow_abs in L, H.
    assert (Pz : 0 < Rabs (val a) ^ Pos.to_nat p).
    { destruct (Rle_lt_or_eq_dec 0 (Rabs (val a) ^ Pos.to_nat p)) as [Q|Q]; [apply pow_le, Rabs_pos|exact Q|].
      rewrite <- Q, Rinv_0 in L. pose proof (bpow_gt_0 radix2 (-1000)). lra. }
    assert (R : bpow radix2 (-1000) <= Rabs (val a) ^ Pos.to_nat p <= bpow radix2 1000).
    { rewrite <- (Rinv_inv (Rabs (val a) ^ Pos.to_nat p)). split.
      - change (-1000)%Z with (- (1000))%Z. rewrite bpow_opp. apply Rinv_le_contravar; [now apply Rinv_0_lt_compat|exact H].
      - change (1000)%Z with (- (-1000))%Z. rewrite bpow_opp. apply Rinv_le_contravar; [apply bpow_gt_0|exact L]. }
    destruct (P p Hz) as [A B].
    { split; [eapply Rle_trans; [|exact (proj1 R)]|eapply Rle_trans; [exact (proj2 R)|]]; apply bpow_le; lia. }
    assert (NZ : val a ^ Pos.to_nat p <> 0).
    { intros E. rewrite RPow_abs, E, Rabs_R0 in Pz. lra. }
    destruct (approx_div 0 (Pos.to_nat p) 1 (val a ^ Pos.to_nat p) f64_one (powi_rt_pos f64_one a p)) as [Fd Nd].
    + rewrite Nat.add_0_l, positive_nat_Z. lia.
    + split; [exact F1|]. rewrite V1. apply near_0.
    + split; assumption.
    + exact NZ.
    + unfold Rdiv. rewrite Rmult_1_l, Rabs_inv, <- RPow_abs.
      split; [eapply Rle_trans; [|exact L]|eapply Rle_trans; [exact H|]]; apply bpow_le; lia.
    + split; [exact Fd|]. unfold Rdiv in Nd. rewrite Rmult_1_l in Nd. eapply near_mono; [|exact Nd].
      pose proof (Pos2Nat.is_pos p). lia.
Qed.

Lemma powi_nt_accurate : accurate_powi powi_nt.
Proof.
  intros a z Fa Hz [L H]. destruct one_R as [F1 V1].
  assert (P : forall p (b : f64), fin b -> (Zpos p < 2 ^ 31)%Z ->
    bpow radix2 (-1021) <= Rabs (val b) ^ Pos.to_nat p <= bpow radix2 1021 ->
    fin (pow_nt b p) /\ near (Nat.pred (Pos.to_nat p)) (val b ^ Pos.to_nat p) (val (pow_nt b p))).
  { intros p b Fb Hp [L' H']. pose proof (few_powers p Hp) as Fw.
    destruct (nt_pos (val b) (Pos.to_nat p) ltac:(lra) L' H' p b 1%nat Fb) as [A B].
    - exists 1. simpl. lra.
    - lia.
    - lia.
    - rewrite Nat.mul_1_l in B. split; [exact A|]. now apply within_near. }
  destruct z as [|p|p]; cbn [powi_nt powerRZ Z.abs_nat] in *.
  - split; [exact F1|]. rewrite V1. apply near_0.
  - rewrite <- RPow_abs in L, H. destruct (P p a Fa Hz) as [A B].
    + split; [eapply Rle_trans; [|exact L]|eapply Rle_trans; [exact H|]]; apply bpow_le; lia.
    + split; [exact A|]. eapply near_mono; [|exact B]. lia.
  - pose proof (Pos2Nat.is_pos p) as Pp.
    assert (NZ : val a <> 0).
    { intros E. rewrite E, pow_i, Rinv_0, Rabs_R0 in L by lia. pose proof (bpow_gt_0 radix2 (-1000)). lra. }
    assert (Bt : bpow radix2 (-1000) <= Rabs (/ val a) <= bpow radix2 1000).
    { rewrite <- pow_inv, <- RPow_abs in L, H.
      destruct (Rle_or_lt 1 (Rabs (/ val a))) as [G|G].
      - split; [apply Rle_trans with 1; [change 1 with (bpow radix2 0); apply bpow_le; lia|exact G]|].
          eapply Rle_trans; [|exact H]. rewrite <- (pow_1 (Rabs (/ val a))) at 1. apply Rle_pow; [exact G|lia].
      - split; [|apply Rle_trans with 1; [lra|change 1 with (bpow radix2 0); apply bpow_le; lia]].
          eapply Rle_trans; [exact L|]. replace (Pos.to_nat p) with (1 + (Pos.to_nat p - 1))%nat by lia.
          rewrite pow_add, pow_1. rewrite <- (Rmult_1_r (Rabs (/ val a))) at 3.
          apply Rmult_le_compat_l; [apply Rabs_pos|]. replace 1 with (1 ^ (Pos.to_nat p - 1)) by apply pow1.
          apply pow_incr. pose proof (Rabs_pos (/ val a)). lra. }
    destruct (approx_div 0 0 1 (val a) f64_one a) as [Fd Nd].
    + cbn; lia.
    + split; [exact F1|]. rewrite V1. apply near_0.
    + split; [exact Fa|apply near_0].
    + exact NZ.
    + unfold Rdiv. rewrite Rmult_1_l. destruct Bt.
      split; [eapply Rle_trans; [|eassumption]|eapply Rle_trans; [eassumption|]]; apply bpow_le; lia.
    + unfold Rdiv in Nd. rewrite Rmult_1_l in Nd. cbn [Nat.add] in Nd.
      pose proof (near_pow (Pos.to_nat p) _ _ _ Nd) as Np. rewrite Nat.mul_1_r in Np. rewrite <- pow_inv.
      rewrite <- pow_inv in L, H.
      assert (Few : (Z.of_nat (Pos.to_nat p) <= 2 ^ 45)%Z) by (rewrite positive_nat_Z; lia).
      pose proof (near_wide _ _ _ Few Np) as W.
      destruct (P p (f64_div f64_one a) Fd Hz) as [A B].
      { rewrite RPow_abs. destruct W as [W1 W2].
        - split; [eapply Rle_trans; [|exact L]|eapply Rle_trans; [exact H|]]; apply bpow_le; lia.
        - split; [eapply Rle_trans; [|exact W1]|eapply Rle_trans; [exact W2|]]; apply bpow_le; lia. }
      split; [exact A|]. eapply near_mono; [|exact (near_trans _ _ _ _ _ Np B)]. lia.
Qed.
