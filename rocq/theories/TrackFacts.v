(** * Facts for C79: running errors on reals and on floats of either precision *)
From Coq Require Import List Bool ZArith Reals Lra Lia Psatz.
From Flocq Require Import Core Relative IEEE754.Binary.
From Flocq Require IEEE754.BinarySingleNaN.
From Verif Require Import F64 FloatOps NumericFacts FloatFacts FloatAccuracy RoundingSpec RoundingFacts ConversionFacts
  Storage Operators FloatMethods Programs TrackSpec PropertiesMethods.
Import ListNotations.
Local Open Scope R_scope.

(** ** Reals *)
Section Reals.
Context (p : Z) (Hp : (10 <= p)%Z).
Notation u := (bpow radix2 (- p)).
Notation off := (off_by u).
Definition grow (n : nat) : R := / (1 - u) ^ n.
Lemma grow_1 n : 1 <= grow n.
Proof. unfold grow. pose proof (wpow p Hp n). apply Rle_trans with (/ 1); [lra|]. apply Rinv_le_contravar; lra. Qed.
Lemma grow_add n m : grow (n + m) = grow n * grow m.
Proof. unfold grow. now rewrite pow_add, Rinv_mult. Qed.
Lemma grow_S : 1 + u <= grow 1.
Proof.
  unfold grow. rewrite pow_1. pose proof (w0 p Hp). apply Rmult_le_reg_r with (1 - u); [lra|].
  rewrite Rinv_l by lra. set (v := u) in *. nra.
Qed.
Lemma grow_mono n m : (n <= m)%nat -> grow n <= grow m.
Proof.
  intros H. replace m with (n + (m - n))%nat by lia. rewrite grow_add. pose proof (grow_1 n). pose proof (grow_1 (m - n)). nra.
Qed.
Lemma grow_few n : few_roundings u n -> grow n <= 8 / 7.
Proof.
  intros H. unfold few_roundings in H. pose proof (wbernoulli p Hp n). unfold grow. replace (8 / 7) with (/ (7 / 8)) by field.
  apply Rinv_le_contravar; lra.
Qed.
Lemma few_mono n m : (n <= m)%nat -> few_roundings u m -> few_roundings u n.
Proof.
  unfold few_roundings. intros H F. apply le_INR in H. pose proof (w0 p Hp). set (v := u) in *. nra.
Qed.
Lemma off_alt n x s y : off n x s y <-> Rabs (y - x) <= (grow n - 1) * s.
Proof. reflexivity. Qed.
Lemma off_mono n m x s t y : (n <= m)%nat -> s <= t -> 0 <= s -> off n x s y -> off m x t y.
Proof.
  rewrite !off_alt. intros H L P O. pose proof (grow_mono n m H). pose proof (grow_1 n). eapply Rle_trans; [exact O|].
  apply Rmult_le_compat; lra.
Qed.
Lemma off_size n x s y : Rabs x <= s -> off n x s y -> Rabs y <= grow n * s.
Proof.
  rewrite off_alt. intros H O. replace y with (x + (y - x)) by ring. eapply Rle_trans; [apply Rabs_triang|]. lra.
Qed.
Lemma off_exact x s : 0 <= s -> off 0 x s x.
Proof. intros H. rewrite off_alt. unfold grow. rewrite Rminus_eq_0, Rabs_R0, pow_O, Rinv_1. lra. Qed.
Lemma off_zero n x y : off n x 0 y -> y = x.
Proof.
  rewrite off_alt, Rmult_0_r. intros H. pose proof (Rabs_pos (y - x)). assert (E : Rabs (y - x) = 0) by lra.
  destruct (Req_dec (y - x) 0) as [Z|Z]; [lra|]. apply Rabs_no_R0 in Z. lra.
Qed.
Lemma off_mul n m x s y t a b : Rabs x <= s -> Rabs y <= t -> off n x s a -> off m y t b -> off (n + m) (x * y) (s * t) (a * b).
Proof.
  intros Hs Ht A B. pose proof (off_size m y t b Ht B) as Bb. rewrite off_alt in *. rewrite grow_add.
  replace (a * b - x * y) with ((a - x) * b + x * (b - y)) by ring. eapply Rle_trans; [apply Rabs_triang|].
  rewrite !Rabs_mult. pose proof (Rabs_pos x). pose proof (Rabs_pos y). pose proof (Rabs_pos b). pose proof (Rabs_pos (a - x)).
  pose proof (Rabs_pos (b - y)). pose proof (grow_1 n). pose proof (grow_1 m).
  apply Rle_trans with ((grow n - 1) * s * (grow m * t) + s * ((grow m - 1) * t)); [|right; ring].
  apply Rplus_le_compat; apply Rmult_le_compat; lra.
Qed.
Lemma off_add n m x s y t a b : 0 <= s -> 0 <= t -> off n x s a -> off m y t b -> off (Nat.max n m) (x + y) (s + t) (a + b).
Proof.
  intros Ps Pt A B. apply (off_mono n (Nat.max n m) x s s a) in A; [|lia|lra|lra].
  apply (off_mono m (Nat.max n m) y t t b) in B; [|lia|lra|lra]. rewrite off_alt in *.
  replace (a + b - (x + y)) with ((a - x) + (b - y)) by ring. eapply Rle_trans; [apply Rabs_triang|]. lra.
Qed.
Lemma off_neg n x s y : off n x s y -> off n (- x) s (- y).
Proof. rewrite !off_alt. intros H. replace (- y - - x) with (- (y - x)) by ring. now rewrite Rabs_Ropp. Qed.
Lemma off_round n x s y z : Rabs x <= s -> off n x s y -> Rabs (z - y) <= u * (grow n * s) -> off (n + 1) x s z.
Proof.
  rewrite !off_alt. intros Hs H E. replace (z - x) with ((z - y) + (y - x)) by ring. eapply Rle_trans; [apply Rabs_triang|].
  rewrite grow_add. pose proof grow_S as G. pose proof (grow_1 n). pose proof (Rabs_pos x).
  assert (P : 0 <= grow n * s) by (apply Rmult_le_pos; lra). set (g := grow n) in *. set (v := u) in *. clearbody g v.
  assert (g * s * (1 + v) <= g * s * grow 1) by (apply Rmult_le_compat_l; lra). lra.
Qed.

(** Relative errors. *)
Lemma off_sign n x y : few_roundings u n -> off n x (Rabs x) y -> exists t, y = x * t /\ 2 - grow n <= t <= grow n /\ (x <> 0 -> 6 / 7 <= t).
Proof.
  intros F H. destruct (Req_dec x 0) as [Z|Z].
  - exists 1. subst x. rewrite Rabs_R0 in H. apply off_zero in H. pose proof (grow_1 n). split; [lra|]. split; [lra|]. now intros [].
  - exists (y / x). split; [now field|]. rewrite off_alt in H. pose proof (grow_few n F) as G.
    assert (K : Rabs (y / x - 1) <= grow n - 1).
    { replace (y / x - 1) with ((y - x) * / x) by now field. rewrite Rabs_mult, Rabs_inv. pose proof (Rabs_pos_lt x Z).
      apply Rmult_le_reg_r with (Rabs x); [lra|]. rewrite Rmult_assoc, Rinv_l by lra. lra. }
    apply Rabs_le_inv in K. split; [lra|]. intros _. lra.
Qed.
Lemma grow_twice n t : few_roundings u n -> 2 - grow n <= t <= grow n -> / grow (2 * n) <= t <= grow (2 * n).
Proof.
  intros F B. pose proof (grow_few n F) as G. pose proof (grow_1 n) as G1. replace (2 * n)%nat with (n + n)%nat by lia.
  rewrite grow_add. set (g := grow n) in *. split; [|nra].
  assert (P : 0 < g * g) by nra. apply Rmult_le_reg_l with (g * g); [exact P|]. rewrite Rinv_r by lra.
  assert (Q : 1 <= g * g * (2 - g)).
  { assert (E : g * g * (2 - g) - 1 = (g - 1) * (1 + g - g * g)) by ring.
    assert (0 <= (g - 1) * (1 + g - g * g)) by (apply Rmult_le_pos; nra). lra. }
  eapply Rle_trans; [exact Q|]. apply Rmult_le_compat_l; lra.
Qed.
Lemma off_nearp n x y : few_roundings u n -> off n x (Rabs x) y -> nearp p (2 * n) x y.
Proof.
  intros F H. destruct (off_sign n x y F H) as (t & E & B & _). exists t. split; [|exact E].
  pose proof (grow_twice n t F B) as K. unfold grow in K. now rewrite Rinv_inv in K.
Qed.
Lemma nearp_off n x y : nearp p n x y -> off n x (Rabs x) y.
Proof.
  intros (t & B & ->). rewrite off_alt. replace (x * t - x) with (x * (t - 1)) by ring. rewrite Rabs_mult, Rmult_comm.
  apply Rmult_le_compat_r; [apply Rabs_pos|]. fold (grow n) in B. pose proof (grow_1 n). pose proof (wpow p Hp n).
  assert (1 - grow n <= (1 - u) ^ n - 1).
  { unfold grow in *. set (q := (1 - u) ^ n) in *. assert (q * / q = 1) by (apply Rinv_r; lra). nra. }
  apply Rabs_le. lra.
Qed.
Lemma off_inv n x y : few_roundings u n -> x <> 0 -> off n x (Rabs x) y -> y <> 0 /\ off (2 * n) (/ x) (/ Rabs x) (/ y).
Proof.
  intros F Z H. split.
  - destruct (off_sign n x y F H) as (t & -> & _ & K). specialize (K Z). apply Rmult_integral_contrapositive. split; [exact Z|lra].
  - apply off_nearp in H; [|exact F]. apply nearp_inv in H; [|exact Hp]. rewrite <- Rabs_inv. now apply nearp_off.
Qed.
Lemma nearp_inv_off n x y : x <> 0 -> nearp p n x y -> y <> 0 /\ off n (/ x) (/ Rabs x) (/ y).
Proof.
  intros Z H. split; [now apply (nearp_zero p Hp n x y)|]. apply nearp_inv in H; [|exact Hp]. rewrite <- Rabs_inv. now apply nearp_off.
Qed.
Lemma grow_mul c n : INR c * (grow n - 1) <= grow (c * n) - 1.
Proof.
  induction c as [|c IH]; [cbn [INR Nat.mul]; pose proof (grow_1 0); lra|]. rewrite S_INR. cbn [Nat.mul]. rewrite grow_add.
  pose proof (grow_1 n). pose proof (grow_1 (c * n)). nra.
Qed.
Lemma off_relative n c x s y : off n x s y -> s <= INR c * Rabs x -> off (c * n) x (Rabs x) y.
Proof.
  rewrite !off_alt. intros H L. pose proof (grow_1 n). eapply Rle_trans; [exact H|].
  apply Rle_trans with ((grow n - 1) * (INR c * Rabs x)); [apply Rmult_le_compat_l; lra|].
  pose proof (grow_mul c n). pose proof (Rabs_pos x). nra.
Qed.
Lemma nearp_pow z n x y : nearp p n x y -> nearp p (Z.abs_nat z * n) (powerRZ x z) (powerRZ y z).
Proof.
  assert (K : forall m, nearp p n x y -> nearp p (m * n) (x ^ m) (y ^ m)).
  { induction m as [|m IH]; intros H; [cbn; apply nearp_0|]. cbn [Nat.mul pow]. apply nearp_mul; auto. }
  intros H. destruct z as [|q|q]; cbn [powerRZ Z.abs_nat]; [apply nearp_0|now apply K|]. apply nearp_inv; [exact Hp|]. now apply K.
Qed.
Lemma off_few k x y : Rabs (y - x) <= INR k * u * Rabs x -> off k x (Rabs x) y.
Proof.
  rewrite off_alt. intros H. eapply Rle_trans; [exact H|]. apply Rmult_le_compat_r; [apply Rabs_pos|].
  pose proof (grow_mul k 1) as G. rewrite Nat.mul_1_r in G. pose proof grow_S. pose proof (pos_INR k). set (v := u) in *. nra.
Qed.
Lemma off_trans_rel n m x y z : off n x (Rabs x) y -> off m y (Rabs y) z -> off (n + m) x (Rabs x) z.
Proof.
  intros A B. pose proof (off_size n x (Rabs x) y (Rle_refl _) A) as S1. rewrite off_alt in *. rewrite grow_add.
  replace (z - x) with ((z - y) + (y - x)) by ring. eapply Rle_trans; [apply Rabs_triang|].
  pose proof (grow_1 n). pose proof (grow_1 m). pose proof (Rabs_pos x). pose proof (Rabs_pos y). set (g := grow n) in *. set (h := grow m) in *.
  assert ((h - 1) * Rabs y <= (h - 1) * (g * Rabs x)) by (apply Rmult_le_compat_l; lra). nra.
Qed.
Lemma off_sqrt n x y : few_roundings u n -> 0 <= x -> off n x x y -> 0 <= y /\ off n (sqrt x) (sqrt x) (sqrt y).
Proof.
  intros F P H. assert (H' : off n x (Rabs x) y) by (now rewrite Rabs_pos_eq).
  destruct (off_sign n x y F H') as (t & -> & B & K). pose proof (grow_few n F). pose proof (grow_1 n).
  assert (T0 : 0 <= t) by lra. split; [now apply Rmult_le_pos|]. rewrite sqrt_mult by assumption. rewrite off_alt.
  replace (sqrt x * sqrt t - sqrt x) with (sqrt x * (sqrt t - 1)) by ring. rewrite Rabs_mult, (Rabs_pos_eq (sqrt x)) by apply sqrt_pos.
  rewrite Rmult_comm. apply Rmult_le_compat_r; [apply sqrt_pos|]. pose proof (sqrt_pos t) as Q. pose proof (sqrt_sqrt t T0) as E.
  set (r := sqrt t) in *. apply Rabs_le. split; nra.
Qed.
Lemma off_min n m x s y t a b : 0 <= s -> 0 <= t -> off n x s a -> off m y t b -> off (Nat.max n m) (Rmin x y) (Rmax s t) (Rmin a b).
Proof.
  intros Ps Pt A B. pose proof (Rmax_l s t). pose proof (Rmax_r s t).
  apply (off_mono n (Nat.max n m) x s (Rmax s t) a) in A; [|lia|lra|lra].
  apply (off_mono m (Nat.max n m) y t (Rmax s t) b) in B; [|lia|lra|lra]. rewrite off_alt in *.
  apply Rabs_le_inv in A, B. apply Rabs_le. unfold Rmin. destruct (Rle_dec a b), (Rle_dec x y); lra.
Qed.
Lemma off_max n m x s y t a b : 0 <= s -> 0 <= t -> off n x s a -> off m y t b -> off (Nat.max n m) (Rmax x y) (Rmax s t) (Rmax a b).
Proof.
  intros Ps Pt A B. pose proof (Rmax_l s t). pose proof (Rmax_r s t).
  apply (off_mono n (Nat.max n m) x s (Rmax s t) a) in A; [|lia|lra|lra].
  apply (off_mono m (Nat.max n m) y t (Rmax s t) b) in B; [|lia|lra|lra]. rewrite off_alt in *.
  set (e := (grow (Nat.max n m) - 1) * Rmax s t) in *. clearbody e.
  apply Rabs_le_inv in A, B. apply Rabs_le. unfold Rmax. destruct (Rle_dec a b), (Rle_dec x y); lra.
Qed.
Lemma off_abs n x s y : off n x s y -> off n (Rabs x) s (Rabs y).
Proof. rewrite !off_alt. intros H. eapply Rle_trans; [apply Rabs_triang_inv2|exact H]. Qed.
(** A clear difference keeps its sign. *)
Lemma clear_sign d e d' : clear d e -> Rabs (d' - d) <= e -> d' = d \/ (0 < d /\ 0 < d') \/ (d < 0 /\ d' < 0).
Proof.
  intros C H. destruct (Req_dec d' d) as [E|N]; [now left|]. right. destruct C as [C|C].
  - apply Rabs_le_inv in H. unfold Rabs in C. destruct (Rcase_abs d); [right|left]; lra.
  - exfalso. subst e. pose proof (Rabs_pos_lt (d' - d) ltac:(lra)). lra.
Qed.
Lemma off_clear n m x s y t a b : off n x s a -> off m y t b -> Rabs ((a - b) - (x - y)) <= error u s n + error u t m.
Proof.
  intros A B. unfold off_by in *. unfold error. replace (a - b - (x - y)) with ((a - x) + - (b - y)) by ring.
  eapply Rle_trans; [apply Rabs_triang|]. rewrite Rabs_Ropp. lra.
Qed.
End Reals.

(** ** Floats *)
Section Floats.
Context (prec emax lo hi : Z).
Context (Hp : Prec_gt_0 prec) (He : BinarySingleNaN.Prec_lt_emax prec emax).
Context (Hp10 : (10 <= prec)%Z) (Hlo : (2 - emax <= lo)%Z) (Hhi : (hi <= emax - 3)%Z).
Context (nan_m nan_d nan_p nan_s : binary_float prec emax -> binary_float prec emax -> { x | is_nan prec emax x = true }).
Context (nan_r : binary_float prec emax -> { x | is_nan prec emax x = true }).
Notation fl := (binary_float prec emax).
Notation val := (B2R prec emax).
Notation fin x := (is_finite prec emax x = true).
Notation mul := (Bmult prec emax Hp He nan_m mode_NE).
Notation div := (Bdiv prec emax Hp He nan_d mode_NE).
Notation add := (Bplus prec emax Hp He nan_p mode_NE).
Notation sub := (Bminus prec emax Hp He nan_s mode_NE).
Notation root := (Bsqrt prec emax Hp He nan_r mode_NE).
Notation u := (bpow radix2 (- prec)).
Notation rnd := (round radix2 (SpecFloat.fexp prec emax) (round_mode mode_NE)).
Notation off := (off_by u).
Notation few := (few_roundings u).
Notation size := (good_size lo hi).

Definition is_near (x s : R) (n : nat) (v : fl) : Prop := fin v /\ Rabs x <= s /\ off n x s (val v).

Lemma rnd_abs y : Rabs y <= bpow radix2 (emax - 1) ->
  Rabs (rnd y) < bpow radix2 emax /\ Rabs (rnd y - y) <= u * Rmax (Rabs y) (bpow radix2 (2 - emax)).
Proof.
  intros H. pose proof (w0 prec Hp10) as U. pose proof (bpow_gt_0 radix2 (emax - 1)) as B.
  assert (E : bpow radix2 emax = 2 * bpow radix2 (emax - 1)).
  { replace emax with (1 + (emax - 1))%Z at 1 by ring. rewrite bpow_plus. reflexivity. }
  destruct (Rle_or_lt (bpow radix2 (2 - emax)) (Rabs y)) as [L|L].
  - assert (Rg : in_range prec emax y).
    { right. split; [|rewrite E; set (v := u) in *; nra]. replace (3 - emax - prec + prec - 1)%Z with (2 - emax)%Z by ring. exact L. }
    split; [now apply (rnd_small prec emax Hp He)|]. destruct (rnd_error prec emax Hp y Rg) as (e & Be & ->).
    replace (y * (1 + e) - y) with (e * y) by ring. rewrite Rabs_mult. unfold eps in Be.
    apply Rmult_le_compat; try apply Rabs_pos; [exact Be|apply Rmax_l].
  - assert (Er : Rabs (rnd y - y) <= u * bpow radix2 (2 - emax)).
    { pose proof (error_le_half_ulp radix2 (SpecFloat.fexp prec emax) (fun x => negb (Z.even x)) y) as K.
      assert (Hu : ulp radix2 (SpecFloat.fexp prec emax) y = bpow radix2 (3 - emax - prec)).
      { change (SpecFloat.fexp prec emax) with (FLT_exp (3 - emax - prec) prec).
        apply ulp_FLT_small; [exact Hp|]. replace (3 - emax - prec + prec)%Z with (1 + (2 - emax))%Z by ring.
        rewrite bpow_plus. change (bpow radix2 1) with 2. pose proof (bpow_gt_0 radix2 (2 - emax)). lra. }
      rewrite Hu in K. eapply Rle_trans; [exact K|]. right. rewrite <- bpow_plus.
      replace (3 - emax - prec)%Z with (1 + (- prec + (2 - emax)))%Z by ring. rewrite (bpow_plus radix2 1). change (bpow radix2 1) with 2. lra. }
    split.
    + assert (bpow radix2 (2 - emax) <= bpow radix2 (emax - 1)).
      { apply bpow_le. unfold Prec_gt_0, BinarySingleNaN.Prec_lt_emax in *. lia. }
      replace (rnd y) with (y + (rnd y - y)) by ring. eapply Rle_lt_trans; [apply Rabs_triang|].
      pose proof (bpow_gt_0 radix2 (2 - emax)). set (v := u) in *. rewrite E. nra.
    + eapply Rle_trans; [exact Er|]. apply Rmult_le_compat_l; [lra|apply Rmax_r].
Qed.

(** One more rounding. *)
Lemma near_rounded n x s y : few (n + 1) -> Rabs x <= s -> size s -> off n x s y ->
  Rabs (rnd y) < bpow radix2 emax /\ off (n + 1) x s (rnd y).
Proof.
  intros F Hs Z O. assert (Fn : few n) by (apply (few_mono prec Hp10 n (n + 1)); [lia|exact F]).
  pose proof (grow_few prec Hp10 n Fn) as G. pose proof (grow_1 prec Hp10 n) as G1. pose proof (w0 prec Hp10) as U.
  destruct Z as [-> |[L H]].
  - pose proof (Rabs_pos x). apply off_zero in O. assert (x = 0).
    { destruct (Req_dec x 0) as [E|E]; [exact E|]. pose proof (Rabs_pos_lt x E). lra. }
    subst y x. rewrite round_0 by apply BinarySingleNaN.valid_rnd_round_mode. rewrite Rabs_R0. split; [apply bpow_gt_0|].
    rewrite off_alt. rewrite Rminus_eq_0, Rabs_R0. lra.
  - pose proof (off_size prec n x s y Hs O) as Sy. fold (grow prec n) in *.
    assert (By : Rabs y <= bpow radix2 (emax - 1)).
    { eapply Rle_trans; [exact Sy|]. apply Rle_trans with (2 * bpow radix2 hi).
      - pose proof (bpow_gt_0 radix2 hi). pose proof (bpow_gt_0 radix2 lo). apply Rmult_le_compat; lra.
      - change 2 with (bpow radix2 1). rewrite <- bpow_plus. apply bpow_le. lia. }
    destruct (rnd_abs y By) as [R1 R2]. split; [exact R1|]. apply (off_round prec Hp10 n x s y); [exact Hs|exact O|].
    eapply Rle_trans; [exact R2|]. apply Rmult_le_compat_l; [lra|]. apply Rmax_lub; [exact Sy|].
    apply Rle_trans with s; [|pose proof (bpow_gt_0 radix2 lo); set (g := grow prec n) in *; nra].
    eapply Rle_trans; [|exact L]. apply bpow_le. exact Hlo.
Qed.

Lemma near_mul n m x s y t a b : is_near x s n a -> is_near y t m b -> fine u lo hi (s * t) (n + m + 1) ->
  is_near (x * y) (s * t) (n + m + 1) (mul a b).
Proof.
  intros (Fa & Sa & Oa) (Fb & Sb & Ob) [F Z]. pose proof (off_mul prec Hp10 n m x s y t _ _ Sa Sb Oa Ob) as O.
  assert (S' : Rabs (x * y) <= s * t) by (rewrite Rabs_mult; apply Rmult_le_compat; auto using Rabs_pos).
  destruct (near_rounded _ _ _ _ F S' Z O) as [B O']. pose proof (Bmult_correct prec emax Hp He nan_m mode_NE a b) as K.
  rewrite Rlt_bool_true in K by exact B. destruct K as (E & Ff & _). split; [now rewrite Ff, Fa, Fb|]. split; [exact S'|]. now rewrite E.
Qed.
Lemma near_quot n m x s y y' a (b : fl) : is_near x s n a -> val b <> 0 -> off m (/ y) (/ y') (/ val b) -> Rabs (/ y) <= / y' ->
  fine u lo hi (s / y') (n + m + 1) -> is_near (x / y) (s / y') (n + m + 1) (div a b).
Proof.
  intros (Fa & Sa & Oa) Nz Ob Sb [F Z]. pose proof (off_mul prec Hp10 n m x s (/ y) (/ y') _ _ Sa Sb Oa Ob) as O.
  assert (S' : Rabs (x / y) <= s / y') by (unfold Rdiv; rewrite Rabs_mult; apply Rmult_le_compat; auto using Rabs_pos).
  destruct (near_rounded _ _ _ _ F S' Z O) as [B O']. pose proof (Bdiv_correct prec emax Hp He nan_d mode_NE a b Nz) as K.
  rewrite Rlt_bool_true in K by exact B. destruct K as (E & Ff & _). split; [now rewrite Ff|]. split; [exact S'|]. now rewrite E.
Qed.
Lemma near_div n m x s y a b : is_near x s n a -> is_near y (Rabs y) m b -> y <> 0 -> fine u lo hi (s / Rabs y) (n + 2 * m + 1) ->
  is_near (x / y) (s / Rabs y) (n + 2 * m + 1) (div a b).
Proof.
  intros A (Fb & _ & Ob) Nz F. assert (Fm : few m) by (apply (few_mono prec Hp10 m (n + 2 * m + 1)); [lia|exact (proj1 F)]).
  destruct (off_inv prec Hp10 m y (val b) Fm Nz Ob) as [Nb O]. apply near_quot; auto. rewrite Rabs_inv. lra.
Qed.
Lemma near_times_unit n m x s f a b : is_near x s n a -> fin b -> nearp prec m f (val b) -> fine u lo hi (s * Rabs f) (n + m + 1) ->
  is_near (x * f) (s * Rabs f) (n + m + 1) (mul a b).
Proof.
  intros A Fb N F. apply near_mul; [exact A| |exact F]. split; [exact Fb|]. split; [lra|]. now apply nearp_off.
Qed.
Lemma near_over_unit n m x s f a b : is_near x s n a -> f <> 0 -> nearp prec m f (val b) -> fine u lo hi (s / Rabs f) (n + m + 1) ->
  is_near (x / f) (s / Rabs f) (n + m + 1) (div a b).
Proof.
  intros A Nz N F. destruct (nearp_inv_off prec Hp10 m f (val b) Nz N) as [Nb O]. apply near_quot; auto. rewrite Rabs_inv. lra.
Qed.
Lemma near_unit_over n m x f a b : is_near x (Rabs x) n a -> fin b -> nearp prec m f (val b) -> x <> 0 ->
  fine u lo hi (Rabs (f / x)) (m + 2 * n + 1) -> is_near (f / x) (Rabs (f / x)) (m + 2 * n + 1) (div b a).
Proof.
  intros A Fb N Nz F. assert (E : Rabs (f / x) = Rabs f / Rabs x) by (unfold Rdiv; now rewrite Rabs_mult, Rabs_inv).
  rewrite E in F |- *. apply near_div; auto. split; [exact Fb|]. split; [lra|]. now apply nearp_off.
Qed.
Lemma near_add n m x s y t a b : is_near x s n a -> is_near y t m b -> fine u lo hi (s + t) (Nat.max n m + 1) ->
  is_near (x + y) (s + t) (Nat.max n m + 1) (add a b).
Proof.
  intros (Fa & Sa & Oa) (Fb & Sb & Ob) [F Z]. pose proof (Rabs_pos x). pose proof (Rabs_pos y).
  pose proof (off_add prec Hp10 n m x s y t _ _ ltac:(lra) ltac:(lra) Oa Ob) as O.
  assert (S' : Rabs (x + y) <= s + t) by (eapply Rle_trans; [apply Rabs_triang|lra]).
  destruct (near_rounded _ _ _ _ F S' Z O) as [B O']. pose proof (Bplus_correct prec emax Hp He nan_p mode_NE a b Fa Fb) as K.
  rewrite Rlt_bool_true in K by exact B. destruct K as (E & Ff & _). split; [exact Ff|]. split; [exact S'|]. now rewrite E.
Qed.
Lemma near_sub n m x s y t a b : is_near x s n a -> is_near y t m b -> fine u lo hi (s + t) (Nat.max n m + 1) ->
  is_near (x - y) (s + t) (Nat.max n m + 1) (sub a b).
Proof.
  intros (Fa & Sa & Oa) (Fb & Sb & Ob) [F Z]. pose proof (Rabs_pos x). pose proof (Rabs_pos y). apply off_neg in Ob.
  pose proof (off_add prec Hp10 n m x s (- y) t _ _ ltac:(lra) ltac:(lra) Oa Ob) as O.
  assert (S' : Rabs (x - y) <= s + t) by (unfold Rminus; eapply Rle_trans; [apply Rabs_triang|rewrite Rabs_Ropp; lra]).
  destruct (near_rounded _ _ _ _ F S' Z O) as [B O']. pose proof (Bminus_correct prec emax Hp He nan_s mode_NE a b Fa Fb) as K.
  rewrite Rlt_bool_true in K by exact B. destruct K as (E & Ff & _). split; [exact Ff|]. split; [exact S'|]. now rewrite E.
Qed.
Lemma near_sqrt n x a : 0 <= x -> is_near x x n a -> fine u lo hi (sqrt x) (n + 1) -> is_near (sqrt x) (sqrt x) (n + 1) (root a).
Proof.
  intros P (Fa & Sa & Oa) [F Z]. assert (Fn : few n) by (apply (few_mono prec Hp10 n (n + 1)); [lia|exact F]).
  destruct (off_sqrt prec Hp10 n x (val a) Fn P Oa) as [Pa O].
  assert (S' : Rabs (sqrt x) <= sqrt x) by (rewrite Rabs_pos_eq; [lra|apply sqrt_pos]).
  destruct (near_rounded _ _ _ _ F S' Z O) as [_ O']. destruct (sqrt_finite prec emax Hp He nan_r a Fa Pa) as (Ff & E & _).
  split; [exact Ff|]. split; [exact S'|]. now rewrite E.
Qed.

(** ** Comparisons *)
Lemma near_sign n m x s y t (a b : fl) : is_near x s n a -> is_near y t m b -> clear (x - y) (error u s n + error u t m) ->
  (val a < val b <-> x < y) /\ (val a <= val b <-> x <= y) /\ (val a = val b <-> x = y).
Proof.
  intros (_ & _ & Oa) (_ & _ & Ob) C. pose proof (off_clear prec n m x s y t _ _ Oa Ob) as H.
  destruct (clear_sign _ _ _ C H) as [E|[[A B]|[A B]]]; lra.
Qed.
End Floats.
