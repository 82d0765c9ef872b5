(** * Accuracy of glam's dot product, length, distance and normalize, in either format *)
From Coq Require Import ZArith Lia Bool Reals Lra Psatz List.
From Flocq Require Import Core Relative Plus_error IEEE754.Binary IEEE754.Bits.
From Flocq Require IEEE754.BinarySingleNaN.
From Verif Require Import F64 FloatOps DecimalFacts NumericFacts FloatFacts FloatAccuracy Vector.
Import ListNotations.
Local Open Scope R_scope.

Section Format.
Context (prec emax : Z).
Context (Hp : Prec_gt_0 prec) (He : BinarySingleNaN.Prec_lt_emax prec emax).
Notation fl := (binary_float prec emax).
Notation val := (B2R prec emax).
Notation fin x := (is_finite prec emax x = true).
Context (nan_m nan_d nan_p nan_s : fl -> fl -> { x : fl | is_nan prec emax x = true }).
Context (nan_q : fl -> { x : fl | is_nan prec emax x = true }).
Notation mul := (Bmult prec emax Hp He nan_m mode_NE).
Notation div := (Bdiv prec emax Hp He nan_d mode_NE).
Notation add := (Bplus prec emax Hp He nan_p mode_NE).
Notation sub := (Bminus prec emax Hp He nan_s mode_NE).
Notation fsqrt := (Bsqrt prec emax Hp He nan_q mode_NE).
Notation u := (bpow radix2 (- prec)).
Notation range := (in_range prec emax).
Notation within := (within prec).

Lemma within_refl x : within 0 x x.
Proof. exists 1. simpl. lra. Qed.
Lemma within_weaken m m' x y : (m <= m')%nat -> within m x y -> within m' x y.
Proof.
  intros H (t & B & ->). exists t. split; [|reflexivity].
  pose proof (u_pos prec). pose proof (u_half prec Hp).
  replace m' with (m + (m' - m))%nat by lia. rewrite !pow_add.
  destruct (powers_pos prec Hp m) as [P Q].
  assert (0 < (1 - u) ^ (m' - m) <= 1).
  { split; [apply pow_lt; lra|]. rewrite <- (pow1 (m' - m)) at 2. apply pow_incr. lra. }
  assert (1 <= (1 + u) ^ (m' - m)) by (apply pow_R1_Rle; lra).
  split; nra.
Qed.
(** Sums of terms of one sign. *)
Lemma within_add m x1 x2 y1 y2 : 0 <= x1 -> 0 <= x2 -> within m x1 y1 -> within m x2 y2 -> within m (x1 + x2) (y1 + y2).
Proof.
  intros P1 P2 (t1 & B1 & ->) (t2 & B2 & ->).
  destruct (Req_dec (x1 + x2) 0) as [E|N].
  - assert (x1 = 0) by lra. assert (x2 = 0) by lra. subst. exists t1. split; [exact B1|ring].
  - exists ((x1 * t1 + x2 * t2) / (x1 + x2)). assert (0 < x1 + x2) by lra. split; [|field; lra]. split.
    + apply Rmult_le_reg_r with (x1 + x2); [lra|]. unfold Rdiv. rewrite Rmult_assoc, Rinv_l by lra. nra.
    + apply Rmult_le_reg_r with (x1 + x2); [lra|]. unfold Rdiv. rewrite Rmult_assoc, Rinv_l by lra. nra.
Qed.
Lemma within_sqrt m x y : 0 <= x -> within m x y -> within m (sqrt x) (sqrt y).
Proof.
  intros P (t & [B1 B2] & ->). destruct (powers_pos prec Hp m) as [Q1 Q2].
  assert (Q3 : (1 - u) ^ m <= 1).
  { rewrite <- (pow1 m) at 2. apply pow_incr. pose proof (u_half prec Hp). pose proof (u_pos prec). lra. }
  exists (sqrt t). rewrite sqrt_mult by lra. split; [|reflexivity].
  assert (S := sqrt_sqrt t ltac:(lra)). assert (0 <= sqrt t) by apply sqrt_pos. split.
  - apply Rsqr_incr_0_var; [|assumption]. unfold Rsqr. rewrite S. nra.
  - apply Rsqr_incr_0_var; [|lra]. unfold Rsqr. rewrite S. nra.
Qed.
(** The absolute form of the bound. *)
Lemma within_error m x y : INR m * u <= / 2 -> within m x y -> Rabs (y - x) <= 2 * INR m * u * Rabs x.
Proof.
  intros H (t & B & ->). replace (x * t - x) with (x * (t - 1)) by ring. rewrite Rabs_mult, Rmult_comm.
  apply Rmult_le_compat_r; [apply Rabs_pos|].
  pose proof (bernoulli prec Hp m). pose proof (upper prec Hp m H).
  assert (0 <= INR m * u) by (apply Rmult_le_pos; [apply pos_INR|left; apply u_pos]).
  apply Rabs_le. lra.
Qed.

Lemma mul_fin_inv (x y : fl) : fin (mul x y) -> fin x /\ fin y.
Proof.
  unfold Bmult. rewrite is_finite_BSN2B.
  destruct x as [sx|sx|sx px Hx|sx mx ex Hx], y as [sy|sy|sy py Hy|sy my ey Hy]; simpl; auto; try discriminate.
Qed.
Lemma sub_finite (x y : fl) : fin (sub x y) -> fin x /\ fin y.
Proof.
  unfold Bminus. rewrite is_finite_BSN2B.
  destruct x as [sx|sx|sx px Hx|sx mx ex Hx], y as [sy|sy|sy py Hy|sy my ey Hy]; simpl; auto;
    try discriminate; destruct (eqb _ _); discriminate.
Qed.
Lemma sub_error (x y : fl) : fin x -> fin y -> fin (sub x y) ->
  exists e, Rabs e <= u /\ val (sub x y) = (val x - val y) * (1 + e).
Proof.
  intros Fx Fy F. pose proof (Bminus_correct prec emax Hp He nan_s mode_NE x y Fx Fy) as C.
  destruct (Rlt_bool _ _) eqn:E.
  - destruct C as (C1 & _ & _). rewrite C1.
    destruct (FLT_plus_error_N_ex radix2 (3 - emax - prec) prec (fun x => negb (Z.even x)) (val x) (- val y))
      as (e & Be & Ee).
    + apply (generic_format_B2R prec emax x).
    + apply generic_format_opp. apply (generic_format_B2R prec emax y).
    + exists e. split; [|exact Ee]. eapply Rle_trans; [exact Be|].
      unfold u_ro. replace (/ 2 * bpow radix2 (- prec + 1)) with u;
        [|rewrite bpow_plus; change (bpow radix2 1) with 2; field].
      pose proof (u_pos prec). apply Rle_trans with (u / 1); [|lra]. unfold Rdiv. apply Rmult_le_compat_l; [lra|].
      apply Rinv_le_contravar; lra.
  - destruct C as [C _]. exfalso. unfold BinarySingleNaN.binary_overflow in C.
    destruct (sub x y); simpl in C; try discriminate.
Qed.

(** ** Dot products *)
Definition dotR (xs ys : list R) : R := total (map (fun p => fst p * snd p) (combine xs ys)).
Definition absdot (xs ys : list R) : R := total (map (fun p => Rabs (fst p * snd p)) (combine xs ys)).
Lemma sum_fin_inv ps : forall acc, fin (fold_left add ps acc) -> fin acc /\ Forall (fun x => fin x) ps.
Proof.
  induction ps as [|p ps IH]; intros acc F; [auto|]. simpl in F. apply IH in F as [F1 F2].
  apply add_finite in F1 as [F3 F4]. auto.
Qed.

(** With terms of one sign, relative. *)
Lemma sum_within m ps : forall acc rs a,
  0 <= a -> within m a (val acc) -> Forall (fun r => 0 <= r) rs ->
  Forall2 (fun r p => within m r (val p)) rs ps -> fin (fold_left add ps acc) ->
  within (m + length ps) (a + total rs) (val (fold_left add ps acc)).
Proof.
  intros acc rs a Pa Wa Pr W. revert m acc a Pa Wa Pr W. 
  intros m acc a Pa Wa Pr W. revert acc a m Pa Wa Pr W. revert rs. induction ps as [|p ps IH]; intros rs acc a m Pa Wa Pr W F.
  - inversion W; subst. simpl. rewrite Rplus_0_r, Nat.add_0_r. exact Wa.
  - inversion W as [|r ? rs' ? Wr Wrs]; subst. inversion Pr as [|? ? Pr1 Prs]; subst. cbn [fold_left] in F |- *.
    destruct (sum_fin_inv _ _ F) as [F1 _]. destruct (add_finite _ _ _ _ _ _ _ F1) as [F2 F3].
    destruct (add_error _ _ _ _ _ _ _ F2 F3 F1) as (e & Be & E).
    assert (W1 : within (S m) (a + r) (val (add acc p))).
    { rewrite E. apply within_round; [exact Hp| |exact Be]. now apply within_add. }
    replace (a + total (r :: rs')) with ((a + r) + total rs') by (unfold total; simpl; ring).
    replace (m + length (p :: ps))%nat with (S m + length ps)%nat by (simpl; lia).
    apply IH; auto; [lra|].
    clear -Wrs Hp. induction Wrs; constructor; auto. eapply within_weaken; [|eassumption]. lia.
Qed.

Notation vals xs := (map val xs).
Notation dot := (g_dot add mul (B754_zero prec emax false)).
Notation gzip := (g_zip).
Lemma dot_cons z x y xs ys : g_dot add mul z (x :: xs) (y :: ys) = fold_left add (g_zip mul xs ys) (mul x y).
Proof. reflexivity. Qed.

Lemma products xs : forall ys,
  Forall (fun p => range (fst p * snd p)) (combine (vals xs) (vals ys)) ->
  Forall (fun x => fin x) (g_zip mul xs ys) ->
  Rabs (total (vals (g_zip mul xs ys)) - dotR (vals xs) (vals ys)) <= u * absdot (vals xs) (vals ys) /\
  total (map (fun x => Rabs (val x)) (g_zip mul xs ys)) <= (1 + u) * absdot (vals xs) (vals ys).
Proof.
  induction xs as [|x xs IH]; intros ys R F.
  - unfold g_zip, dotR, absdot, total. simpl. rewrite Rminus_eq_0, Rabs_R0. lra.
  - destruct ys as [|y ys]; [unfold g_zip, dotR, absdot, total; simpl; rewrite Rminus_eq_0, Rabs_R0; lra|].
    unfold g_zip in *. simpl in R, F. inversion R as [|? ? R1 Rs]; subst. inversion F as [|? ? F1 Fs]; subst.
    simpl in R1, F1. destruct (IH ys Rs Fs) as [I1 I2].
    apply mul_fin_inv in F1 as [Fx Fy]. destruct (mult_error prec emax Hp He nan_m x y Fx Fy R1) as (_ & e & Be & E).
    unfold eps in Be. unfold dotR, absdot, total in *. cbn [map combine fold_right fst snd] in *.
    rewrite E. set (a := val x * val y) in *. pose proof (u_pos prec). split.
    + match goal with |- Rabs (?p + ?q - (?r + ?t)) <= _ => replace (p + q - (r + t)) with (a * e + (q - t)) by ring end.
      eapply Rle_trans; [apply Rabs_triang|]. rewrite Rabs_mult. pose proof (Rabs_pos a). nra.
    + rewrite Rabs_mult. pose proof (Rabs_pos a). assert (Rabs (1 + e) <= 1 + u).
      { eapply Rle_trans; [apply Rabs_triang|]. rewrite Rabs_R1. lra. }
      nra.
Qed.
Lemma dot_error z xs ys :
  Forall (fun p => range (fst p * snd p)) (combine (vals xs) (vals ys)) ->
  xs <> [] -> ys <> [] -> fin (g_dot add mul z xs ys) ->
  Rabs (val (g_dot add mul z xs ys) - dotR (vals xs) (vals ys))
    <= ((1 + u) ^ length (combine xs ys) - 1) * absdot (vals xs) (vals ys).
Proof.
  intros R N1 N2 F. destruct xs as [|x xs]; [congruence|]. destruct ys as [|y ys]; [congruence|].
  rewrite dot_cons in *. destruct (sum_fin_inv _ _ F) as [F1 F2].
  assert (S := sum_error prec emax Hp He nan_p (g_zip mul xs ys) (mul x y) F1 F2 F).
  assert (P := products (x :: xs) (y :: ys) R (Forall_cons _ F1 F2)). destruct P as [P1 P2].
  assert (L : length (g_zip mul xs ys) = length (combine xs ys)) by (unfold g_zip; apply map_length).
  rewrite L in S. cbn [combine length].
  unfold g_zip in P1, P2, S |- *. cbn [combine map] in P1, P2. cbn [fst snd] in P1, P2.
  unfold total in P1, P2. cbn [fold_right] in P1, P2.
  fold (total (vals (map (fun p => mul (fst p) (snd p)) (combine xs ys)))) in P1.
  fold (total (map (fun x => Rabs (val x)) (map (fun p => mul (fst p) (snd p)) (combine xs ys)))) in P2.
  set (A := absdot (vals (x :: xs)) (vals (y :: ys))) in *. set (D := dotR (vals (x :: xs)) (vals (y :: ys))) in *.
  set (T := val (mul x y) + total _) in *.
  match type of S with Rabs (?r - _) <= _ * ?B => set (r0 := r) in *; set (B0 := B) in * end.
  replace (r0 - D) with ((r0 - T) + (T - D)) by ring.
  eapply Rle_trans; [apply Rabs_triang|].
  assert (1 <= (1 + u) ^ length (combine xs ys)) by (apply pow_R1_Rle; pose proof (u_pos prec); lra).
  simpl pow. pose proof (u_pos prec). set (P := (1 + u) ^ length (combine xs ys)) in *.
  assert ((P - 1) * B0 <= (P - 1) * ((1 + u) * A)) by (apply Rmult_le_compat_l; [lra|exact P2]).
  assert (Rabs (T - D) <= u * A) by exact P1. 
  apply Rle_trans with ((P - 1) * ((1 + u) * A) + u * A); [apply Rplus_le_compat; lra|]. right. ring.
Qed.

(** Squares. *)
Lemma squares_within m xs ds :
  Forall2 (fun d x => within m d (val x)) ds xs -> Forall (fun x => range (val x * val x)) xs ->
  Forall (fun x => fin x) xs ->
  Forall2 (fun r p => within (S (m + m)) r (val p)) (map (fun d => d * d) ds) (g_zip mul xs xs).
Proof.
  intros W. unfold g_zip. induction W as [|d x ds xs Wx W IH]; intros R F; [constructor|].
  inversion R; subst. inversion F; subst. simpl. constructor; [|auto]. cbn [fst snd].
  destruct (mult_error prec emax Hp He nan_m x x) as (_ & e & Be & E); auto.
  rewrite E. apply within_round; [exact Hp| |exact Be]. now apply within_mul.
Qed.
Definition sumsq (ds : list R) : R := total (map (fun d => d * d) ds).
Definition norm (ds : list R) : R := sqrt (sumsq ds).
Lemma sumsq_within z m xs ds :
  Forall2 (fun d x => within m d (val x)) ds xs -> Forall (fun x => range (val x * val x)) xs ->
  Forall (fun x => fin x) xs -> xs <> [] -> fin (g_dot add mul z xs xs) ->
  within (m + m + length xs) (sumsq ds) (val (g_dot add mul z xs xs)).
Proof.
  intros W R F N FD. pose proof (squares_within m xs ds W R F) as SQ.
  destruct W as [|d x ds xs Wx W]; [congruence|]. rewrite dot_cons in *.
  unfold g_zip in SQ. cbn [combine map] in SQ. inversion SQ as [|? ? ? ? S1 S2]; subst. cbn [fst snd] in S1.
  assert (P : Forall (fun r => 0 <= r) (map (fun d => d * d) ds)).
  { clear. induction ds; constructor; auto. apply Rle_0_sqr. }
  pose proof (sum_within (S (m + m)) _ _ _ _ (Rle_0_sqr d) S1 P S2 FD) as T.
  rewrite map_length, combine_length, Nat.min_id in T.
  replace (m + m + length (x :: xs))%nat with (S (m + m) + length xs)%nat by (simpl; lia). exact T.
Qed.

Lemma sqrt_within m r x : 0 <= r -> within m r (val x) -> fin (fsqrt x) ->
  within (S m) (sqrt r) (val (fsqrt x)).
Proof.
  intros Pr W F. destruct (Bsqrt_correct prec emax Hp He nan_q mode_NE x) as (E & FE & _).
  assert (Fx : fin x) by (rewrite FE in F; destruct x as [| | |[]]; try discriminate F; reflexivity).
  assert (Px : 0 <= val x).
  { destruct W as (t & B & ->). destruct (powers_pos prec Hp m). nra. }
  assert (G : exists e, Rabs e <= u /\ val (fsqrt x) = sqrt (val x) * (1 + e)).
  { rewrite E. destruct (Req_dec (val x) 0) as [Z|NZ].
    - rewrite Z, sqrt_0. exists 0. rewrite Rabs_R0. split; [apply bpow_ge_0|].
      rewrite round_0 by apply BinarySingleNaN.valid_rnd_round_mode. ring.
    - apply (rnd_error prec emax Hp). right. 
      assert (L : bpow radix2 (3 - emax - prec) <= val x).
      { assert (P : 0 < val x) by lra. destruct x as [s|s|s n h|s mm ee hb]; try discriminate Fx; [simpl in P; lra|].
        destruct s; [exfalso; revert P; apply Rle_not_lt; left; apply F2R_lt_0; reflexivity|].
        apply Rle_trans with (bpow radix2 ee).
        - apply bpow_le. clear -hb Hp. unfold SpecFloat.bounded, SpecFloat.canonical_mantissa, SpecFloat.fexp, SpecFloat.emin in hb.
          apply andb_prop in hb as [h1 _]. apply Zeq_bool_eq in h1. lia.
        - simpl. unfold F2R. cbn [Fnum Fexp cond_Zopp]. rewrite <- (Rmult_1_l (bpow radix2 ee)) at 1.
          apply Rmult_le_compat_r; [apply bpow_ge_0|]. apply IZR_le. lia. }
      rewrite Rabs_pos_eq by apply sqrt_pos. unfold Prec_gt_0 in Hp. unfold BinarySingleNaN.Prec_lt_emax in He. split.
      + replace (bpow radix2 (3 - emax - prec + prec - 1)) with (sqrt (bpow radix2 (2 * (2 - emax)))).
        * apply sqrt_le_1_alt. eapply Rle_trans; [|exact L]. apply bpow_le. lia.
        * replace (2 * (2 - emax))%Z with ((2 - emax) + (2 - emax))%Z by ring. rewrite bpow_plus, sqrt_square by apply bpow_ge_0.
          f_equal. ring.
      + assert (U : val x < bpow radix2 emax) by (pose proof (abs_B2R_lt_emax prec emax x) as H; apply Rabs_def2 in H; lra).
        assert (1 <= bpow radix2 (emax - 2)) by (change 1 with (bpow radix2 0); apply bpow_le; lia).
        assert (Q : sqrt (val x) <= bpow radix2 (emax - 1)).
        { rewrite <- (sqrt_square (bpow radix2 (emax - 1))) by apply bpow_ge_0. apply sqrt_le_1_alt.
          rewrite <- bpow_plus. left. eapply Rlt_le_trans; [exact U|]. apply bpow_le. lia. }
        eapply Rle_trans; [exact Q|]. replace (emax - 1)%Z with (-1 + emax)%Z by ring. rewrite bpow_plus.
        apply Rmult_le_compat_r; [apply bpow_ge_0|]. change (bpow radix2 (-1)) with (/ 2).
        assert (u <= / 2) by (change (/ 2) with (bpow radix2 (-1)); apply bpow_le; lia). lra. }
  destruct G as (e & Be & ->). apply within_round; [exact Hp| |exact Be]. now apply within_sqrt.
Qed.
Lemma sumsq_nonneg ds : 0 <= sumsq ds.
Proof.
  unfold sumsq, total. induction ds as [|d ds IH]; simpl; [lra|]. pose proof (Rle_0_sqr d) as H. unfold Rsqr in H. lra.
Qed.
Lemma dot_self_fin z xs : fin (g_dot add mul z xs xs) -> Forall (fun x => fin x) xs.
Proof.
  destruct xs as [|x xs]; [constructor|]. rewrite dot_cons. intros F. apply sum_fin_inv in F as [F1 F2].
  constructor; [now apply mul_fin_inv in F1|].
  unfold g_zip in F2. clear F1. induction xs as [|y ys IH]; [constructor|]. simpl in F2. inversion F2; subst.
  constructor; auto. cbn [fst snd] in *. now apply mul_fin_inv in H1.
Qed.
Lemma length_within z m xs ds :
  Forall2 (fun d x => within m d (val x)) ds xs -> Forall (fun x => range (val x * val x)) xs ->
  xs <> [] -> fin (g_length add mul fsqrt z xs) ->
  within (S (m + m + length xs)) (norm ds) (val (g_length add mul fsqrt z xs)).
Proof.
  intros W R N F. unfold g_length in *.
  assert (FD : fin (g_dot add mul z xs xs)).
  { destruct (Bsqrt_correct prec emax Hp He nan_q mode_NE (g_dot add mul z xs xs)) as (_ & E & _).
    rewrite E in F. destruct (g_dot add mul z xs xs) as [| | |[]]; try discriminate F; reflexivity. }
  apply sqrt_within; [apply sumsq_nonneg| |exact F]. apply sumsq_within; auto. now apply dot_self_fin in FD.
Qed.

(** Differences. *)
Definition subR (xs ys : list R) : list R := map (fun p => fst p - snd p) (combine xs ys).
Lemma differences_within xs : forall ys, Forall (fun x => fin x) (g_zip sub xs ys) ->
  Forall2 (fun d x => within 1 d (val x)) (subR (vals xs) (vals ys)) (g_zip sub xs ys).
Proof.
  unfold subR, g_zip. induction xs as [|x xs IH]; intros [|y ys] F; try constructor.
  - cbn [combine map] in F. inversion F as [|? ? F1 F2]; subst. cbn [fst snd] in *.
    destruct (sub_finite _ _ F1) as [Fx Fy]. destruct (sub_error x y Fx Fy F1) as (e & Be & ->).
    apply within_round; [exact Hp|apply within_refl|exact Be].
  - cbn [combine map] in F. inversion F; subst. now apply IH.
Qed.
Lemma distance_within z xs ys :
  Forall (fun x => range (val x * val x)) (g_zip sub xs ys) ->
  g_zip sub xs ys <> [] -> fin (g_distance add sub mul fsqrt z xs ys) ->
  within (3 + length (g_zip sub xs ys)) (norm (subR (vals xs) (vals ys))) (val (g_distance add sub mul fsqrt z xs ys)).
Proof.
  intros R N F. unfold g_distance in *.
  assert (FD : fin (g_dot add mul z (g_zip sub xs ys) (g_zip sub xs ys))).
  { unfold g_length in F. destruct (Bsqrt_correct prec emax Hp He nan_q mode_NE (g_dot add mul z (g_zip sub xs ys) (g_zip sub xs ys))) as (_ & E & _).
    rewrite E in F. destruct (g_dot _ _ _ _ _) as [| | |[]]; try discriminate F; reflexivity. }
  apply (length_within z 1); auto. apply differences_within. now apply dot_self_fin in FD.
Qed.
Lemma distance_squared_within z xs ys :
  Forall (fun x => range (val x * val x)) (g_zip sub xs ys) ->
  g_zip sub xs ys <> [] -> fin (g_distance_squared add sub mul z xs ys) ->
  within (2 + length (g_zip sub xs ys)) (sumsq (subR (vals xs) (vals ys))) (val (g_distance_squared add sub mul z xs ys)).
Proof.
  intros R N F. unfold g_distance_squared in *. cbv zeta in *. pose proof (dot_self_fin _ _ F) as Fs.
  apply (sumsq_within z 1); auto. now apply differences_within.
Qed.

(** normalize *)
Lemma normalize_error z one xs i x :
  val one = 1 -> fin one -> Forall (fun x => range (val x * val x)) xs -> xs <> [] ->
  fin (g_length add mul fsqrt z xs) -> norm (vals xs) <> 0 ->
  (4 + INR (length xs)) * u <= / 8 ->
  range (/ val (g_length add mul fsqrt z xs)) ->
  nth_error xs i = Some x -> range (val x * val (div one (g_length add mul fsqrt z xs))) ->
  exists y, nth_error (g_normalize add mul div fsqrt z one xs) i = Some y /\ fin y /\
    Rabs (val y - val x / norm (vals xs)) <= 4 * (4 + INR (length xs)) * u * Rabs (val x / norm (vals xs)).
Proof.
  intros V1 F1 R N FL NZ Hu RL Hx Rx. unfold g_normalize. cbv zeta.
  set (l := g_length add mul fsqrt z xs) in *.
  assert (W : within (S (length xs)) (norm (vals xs)) (val l)).
  { apply (length_within z 0); auto. clear. induction xs; simpl; constructor; auto. apply within_refl. }
  assert (Fx : fin x).
  { assert (FD : fin (g_dot add mul z xs xs)).
    { unfold l, g_length in FL. destruct (Bsqrt_correct prec emax Hp He nan_q mode_NE (g_dot add mul z xs xs)) as (_ & E & _).
      rewrite E in FL. destruct (g_dot add mul z xs xs) as [| | |[]]; try discriminate FL; reflexivity. }
    apply dot_self_fin in FD. rewrite Forall_forall in FD. apply FD. eapply nth_error_In; eauto. }
  exists (mul x (div one l)). split; [now rewrite nth_error_map, Hx|].
  set (m := S (length xs)) in *. set (L := norm (vals xs)) in *. destruct W as (t & B & E).
  assert (HM : INR m * u <= / 8 - 3 * u).
  { unfold m. rewrite S_INR. pose proof (u_pos prec). nra. }
  pose proof (u_pos prec) as U0. pose proof (bernoulli prec Hp m) as B1.
  assert (N0 : 0 <= INR m * u) by (apply Rmult_le_pos; [apply pos_INR|lra]).
  pose proof (upper prec Hp m ltac:(lra)) as B2. set (k := INR m * u) in *.
  assert (Lnz : val l <> 0) by (rewrite E; apply Rmult_integral_contrapositive; split; lra).
  destruct (div_error prec emax Hp He nan_d one l F1 Lnz) as (Fd & e1 & Be1 & E1).
  { rewrite V1. unfold Rdiv. now rewrite Rmult_1_l. }
  destruct (mult_error prec emax Hp He nan_m x (div one l) Fx Fd Rx) as (Fm & e2 & Be2 & E2).
  split; [exact Fm|]. unfold eps in *. rewrite E2, E1, V1, E.
  replace (val x * (1 / (L * t) * (1 + e1)) * (1 + e2) - val x / L) with (val x / L * ((1 + e1) * (1 + e2) / t - 1)) by (field; lra).
  rewrite Rabs_mult, Rmult_comm. apply Rmult_le_compat_r; [apply Rabs_pos|].
  apply Rabs_le_inv in Be1. apply Rabs_le_inv in Be2.
  assert (It : t * / t = 1) by (apply Rinv_r; lra). assert (Pt : 0 < / t) by (apply Rinv_0_lt_compat; lra).
  assert (Q : 1 - 2 * k <= / t <= 1 + 2 * k).
  { split.
    - assert ((1 + 2 * k) * / t >= 1) by nra. assert ((1 - 2 * k) * (1 + 2 * k) <= 1) by nra. nra.
    - assert ((1 - k) * / t <= 1) by nra. assert (1 <= (1 + 2 * k) * (1 - k)) by nra.
      apply Rmult_le_reg_l with (1 - k); nra. }
  replace (4 * (4 + INR (length xs)) * u) with (4 * k + 12 * u) by (unfold k, m; rewrite S_INR; ring).
  assert (M : 1 - 2 * u <= (1 + e1) * (1 + e2) <= 1 + 3 * u) by (pose proof (u_half prec Hp); split; nra).
  unfold Rdiv. set (w := (1 + e1) * (1 + e2)) in *. set (s := / t) in *. apply Rabs_le. split; nra.
Qed.

Lemma component_le_norm ds d : In d ds -> Rabs d <= norm ds.
Proof.
  intros I. unfold norm. rewrite <- sqrt_Rsqr_abs. apply sqrt_le_1_alt. unfold Rsqr.
  induction ds as [|a ds IH]; [contradiction|]. unfold sumsq, total in *. cbn [map fold_right].
  pose proof (Rle_0_sqr a) as Ha. unfold Rsqr in Ha. pose proof (sumsq_nonneg ds) as Hs. unfold sumsq, total in Hs.
  destruct I as [-> |I]; [lra|]. specialize (IH I). lra.
Qed.
Lemma normalize_accurate z one xs :
  val one = 1 -> fin one -> Forall (fun x => range (val x * val x)) xs -> xs <> [] ->
  fin (g_length add mul fsqrt z xs) ->
  (4 + INR (length xs)) * u <= / 8 -> (3 <= emax)%Z ->
  bpow radix2 (3 - emax) <= norm (vals xs) <= bpow radix2 (emax - 3) ->
  (forall x, In x xs -> val x = 0 \/ 4 * bpow radix2 (2 - emax) <= Rabs (val x / norm (vals xs))) ->
  forall i x, nth_error xs i = Some x ->
  exists y, nth_error (g_normalize add mul div fsqrt z one xs) i = Some y /\ fin y /\
    Rabs (val y - val x / norm (vals xs)) <= 4 * (4 + INR (length xs)) * u * Rabs (val x / norm (vals xs)).
Proof.
  intros V1 F1 R N FL Hu E3 [LL LU] HX i x Hx.
  set (L := norm (vals xs)) in *. set (l := g_length add mul fsqrt z xs) in *.
  assert (PL : 0 < L) by (eapply Rlt_le_trans; [apply bpow_gt_0|exact LL]).
  assert (W : within (S (length xs)) L (val l)).
  { apply (length_within z 0); auto. clear. induction xs; simpl; constructor; auto. apply within_refl. }
  destruct W as (t & B & E). set (m := S (length xs)) in *. pose proof (u_pos prec) as U0.
  assert (HM : INR m * u <= / 8 - 3 * u) by (unfold m; rewrite S_INR; nra).
  assert (N0 : 0 <= INR m * u) by (apply Rmult_le_pos; [apply pos_INR|lra]).
  pose proof (bernoulli prec Hp m) as B1. pose proof (upper prec Hp m ltac:(lra)) as B2. set (k := INR m * u) in *.
  assert (U8 : u <= / 16) by lra.
  assert (T : 7 / 8 <= t <= 5 / 4) by lra.
  assert (Lnz : val l <> 0) by (rewrite E; apply Rmult_integral_contrapositive; split; lra).
  assert (IL : 0 < / L) by (now apply Rinv_0_lt_compat).
  assert (It : t * / t = 1) by (apply Rinv_r; lra). assert (Pt : 0 < / t) by (apply Rinv_0_lt_compat; lra).
  assert (Q : 4 / 5 <= / t <= 8 / 7) by (split; nra).
  assert (B3 : bpow radix2 (3 - emax) <= / L).
  { replace (3 - emax)%Z with (- (emax - 3))%Z by ring. rewrite bpow_opp. apply Rinv_le_contravar; lra. }
  assert (B4 : / L <= bpow radix2 (emax - 3)).
  { replace (emax - 3)%Z with (- (3 - emax))%Z by ring. rewrite bpow_opp. apply Rinv_le_contravar; [apply bpow_gt_0|lra]. }
  assert (D1 : bpow radix2 (3 - emax) = 2 * bpow radix2 (2 - emax)).
  { replace (3 - emax)%Z with (1 + (2 - emax))%Z by ring. now rewrite bpow_plus. }
  assert (D2 : bpow radix2 emax = 8 * bpow radix2 (emax - 3)).
  { change 8 with (bpow radix2 3). rewrite <- bpow_plus. f_equal. ring. }
  assert (P3 : 0 < bpow radix2 (emax - 3)) by apply bpow_gt_0.
  assert (P2 : 0 < bpow radix2 (2 - emax)) by apply bpow_gt_0.
  assert (G1 : 1 <= bpow radix2 (emax - 3)) by (change 1 with (bpow radix2 0); apply bpow_le; lia).
  assert (RL : range (/ val l)).
  { right. rewrite E, Rinv_mult, Rabs_pos_eq by nra.
    replace (3 - emax - prec + prec - 1)%Z with (2 - emax)%Z by ring. rewrite D2. split; nra. }
  destruct (div_error prec emax Hp He nan_d one l F1 Lnz) as (Fd & e1 & Be1 & E1).
  { rewrite V1. unfold Rdiv. now rewrite Rmult_1_l. }
  apply (normalize_error z one xs i x V1 F1 R N FL); auto; try lra.
  fold L. change (norm (vals xs)) with L. 2: {
    fold l. unfold eps in Be1. apply Rabs_le_inv in Be1. rewrite E1, V1, E.
    destruct (HX x (nth_error_In _ _ Hx)) as [Z|Hl]; [left; rewrite Z; ring|].
    replace (val x * (1 / (L * t) * (1 + e1))) with (val x / L * ((1 + e1) * / t)) by (field; lra).
    right. rewrite Rabs_mult, (Rabs_pos_eq ((1 + e1) * / t)) by nra.
    replace (3 - emax - prec + prec - 1)%Z with (2 - emax)%Z by ring. rewrite D2.
    assert (HC : Rabs (val x) <= L) by (apply component_le_norm; apply in_map; eapply nth_error_In; eauto).
    assert (H1 : Rabs (val x / L) <= 1).
    { unfold Rdiv. rewrite Rabs_mult, (Rabs_pos_eq (/ L)) by lra. apply Rmult_le_reg_r with L; [lra|].
      rewrite Rmult_assoc, Rinv_l by lra. lra. }
    assert (H2 : / 2 <= (1 + e1) * / t <= 2) by (split; nra).
    pose proof (Rabs_pos (val x / L)). split; nra. }
  lra.
Qed.
End Format.
