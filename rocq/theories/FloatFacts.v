(** * Rounding errors of products and quotients in binary32 and binary64 *)
From Coq Require Import ZArith Lia Bool Reals Lra Psatz.
From Flocq Require Import Core Relative IEEE754.Binary IEEE754.Bits.
From Flocq Require IEEE754.BinarySingleNaN.
From Verif Require Import F64 DecimalFacts NumericFacts.
Local Open Scope R_scope.

Section Format.
Context (prec emax : Z).
Context (Hp : Prec_gt_0 prec) (He : BinarySingleNaN.Prec_lt_emax prec emax).
Notation emin := (3 - emax - prec)%Z.
Notation fx := (SpecFloat.fexp prec emax).
Notation rnd := (round radix2 fx (round_mode mode_NE)).
Notation fl := (binary_float prec emax).

(** [r] is zero or in the normal range. *)
Definition in_range (r : R) : Prop :=
  r = 0 \/ (bpow radix2 (emin + prec - 1) <= Rabs r /\ Rabs r <= (1 - bpow radix2 (- prec)) * bpow radix2 emax).

Definition eps : R := bpow radix2 (- prec).

Lemma fexp_FLT e : fx e = FLT_exp emin prec e.
Proof. reflexivity. Qed.

Lemma max_format : generic_format radix2 fx ((1 - bpow radix2 (- prec)) * bpow radix2 emax).
Proof.
  replace ((1 - bpow radix2 (- prec)) * bpow radix2 emax) with (F2R (Float radix2 (2 ^ prec - 1) (emax - prec))).
  - apply generic_format_FLT. exists (Float radix2 (2 ^ prec - 1) (emax - prec)); [reflexivity| |]; cbn [Fnum Fexp].
    + assert (0 < 2 ^ prec)%Z by (apply Z.pow_pos_nonneg; [lia|]; red in Hp; lia).
      change (Z.abs (2 ^ prec - 1) < 2 ^ prec)%Z. lia.
    + unfold Prec_gt_0 in Hp. unfold BinarySingleNaN.Prec_lt_emax in He. change (3 - emax - prec <= emax - prec)%Z. lia.
  - unfold F2R; cbn [Fnum Fexp]. rewrite minus_IZR.
    replace (IZR (2 ^ prec)) with (bpow radix2 prec).
    2:{ rewrite <- (IZR_Zpower radix2) by (unfold Prec_gt_0 in Hp; lia). reflexivity. }
    replace (emax - prec)%Z with (- prec + emax)%Z by ring. rewrite bpow_plus.
    rewrite bpow_opp. field. apply Rgt_not_eq. apply bpow_gt_0.
Qed.

Lemma rnd_small r : in_range r -> Rabs (rnd r) < bpow radix2 emax.
Proof.
  intros [-> |[_ H]].
  - rewrite round_0, Rabs_R0 by apply BinarySingleNaN.valid_rnd_round_mode. apply bpow_gt_0.
  - apply Rle_lt_trans with ((1 - bpow radix2 (- prec)) * bpow radix2 emax).
    + apply abs_round_le_generic; [apply FLT_exp_valid; exact Hp|apply BinarySingleNaN.valid_rnd_round_mode|apply max_format|exact H].
    + assert (0 < bpow radix2 (- prec)) by apply bpow_gt_0. assert (0 < bpow radix2 emax) by apply bpow_gt_0. nra.
Qed.

Lemma rnd_error r : in_range r -> exists e, Rabs e <= eps /\ rnd r = r * (1 + e).
Proof.
  intros [-> |[H _]].
  - exists 0. rewrite Rabs_R0. split; [apply bpow_ge_0|]. rewrite round_0 by apply BinarySingleNaN.valid_rnd_round_mode. ring.
  - destruct (relative_error_N_FLT_ex radix2 emin prec Hp (fun x => negb (Z.even x)) r H) as (e & B & E).
    exists e. split; [|exact E]. unfold eps. rewrite bpow_plus in B. change (bpow radix2 1) with 2 in B. lra.
Qed.

(** The same judged by the rounded result. *)
Lemma rnd_error_normal r : bpow radix2 (emin + prec - 1) < Rabs (rnd r) ->
  exists e, Rabs e <= eps /\ rnd r = r * (1 + e).
Proof.
  intros B.
  destruct (relative_error_N_FLT_ex radix2 emin prec Hp (fun x => negb (Z.even x)) r) as (e & Be & E).
  - apply Rnot_lt_le. intros L. apply (Rlt_not_le _ _ B).
    apply abs_round_le_generic; [apply FLT_exp_valid; exact Hp|apply BinarySingleNaN.valid_rnd_round_mode| |left; exact L].
    apply generic_format_bpow. unfold Prec_gt_0 in Hp. unfold SpecFloat.fexp, SpecFloat.emin. lia.
  - exists e. split; [|exact E]. unfold eps. rewrite bpow_plus in Be. change (bpow radix2 1) with 2 in Be. lra.
Qed.

Lemma mult_error nan (x y : fl) :
  is_finite prec emax x = true -> is_finite prec emax y = true ->
  in_range (B2R prec emax x * B2R prec emax y) ->
  is_finite prec emax (Bmult prec emax Hp He nan mode_NE x y) = true /\
  exists e, Rabs e <= eps /\
    B2R prec emax (Bmult prec emax Hp He nan mode_NE x y) = B2R prec emax x * B2R prec emax y * (1 + e).
Proof.
  intros Fx Fy H. pose proof (Bmult_correct prec emax Hp He nan mode_NE x y) as C.
  rewrite Rlt_bool_true in C by now apply rnd_small. destruct C as (C1 & C2 & _).
  rewrite C1, C2, Fx, Fy. split; [reflexivity|]. now apply rnd_error.
Qed.

Lemma div_error nan (x y : fl) :
  is_finite prec emax x = true -> B2R prec emax y <> 0 ->
  in_range (B2R prec emax x / B2R prec emax y) ->
  is_finite prec emax (Bdiv prec emax Hp He nan mode_NE x y) = true /\
  exists e, Rabs e <= eps /\
    B2R prec emax (Bdiv prec emax Hp He nan mode_NE x y) = B2R prec emax x / B2R prec emax y * (1 + e).
Proof.
  intros Fx Ny H. pose proof (Bdiv_correct prec emax Hp He nan mode_NE x y Ny) as C.
  rewrite Rlt_bool_true in C by now apply rnd_small. destruct C as (C1 & C2 & _).
  rewrite C1, C2, Fx. split; [reflexivity|]. now apply rnd_error.
Qed.

(** Scaling by a power of two is exact in the normal range. *)
Lemma scale_format x k : generic_format radix2 fx x -> 
  bpow radix2 (emin + prec - 1) <= Rabs (x * bpow radix2 k) -> generic_format radix2 fx (x * bpow radix2 k).
Proof.
  intros F H. apply generic_format_FLT_FLX; auto.
  apply (generic_format_FLX_FLT radix2 emin prec) in F.
  apply FLX_format_generic in F; [|exact Hp]. destruct F as [[m e] -> Hm]. simpl in Hm.
  apply generic_format_FLX. exists (Float radix2 m (e + k)); [|exact Hm].
  unfold F2R; simpl. rewrite bpow_plus. ring.
Qed.

(** Multiplication commutes, up to which of two NaNs is returned. *)
Lemma SBmult_comm (x y : BinarySingleNaN.binary_float prec emax) :
  BinarySingleNaN.Bmult mode_NE x y = BinarySingleNaN.Bmult mode_NE y x.
Proof.
  destruct x as [sx|sx| |sx mx ex Hx], y as [sy|sy| |sy my ey Hy]; simpl;
    try reflexivity; try (now rewrite xorb_comm).
  apply BinarySingleNaN.B2SF_inj. rewrite !BinarySingleNaN.B2SF_SF2B.
  now rewrite xorb_comm, Pos.mul_comm, Z.add_comm.
Qed.
Lemma Bmult_comm nan (x y : fl) :
  is_nan prec emax x && is_nan prec emax y = false \/ nan x y = nan y x ->
  (forall x y, is_nan prec emax x = true -> is_nan prec emax y = false -> nan x y = nan y x) ->
  (is_nan prec emax x = false -> is_nan prec emax y = false -> nan x y = nan y x) ->
  Bmult prec emax Hp He nan mode_NE x y = Bmult prec emax Hp He nan mode_NE y x.
Proof.
  intros N1 N2 N3. unfold Bmult. rewrite SBmult_comm.
  destruct N1 as [N1|N1]; [|now rewrite N1].
  destruct (is_nan prec emax x) eqn:Ex, (is_nan prec emax y) eqn:Ey; try discriminate N1.
  - now rewrite N2.
  - now rewrite <- N2.
  - now rewrite N3.
Qed.
End Format.

Lemma f64_mul_comm x y : is_nan 53 1024 x && is_nan 53 1024 y = false -> f64_mul x y = f64_mul y x.
Proof.
  intros H. unfold f64_mul, b64_mult. apply Bmult_comm; auto.
  - intros [] []; simpl; try discriminate; reflexivity.
  - destruct x, y; simpl; intros; try discriminate; reflexivity.
Qed.
Lemma f32_mul_comm x y : is_nan 24 128 x && is_nan 24 128 y = false -> f32_mul x y = f32_mul y x.
Proof.
  intros H. unfold f32_mul, b32_mult. apply Bmult_comm; auto.
  - intros [] []; simpl; try discriminate; reflexivity.
  - destruct x, y; simpl; intros; try discriminate; reflexivity.
Qed.

(** ** binary64 and binary32 *)
Notation v64 := (B2R 53 1024).
Notation v32 := (B2R 24 128).
Notation fin64 x := (is_finite 53 1024 x = true).
Notation fin32 x := (is_finite 24 128 x = true).
(** Neither overflow nor underflow. *)
Notation range64 := (in_range 53 1024).
Notation range32 := (in_range 24 128).
(** Half a unit in the last place, relative. *)
Notation u64 := (bpow radix2 (-53)).
Notation u32 := (bpow radix2 (-24)).

Lemma f64_mul_error x y : fin64 x -> fin64 y -> range64 (v64 x * v64 y) ->
  fin64 (f64_mul x y) /\ exists e, Rabs e <= u64 /\ v64 (f64_mul x y) = v64 x * v64 y * (1 + e).
Proof. unfold f64_mul, b64_mult. apply mult_error. Qed.
Lemma f64_div_error x y : fin64 x -> v64 y <> 0 -> range64 (v64 x / v64 y) ->
  fin64 (f64_div x y) /\ exists e, Rabs e <= u64 /\ v64 (f64_div x y) = v64 x / v64 y * (1 + e).
Proof. unfold f64_div, b64_div. apply div_error. Qed.
Lemma f32_mul_error x y : fin32 x -> fin32 y -> range32 (v32 x * v32 y) ->
  fin32 (f32_mul x y) /\ exists e, Rabs e <= u32 /\ v32 (f32_mul x y) = v32 x * v32 y * (1 + e).
Proof. unfold f32_mul, b32_mult. apply mult_error. Qed.
Lemma f32_div_error x y : fin32 x -> v32 y <> 0 -> range32 (v32 x / v32 y) ->
  fin32 (f32_div x y) /\ exists e, Rabs e <= u32 /\ v32 (f32_div x y) = v32 x / v32 y * (1 + e).
Proof. unfold f32_div, b32_div. apply div_error. Qed.

(** Multiplying and dividing by a power of two gives the number back. *)
Section Scale.
Context (prec emax : Z).
Context (Hp : Prec_gt_0 prec) (He : BinarySingleNaN.Prec_lt_emax prec emax).
Notation val := (B2R prec emax).
Notation fin x := (is_finite prec emax x = true).
Lemma scale_back nan nan' (x f : binary_float prec emax) k :
  fin x -> fin f -> val f = bpow radix2 k -> in_range prec emax (val x * val f) ->
  Bdiv prec emax Hp He nan mode_NE (Bmult prec emax Hp He nan' mode_NE x f) f = x.
Proof.
  intros Fx Ff E H.
  assert (P : 0 < val f) by (rewrite E; apply bpow_gt_0).
  assert (rnd_in : round radix2 (SpecFloat.fexp prec emax) (round_mode mode_NE) (val x * val f) = val x * val f).
  { apply round_generic; [apply BinarySingleNaN.valid_rnd_round_mode|].
    destruct H as [-> |[H _]]; [apply generic_format_0|]. rewrite E in *. apply scale_format; auto.
    apply generic_format_B2R. }
  pose proof (Bmult_correct prec emax Hp He nan' mode_NE x f) as C.
  rewrite Rlt_bool_true in C by now apply rnd_small. rewrite rnd_in in C. destruct C as (C1 & C2 & C3).
  rewrite Fx, Ff in C2. simpl in C2.
  set (y := Bmult prec emax Hp He nan' mode_NE x f) in *.
  assert (Ny : is_nan prec emax y = false) by (destruct y; simpl in *; congruence).
  specialize (C3 Ny).
  pose proof (Bdiv_correct prec emax Hp He nan mode_NE y f ltac:(lra)) as D.
  rewrite C1 in D. replace (val x * val f / val f) with (val x) in D by (field; lra).
  rewrite (round_generic radix2 _ _ (val x)) in D by apply generic_format_B2R.
  rewrite Rlt_bool_true in D by apply abs_B2R_lt_emax. destruct D as (D1 & D2 & D3).
  assert (Nd : is_nan prec emax (Bdiv prec emax Hp He nan mode_NE y f) = false).
  { rewrite C2 in D2. destruct (Bdiv prec emax Hp He nan mode_NE y f); simpl in *; congruence. }
  apply B2R_Bsign_inj; auto.
  - now rewrite D2.
  - rewrite (D3 Nd), C3, <- xorb_assoc_reverse || rewrite (D3 Nd), C3.
    destruct (Bsign prec emax x), (Bsign prec emax f); reflexivity.
Qed.
End Scale.
Lemma f64_scale_back x f k : fin64 x -> fin64 f -> v64 f = bpow radix2 k -> range64 (v64 x * v64 f) ->
  f64_div (f64_mul x f) f = x.
Proof. unfold f64_div, f64_mul, b64_div, b64_mult. apply scale_back. Qed.
Lemma f32_scale_back x f k : fin32 x -> fin32 f -> v32 f = bpow radix2 k -> range32 (v32 x * v32 f) ->
  f32_div (f32_mul x f) f = x.
Proof. unfold f32_div, f32_mul, b32_div, b32_mult. apply scale_back. Qed.

Lemma f32_div_nearest x y :
  is_finite 24 128 x = true -> is_finite 24 128 y = true -> B2R 24 128 y <> 0%R ->
  nearest32 (B2R 24 128 x / B2R 24 128 y) (f32_div x y).
Proof.
  intros Fx Fy Ny. unfold nearest32, rnd32, f32_div, b32_div.
  match goal with |- context [Bdiv _ _ ?H1 ?H2 ?nan _ _ _] =>
    pose proof (Bdiv_correct 24 128 H1 H2 nan mode_NE x y Ny) as C end.
  destruct (Rlt_bool _ _) eqn:E.
  - destruct C as (R1 & R2 & _). rewrite R2, Fx. auto.
  - assert (N : (B2R 24 128 x <> 0)%R).
    { intros Z. rewrite Z in E. unfold Rdiv in E. rewrite Rmult_0_l in E.
      rewrite round_0, Rabs_R0 in E; [|apply valid_rnd_N]. rewrite Rlt_bool_true in E; [discriminate|]. apply bpow_gt_0. }
    unfold Rdiv. rewrite sign_prod; auto; [|now apply Rinv_neq_0_compat].
    replace (Rlt_bool (/ B2R 24 128 y) 0) with (Rlt_bool (B2R 24 128 y) 0).
    2:{ destruct (Rlt_bool_spec (B2R 24 128 y) 0) as [A|A]; symmetry.
        - apply Rlt_bool_true. now apply Rinv_lt_0_compat.
        - apply Rlt_bool_false. left. apply Rinv_0_lt_compat. lra. }
    rewrite <- !sign_B2R32; auto.
    apply B2FF_inj. rewrite C. reflexivity.
Qed.


Lemma rnd64_error r : bpow radix2 (-1022) < Rabs (rnd64 r) -> exists e, Rabs e <= u64 /\ rnd64 r = r * (1 + e).
Proof. apply (rnd_error_normal 53 1024 eq_refl). Qed.
Lemma rnd32_error r : bpow radix2 (-126) < Rabs (rnd32 r) -> exists e, Rabs e <= u32 /\ rnd32 r = r * (1 + e).
Proof. apply (rnd_error_normal 24 128 eq_refl). Qed.
