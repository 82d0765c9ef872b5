(** * Facts for C92: rounding never reverses an order *)
From Coq Require Import ZArith Lia Bool Reals Lra.
From Flocq Require Import Core IEEE754.Binary IEEE754.Bits.
From Flocq Require IEEE754.BinarySingleNaN.
From Verif Require Import F64 FloatOps NumericFacts FloatFacts OrderSpec.
Local Open Scope R_scope.

Section Format.
Context (prec emax : Z).
Context (Hp : Prec_gt_0 prec) (He : BinarySingleNaN.Prec_lt_emax prec emax).
Notation fx := (SpecFloat.fexp prec emax).
Notation rnd := (round radix2 fx (round_mode mode_NE)).
Notation fl := (binary_float prec emax).
Notation val := (B2R prec emax).
Notation top := (bpow radix2 emax).

(** [z] is what [a] is rounded to. *)
Definition rounded (a : ext) (z : fl) : Prop :=
  match a with
  | Below => z = B754_infinity prec emax true
  | Above => z = B754_infinity prec emax false
  | At r => (is_finite prec emax z = true /\ val z = rnd r) \/
            (top <= Rabs (rnd r) /\ z = B754_infinity prec emax (Rlt_bool (rnd r) 0))
  end.

Lemma rnd_mono x y : x <= y -> rnd x <= rnd y.
Proof. intros H. apply round_le; [apply (fexp_correct prec emax Hp)|apply BinarySingleNaN.valid_rnd_round_mode|exact H]. Qed.
Lemma val_top (z : fl) : Rabs (val z) < top.
Proof. apply abs_B2R_lt_emax. Qed.

Lemma compare_fin (x y : fl) : is_finite prec emax x = true -> is_finite prec emax y = true ->
  fcmp x y = Some (Rcompare (val x) (val y)).
Proof. intros Fx Fy. unfold fcmp. now apply Bcompare_correct. Qed.
Lemma compare_inf_l s (y : fl) : is_finite prec emax y = true ->
  fcmp (B754_infinity prec emax s) y = Some (if s then Lt else Gt).
Proof. destruct y as [sy|sy|sy pl H|sy m e H]; try discriminate; destruct s; try reflexivity. Qed.
Lemma compare_inf_r s (x : fl) : is_finite prec emax x = true ->
  fcmp x (B754_infinity prec emax s) = Some (if s then Gt else Lt).
Proof. destruct x as [sx|sx|sx pl H|sx m e H]; try discriminate; destruct s, sx; reflexivity. Qed.

Lemma rounded_number a z : rounded a z -> is_nan prec emax z = false.
Proof.
  destruct a as [|r|]; [intros ->; reflexivity| |intros ->; reflexivity].
  intros [[F _]|[_ ->]]; [|reflexivity]. destruct z; try reflexivity. discriminate F.
Qed.

(** If the rounded numbers are in strict order, so are the numbers. *)
Lemma rounded_lt a b (z w : fl) : rounded a z -> rounded b w -> fcmp z w = Some Lt -> ext_lt a b.
Proof.
  intros A B C.
  assert (N : forall s, fcmp (B754_infinity prec emax s) (B754_infinity prec emax s) <> Some Lt) by (intros []; discriminate).
  destruct a as [|r|], b as [|s|]; cbn [ext_lt]; trivial.
  - cbn in A, B. subst. now apply N in C.
  - cbn in B. subst w. destruct A as [[F _]|[_ ->]].
    + rewrite compare_inf_r in C by exact F. discriminate.
    + now destruct (Rlt_bool _ _).
  - apply Rnot_le_lt. intros L. apply rnd_mono in L.
    destruct A as [[Fz Ez]|[Oz Ez]], B as [[Fw Ew]|[Ow Ew]].
    + rewrite compare_fin in C by assumption. destruct (Rcompare_spec (val z) (val w)); try discriminate. lra.
    + subst w. rewrite compare_inf_r in C by exact Fz. destruct (Rlt_bool_spec (rnd s) 0) as [H|H]; [discriminate|].
      rewrite Rabs_pos_eq in Ow by exact H. pose proof (val_top z) as V. apply Rabs_def2 in V. lra.
    + subst z. rewrite compare_inf_l in C by exact Fw. destruct (Rlt_bool_spec (rnd r) 0) as [H|H]; [|discriminate].
      rewrite Rabs_left in Oz by exact H. pose proof (val_top w) as V. apply Rabs_def2 in V. lra.
    + subst z w. destruct (Rlt_bool_spec (rnd r) 0) as [H|H], (Rlt_bool_spec (rnd s) 0) as [H'|H'];
        try (now apply N in C); try discriminate C. lra.
  - cbn in A, B. subst. discriminate C.
  - cbn in A. subst z. destruct B as [[F _]|[_ ->]].
    + rewrite compare_inf_l in C by exact F. discriminate.
    + now destruct (Rlt_bool _ _).
  - cbn in A, B. subst. now apply N in C.
Qed.

Lemma fcmp_swap (x y : fl) : fcmp y x = option_map CompOpp (fcmp x y).
Proof. unfold fcmp. rewrite (Bcompare_swap prec emax). reflexivity. Qed.
Lemma fcmp_total (x y : fl) : is_nan prec emax x = false -> is_nan prec emax y = false -> exists c, fcmp x y = Some c.
Proof.
  intros Nx Ny. destruct (is_finite prec emax x) eqn:Fx, (is_finite prec emax y) eqn:Fy.
  - eexists. now apply compare_fin.
  - destruct y as [s|s|s pl H|s m e H]; try discriminate. eexists. now apply compare_inf_r.
  - destruct x as [s|s|s pl H|s m e H]; try discriminate. eexists. now apply compare_inf_l.
  - destruct x as [s|s|s pl H|s m e H], y as [s'|s'|s' pl' H'|s' m' e' H']; try discriminate. destruct s, s'; eexists; reflexivity.
Qed.

Lemma stands_rounded (x : fl) a : stands x a -> rounded a x.
Proof.
  destruct a as [|r|]; [exact (fun H => H)| |exact (fun H => H)]. intros [F <-]. left. split; [exact F|].
  symmetry. apply round_generic; [apply BinarySingleNaN.valid_rnd_round_mode|apply generic_format_B2R].
Qed.
(** Every float but NaN stands for a number. *)
Lemma stands_exists (x : fl) : is_nan prec emax x = false -> exists a, stands x a.
Proof.
  intros N. destruct x as [s|s|s pl H|s m e H]; [| |discriminate|].
  - exists (At 0). split; reflexivity.
  - exists (if s then Below else Above). destruct s; reflexivity.
  - eexists (At _). split; reflexivity.
Qed.
Lemma stands_lt (x y : fl) a b : stands x a -> stands y b -> ext_lt a b -> fcmp x y = Some Lt.
Proof.
  destruct a as [|r|], b as [|s|]; cbn [ext_lt]; intros A B L; try contradiction.
  - cbn in A. subst x. destruct B as [F _]. now rewrite compare_inf_l.
  - cbn in A, B. subst. reflexivity.
  - destruct A as [Fx <-], B as [Fy <-]. rewrite compare_fin by assumption. now rewrite Rcompare_Lt.
  - cbn in B. subst y. destruct A as [F _]. now rewrite compare_inf_r.
Qed.

Lemma pos_sign (f : fl) : positive f -> exists m e H, f = B754_finite prec emax false m e H.
Proof.
  intros [F P]. destruct f as [s|s|s pl H|s m e H]; try discriminate; [cbn in P; lra|].
  destruct s; [|eauto]. exfalso. cbn in P. pose proof (F2R_lt_0 radix2 (Float radix2 (Z.neg m) e) ltac:(cbn; lia)). unfold F2R in *. cbn in *. lra.
Qed.

Lemma mult_rounded nan (x f : fl) a : stands x a -> positive f ->
  rounded (scaled a (val f)) (Bmult prec emax Hp He nan mode_NE x f).
Proof.
  intros A P. destruct (pos_sign f P) as (mf & ef & Hf & Ef).
  assert (Sf : Bsign prec emax f = false) by (rewrite Ef; reflexivity). destruct a as [|r|].
  - cbn in A. rewrite A, Ef. reflexivity.
  - destruct A as [Fx <-]. destruct P as [Ff P]. cbn [scaled rounded].
    pose proof (Bmult_correct prec emax Hp He nan mode_NE x f) as C. destruct (Rlt_bool_spec (Rabs (rnd (val x * val f))) top) as [L|L].
    + destruct C as (C1 & C2 & _). left. split; [|exact C1]. rewrite C2, Fx, Ff. reflexivity.
    + right. split; [exact L|]. apply B2FF_inj. rewrite C. rewrite Sf, xorb_false_r.
      unfold binary_overflow, BinarySingleNaN.binary_overflow, SF2FF, BinarySingleNaN.overflow_to_inf. cbn [B2FF]. f_equal.
      assert (Nx : val x <> 0).
      { intros Z. rewrite Z, Rmult_0_l, round_0, Rabs_R0 in L by apply BinarySingleNaN.valid_rnd_round_mode.
        pose proof (bpow_gt_0 radix2 emax). lra. }
      assert (E : Bsign prec emax x = Rlt_bool (val x) 0).
      { destruct x as [s|s|s pl H|s m e H]; try discriminate; [now destruct Nx|]. cbn [Bsign B2R].
        destruct s; [rewrite Rlt_bool_true|rewrite Rlt_bool_false]; trivial.
        - apply F2R_lt_0. cbn. lia.
        - apply F2R_ge_0. cbn. lia. }
      rewrite E. destruct (Rlt_bool_spec (val x) 0) as [K|K]; symmetry.
      * apply Rlt_bool_true. apply Rnot_le_lt. intros Q.
        assert (rnd (val x * val f) <= 0).
        { rewrite <- (round_0 radix2 fx (round_mode mode_NE)). apply rnd_mono. nra. }
        rewrite Rabs_left1 in L by assumption. pose proof (bpow_gt_0 radix2 emax). lra.
      * apply Rlt_bool_false. rewrite <- (round_0 radix2 fx (round_mode mode_NE)). apply rnd_mono. nra.
  - cbn in A. rewrite A, Ef. reflexivity.
Qed.
Lemma div_rounded nan (x f : fl) a : stands x a -> positive f ->
  rounded (scaled a (/ val f)) (Bdiv prec emax Hp He nan mode_NE x f).
Proof.
  intros A P. destruct (pos_sign f P) as (mf & ef & Hf & Ef).
  assert (Sf : Bsign prec emax f = false) by (rewrite Ef; reflexivity). destruct a as [|r|].
  - cbn in A. rewrite A, Ef. reflexivity.
  - destruct A as [Fx <-]. destruct P as [Ff P]. cbn [scaled rounded].
    assert (P' : 0 < / val f) by now apply Rinv_0_lt_compat.
    pose proof (Bdiv_correct prec emax Hp He nan mode_NE x f ltac:(lra)) as C. fold (val x / val f).
    destruct (Rlt_bool_spec (Rabs (rnd (val x / val f))) top) as [L|L].
    + destruct C as (C1 & C2 & _). left. split; [|exact C1]. now rewrite C2.
    + right. split; [exact L|]. apply B2FF_inj. rewrite C. rewrite Sf, xorb_false_r.
      unfold binary_overflow, BinarySingleNaN.binary_overflow, SF2FF, BinarySingleNaN.overflow_to_inf. cbn [B2FF]. f_equal.
      assert (Nx : val x <> 0).
      { intros Z. unfold Rdiv in L. rewrite Z, Rmult_0_l, round_0, Rabs_R0 in L by apply BinarySingleNaN.valid_rnd_round_mode.
        pose proof (bpow_gt_0 radix2 emax). lra. }
      assert (E : Bsign prec emax x = Rlt_bool (val x) 0).
      { destruct x as [s|s|s pl H|s m e H]; try discriminate; [now destruct Nx|]. cbn [Bsign B2R].
        destruct s; [rewrite Rlt_bool_true|rewrite Rlt_bool_false]; trivial.
        - apply F2R_lt_0. cbn. lia.
        - apply F2R_ge_0. cbn. lia. }
      rewrite E. destruct (Rlt_bool_spec (val x) 0) as [K|K]; symmetry.
      * apply Rlt_bool_true. apply Rnot_le_lt. intros Q.
        assert (rnd (val x / val f) <= 0).
        { rewrite <- (round_0 radix2 fx (round_mode mode_NE)). apply rnd_mono. unfold Rdiv. nra. }
        rewrite Rabs_left1 in L by assumption. pose proof (bpow_gt_0 radix2 emax). lra.
      * apply Rlt_bool_false. rewrite <- (round_0 radix2 fx (round_mode mode_NE)). apply rnd_mono. unfold Rdiv. nra.
  - cbn in A. rewrite A, Ef. reflexivity.
Qed.

Lemma scaled_lt a b f : 0 < f -> ext_lt (scaled a f) (scaled b f) -> ext_lt a b.
Proof. intros P. destruct a, b; cbn; trivial. intros L. now apply Rmult_lt_reg_r in L. Qed.
End Format.
