(** * Decimal literals are read as the nearest double *)
From Coq Require Import ZArith Lia Bool Reals List Lra.
From Flocq Require Import Core.Core IEEE754.Binary IEEE754.Bits.
From Flocq Require IEEE754.BinarySingleNaN.
From Verif Require Import F64.
Local Open Scope Z_scope.

Definition rnd64 : R -> R := round radix2 (SpecFloat.fexp 53 1024) (round_mode mode_NE).

(** [x] is the double nearest to the real [r] (infinite when out of range). *)
Definition nearest (r : R) (x : f64) : Prop :=
  if Rlt_bool (Rabs (rnd64 r)) (bpow radix2 1024)
  then is_finite 53 1024 x = true /\ B2R 53 1024 x = rnd64 r
  else x = B754_infinity 53 1024 (Rlt_bool r 0).


Lemma f64_of_Z_nearest z : nearest (IZR z) (f64_of_Z z).
Proof.
  unfold nearest, f64_of_Z, rnd64.
  pose proof (binary_normalize_correct 53 1024 eq_refl eq_refl mode_NE z 0 false) as C.
  assert (E : F2R (Float radix2 z 0) = IZR z) by (unfold F2R; simpl; ring). rewrite E in C.
  destruct (Rlt_bool _ _).
  - destruct C as (C1 & C2 & _). auto.
  - revert C. generalize (binary_normalize 53 1024 eq_refl eq_refl mode_NE z 0 false).
    intros y Hy. destruct y; simpl in Hy; try discriminate. now inversion Hy.
Qed.

Lemma div_nearest (p t : positive) :
  nearest (IZR (Zpos p) / IZR (Zpos t))
    (BSN2B 53 1024 (exist _ (B754_nan 53 1024 false 1 eq_refl) eq_refl)
       (BinarySingleNaN.SF2B _
          (proj1 (BinarySingleNaN.Bdiv_correct_aux 53 1024 eq_refl eq_refl
                    mode_NE false p 0 false t 0)))).
Proof.
  pose proof (proj2 (BinarySingleNaN.Bdiv_correct_aux 53 1024 eq_refl eq_refl mode_NE false p 0 false t 0)) as C.
  generalize (proj1 (BinarySingleNaN.Bdiv_correct_aux 53 1024 eq_refl eq_refl mode_NE false p 0 false t 0)) as V.
  cbv zeta in C |- *. intros V.
  match type of V with SpecFloat.valid_binary _ _ ?z = true => remember z as w eqn:Ew; clear Ew end.
  assert (Ex : F2R (Float radix2 (cond_Zopp false (Zpos p)) 0) = IZR (Zpos p)) by (unfold F2R; simpl; ring).
  assert (Ey : F2R (Float radix2 (cond_Zopp false (Zpos t)) 0) = IZR (Zpos t)) by (unfold F2R; simpl; ring).
  rewrite Ex, Ey in C. unfold nearest, rnd64.
  destruct (Rlt_bool (Rabs _) _).
  - destruct C as (C1 & C2 & _). rewrite is_finite_BSN2B, BinarySingleNaN.is_finite_SF2B.
    rewrite B2R_BSN2B, BinarySingleNaN.B2R_SF2B. auto.
  - subst w. simpl. rewrite Rlt_bool_false; auto.
    apply Rmult_le_pos; [|left; apply Rinv_0_lt_compat; now apply IZR_lt].
    now apply IZR_le.
Qed.

(** 10^k as a real number. *)
Lemma pow10_pos q : IZR (10 ^ Zpos q) = powerRZ 10 (Zpos q).
Proof. rewrite <- (positive_nat_Z q), <- pow_IZR, positive_nat_Z. reflexivity. Qed.

(** The literal with digits [d] and decimal exponent [k] is the double nearest to [d * 10^k]. *)
Theorem f64_of_decimal_nearest d k :
  0 <= d -> nearest (IZR d * powerRZ 10 k) (f64_of_decimal d k).
Proof.
  intros Hd. destruct d as [|p|p]; [|clear Hd|lia].
  - simpl f64_of_decimal. rewrite Rmult_0_l. apply (f64_of_Z_nearest 0).
  - unfold f64_of_decimal. destruct k as [|q|q].
    + simpl powerRZ. rewrite Rmult_1_r. apply f64_of_Z_nearest.
    + rewrite <- pow10_pos, <- mult_IZR. apply f64_of_Z_nearest.
    + pose proof (pow10_pos q) as E.
      assert (P : 0 < 10 ^ Zpos q) by (apply Z.pow_pos_nonneg; lia).
      destruct (10 ^ Zpos q) as [|t|t]; try lia.
      change (powerRZ 10 (Zneg q)) with (/ powerRZ 10 (Zpos q))%R. rewrite <- E. apply div_nearest.
Qed.
