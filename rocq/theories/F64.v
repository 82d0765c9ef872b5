(** * Rust's [f64] and [f32]: IEEE-754 binary64/binary32 through Flocq.

    Not part of /repo: this is the semantics of the primitive types the repository's code
    computes with.  Arithmetic rounds to nearest, ties to even. *)
From Coq Require Import ZArith Lia Bool Reals List.
From Flocq Require Import Core.Core IEEE754.Binary IEEE754.Bits.
From Flocq Require IEEE754.BinarySingleNaN.
Local Open Scope Z_scope.

Notation mode_NE := BinarySingleNaN.mode_NE.
Notation round_mode := BinarySingleNaN.round_mode.

Definition f64 : Set := binary64.
Definition f32 : Set := binary32.

(** rustc: [*], [/], [+], [-] on [f64]/[f32]. *)
Definition f64_mul : f64 -> f64 -> f64 := b64_mult mode_NE.
Definition f64_div : f64 -> f64 -> f64 := b64_div mode_NE.
Definition f64_add : f64 -> f64 -> f64 := b64_plus mode_NE.
Definition f64_sub : f64 -> f64 -> f64 := b64_minus mode_NE.
Definition f32_mul : f32 -> f32 -> f32 := b32_mult mode_NE.
Definition f32_div : f32 -> f32 -> f32 := b32_div mode_NE.

(** rustc: [==] on [f64]. *)
Definition f64_eqb (x y : f64) : bool :=
  match b64_compare x y with Some Eq => true | _ => false end.

(** rustc: integer-to-float casts ([i64 as f64], [u64 as f64], [i8 as f64]): nearest, ties to even. *)
Definition f64_of_Z (z : Z) : f64 := binary_normalize 53 1024 eq_refl eq_refl mode_NE z 0 false.

Definition f64_one : f64 := f64_of_Z 1.
Definition f64_zero : f64 := f64_of_Z 0.

(** rustc: [f64 as f32] and [f32 as f64]. *)
Definition f64_to_f32 (x : f64) : f32 :=
  match x with
  | B754_zero _ _ s => B754_zero _ _ s
  | B754_infinity _ _ s => B754_infinity _ _ s
  | B754_nan _ _ s _ _ => B754_nan 24 128 s 4194304 eq_refl
  | B754_finite _ _ s m e _ =>
      binary_normalize 24 128 eq_refl eq_refl mode_NE (cond_Zopp s (Zpos m)) e s
  end.
Definition f32_to_f64 (x : f32) : f64 :=
  match x with
  | B754_zero _ _ s => B754_zero _ _ s
  | B754_infinity _ _ s => B754_infinity _ _ s
  | B754_nan _ _ s _ _ => B754_nan 53 1024 s 2251799813685248 eq_refl
  | B754_finite _ _ s m e _ =>
      binary_normalize 53 1024 eq_refl eq_refl mode_NE (cond_Zopp s (Zpos m)) e s
  end.

(** core's [<f64 as FromStr>] on a literal with digits [d] and decimal exponent [k]:
    the double nearest to [d * 10^k]. *)
Definition f64_of_decimal (d : Z) (k : Z) : f64 :=
  match d with
  | Z0 => f64_zero
  | Zpos p =>
      match k with
      | Z0 => f64_of_Z d
      | Zpos _ => f64_of_Z (d * 10 ^ k)
      | Zneg q =>
          match 10 ^ (Zpos q) with
          | Zpos t =>
              BSN2B 53 1024 (exist _ (B754_nan 53 1024 false 1 eq_refl) eq_refl)
                (BinarySingleNaN.SF2B _
                   (proj1 (BinarySingleNaN.Bdiv_correct_aux 53 1024 eq_refl eq_refl
                             mode_NE false p 0 false t 0)))
          | _ => f64_zero
          end
      end
  | Zneg _ => f64_zero (* literals are unsigned; the sign is a separate token *)
  end.

(** The double [2^e]: exact when representable, [0] below, [inf] above. *)
Definition f64_pow2 (e : Z) : f64 := binary_normalize 53 1024 eq_refl eq_refl mode_NE 1 e false.

(** ** [powi] algorithms *)

(** compiler-rt's [__powidf2] (what [f64::powi] calls on the usual targets): square-and-multiply,
    reciprocal at the end for a negative exponent. *)
Fixpoint powi_rt_pos (r a : f64) (n : positive) : f64 :=
  match n with
  | xH => f64_mul r a
  | xO n' => powi_rt_pos r (f64_mul a a) n'
  | xI n' => powi_rt_pos (f64_mul r a) (f64_mul a a) n'
  end.
Definition powi_rt (a : f64) (n : Z) : f64 :=
  match n with
  | Z0 => f64_one
  | Zpos p => powi_rt_pos f64_one a p
  | Zneg p => f64_div f64_one (powi_rt_pos f64_one a p)
  end.

(** num-traits' [FloatCore::powi] (no_std builds): reciprocal first, then
    [num_traits::pow] (strip low zero bits, then accumulate). *)
Fixpoint pow_nt_acc (acc base : f64) (n : positive) : f64 :=
  match n with
  | xH => acc
  | xO n' => let base' := f64_mul base base in
             match n' with
             | xO _ => pow_nt_acc acc base' n'
             | _ => pow_nt_acc (f64_mul acc base') base' n'
             end
  | xI n' => let base' := f64_mul base base in
             match n' with
             | xO _ => pow_nt_acc acc base' n'
             | _ => pow_nt_acc (f64_mul acc base') base' n'
             end
  end.
Fixpoint pow_nt (base : f64) (n : positive) : f64 :=
  match n with
  | xO n' => pow_nt (f64_mul base base) n'
  | xH => base
  | xI _ => pow_nt_acc base base n
  end.
Definition powi_nt (a : f64) (n : Z) : f64 :=
  match n with
  | Z0 => f64_one
  | Zpos p => pow_nt a p
  | Zneg p => pow_nt (f64_div f64_one a) p
  end.

(** ** Facts *)

Lemma f64_eq_of_R (x y : f64) :
  is_finite 53 1024 x = true -> is_finite 53 1024 y = true ->
  B2R 53 1024 x = B2R 53 1024 y -> Bsign 53 1024 x = Bsign 53 1024 y -> x = y.
Proof. intros. now apply B2R_Bsign_inj. Qed.

Lemma round_B2R (z : f64) :
  round radix2 (SpecFloat.fexp 53 1024) (round_mode mode_NE) (B2R 53 1024 z) = B2R 53 1024 z.
Proof.
  apply round_generic; [apply BinarySingleNaN.valid_rnd_round_mode|].
  apply generic_format_B2R.
Qed.

Lemma finite_lt_emax (z : f64) : (Rabs (B2R 53 1024 z) < bpow radix2 1024)%R.
Proof. apply abs_B2R_lt_emax. Qed.

Lemma finite_not_nan (z : f64) : is_finite 53 1024 z = true -> is_nan 53 1024 z = false.
Proof. destruct z; simpl; congruence. Qed.

Lemma f64_mul_exact (x y z : f64) :
  is_finite 53 1024 x = true -> is_finite 53 1024 y = true -> is_finite 53 1024 z = true ->
  (B2R 53 1024 x * B2R 53 1024 y = B2R 53 1024 z)%R ->
  Bsign 53 1024 z = xorb (Bsign 53 1024 x) (Bsign 53 1024 y) ->
  f64_mul x y = z.
Proof.
  intros Fx Fy Fz E Sz. unfold f64_mul, b64_mult.
  match goal with |- Bmult _ _ ?H1 ?H2 ?nan _ _ _ = _ =>
    pose proof (Bmult_correct 53 1024 H1 H2 nan mode_NE x y) as C end.
  rewrite E, round_B2R, Rlt_bool_true in C by apply finite_lt_emax.
  destruct C as (C1 & C2 & C3). rewrite Fx, Fy in C2. simpl in C2.
  apply f64_eq_of_R; auto. rewrite Sz. apply C3. now apply finite_not_nan.
Qed.

Lemma f64_div_exact (x y z : f64) :
  is_finite 53 1024 x = true -> is_finite 53 1024 z = true ->
  (B2R 53 1024 y <> 0)%R ->
  (B2R 53 1024 x / B2R 53 1024 y = B2R 53 1024 z)%R ->
  Bsign 53 1024 z = xorb (Bsign 53 1024 x) (Bsign 53 1024 y) ->
  f64_div x y = z.
Proof.
  intros Fx Fz Hy E Sz. unfold f64_div, b64_div.
  match goal with |- Bdiv _ _ ?H1 ?H2 ?nan _ _ _ = _ =>
    pose proof (Bdiv_correct 53 1024 H1 H2 nan mode_NE x y Hy) as C end.
  rewrite E, round_B2R, Rlt_bool_true in C by apply finite_lt_emax.
  destruct C as (C1 & C2 & C3). rewrite Fx in C2.
  apply f64_eq_of_R; auto. rewrite Sz. apply C3. now apply finite_not_nan.
Qed.

Lemma f64_of_Z_exact z :
  Z.abs z < 2 ^ 53 ->
  is_finite 53 1024 (f64_of_Z z) = true /\ B2R 53 1024 (f64_of_Z z) = IZR z /\
  Bsign 53 1024 (f64_of_Z z) = (z <? 0).
Proof.
  intros Hz. unfold f64_of_Z.
  pose proof (binary_normalize_correct 53 1024 eq_refl eq_refl mode_NE z 0 false) as C.
  assert (E : F2R (Float radix2 z 0) = IZR z) by (unfold F2R; simpl; ring).
  rewrite E in C.
  assert (R : round radix2 (SpecFloat.fexp 53 1024) (round_mode mode_NE) (IZR z) = IZR z).
  { apply round_generic; [apply BinarySingleNaN.valid_rnd_round_mode|].
    rewrite <- E. apply generic_format_F2R. intros Hz0.
    unfold cexp. rewrite E. unfold SpecFloat.fexp.
    assert (mag radix2 (IZR z) <= 53).
    { apply mag_le_bpow; [now apply IZR_neq|].
      rewrite <- abs_IZR. change (bpow radix2 53) with (IZR (2 ^ 53)). now apply IZR_lt. }
    unfold SpecFloat.emin. lia. }
  rewrite R, Rlt_bool_true in C.
  - destruct C as (C1 & C2 & C3). split; [|split]; auto. rewrite C3.
    destruct (Z.ltb_spec z 0) as [H|H].
    + rewrite Rcompare_Lt; auto. now apply IZR_lt.
    + destruct (Z.eq_dec z 0) as [->|].
      * now rewrite Rcompare_Eq.
      * rewrite Rcompare_Gt; auto. apply IZR_lt. lia.
  - rewrite <- abs_IZR. change (bpow radix2 1024) with (IZR (2 ^ 1024)). apply IZR_lt.
    eapply Z.lt_trans; [exact Hz|reflexivity].
Qed.

Lemma f64_pow2_exact e :
  -1074 <= e < 1024 ->
  is_finite 53 1024 (f64_pow2 e) = true /\ B2R 53 1024 (f64_pow2 e) = bpow radix2 e /\
  Bsign 53 1024 (f64_pow2 e) = false.
Proof.
  intros He. unfold f64_pow2.
  pose proof (binary_normalize_correct 53 1024 eq_refl eq_refl mode_NE 1 e false) as C.
  assert (E : F2R (Float radix2 1 e) = bpow radix2 e) by apply F2R_bpow.
  rewrite E in C.
  rewrite round_generic in C;
    [|apply BinarySingleNaN.valid_rnd_round_mode|
     apply generic_format_bpow; unfold SpecFloat.fexp, SpecFloat.emin; lia].
  rewrite Rlt_bool_true in C.
  - destruct C as (C1 & C2 & C3). split; [|split]; auto. rewrite C3.
    rewrite Rcompare_Gt; auto. apply bpow_gt_0.
  - rewrite Rabs_pos_eq by apply bpow_ge_0. apply bpow_lt. lia.
Qed.
