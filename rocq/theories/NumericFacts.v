(** * Further facts about exponents and factors used by the numeric property file *)
From Coq Require Import ZArith Lia Bool Reals Lra List String.
From Flocq Require Import Core Binary Bits.
From Verif Require Import MachineInt Ratio RatioFacts F64 DecimalFacts Magnitude MagnitudeFacts.
Local Open Scope Z_scope.

(** ** Integer exponent computations of any length *)
Inductive iexp :=
| ILit (n : Z)
| IAdd (a b : iexp)
| ISub (a b : iexp)
| IMul (a b : iexp)
| INeg (a : iexp).

(** As the code computes them. *)
Fixpoint ieval (m : ovf) (e : iexp) : option Z :=
  match e with
  | ILit n => Some n
  | IAdd a b => let? x := ieval m a in let? y := ieval m b in i64_add m x y
  | ISub a b => let? x := ieval m a in let? y := ieval m b in i64_sub m x y
  | IMul a b => let? x := ieval m a in let? y := ieval m b in i64_mul m x y
  | INeg a => let? x := ieval m a in i64_neg m x
  end.

(** Mathematically. *)
Fixpoint zeval (e : iexp) : Z :=
  match e with
  | ILit n => n
  | IAdd a b => zeval a + zeval b
  | ISub a b => zeval a - zeval b
  | IMul a b => zeval a * zeval b
  | INeg a => - zeval a
  end.

(** Every intermediate result fits into 64 bits. *)
Fixpoint ifits (e : iexp) : Prop :=
  (- 2 ^ 63 <= zeval e < 2 ^ 63) /\
  match e with
  | ILit _ => True
  | IAdd a b | ISub a b | IMul a b => ifits a /\ ifits b
  | INeg a => ifits a
  end.

Fixpoint ilits (e : iexp) : Prop :=
  match e with
  | ILit n => - 2 ^ 63 <= n < 2 ^ 63
  | IAdd a b | ISub a b | IMul a b => ilits a /\ ilits b
  | INeg a => ilits a
  end.

Lemma ieval_exact m e : ifits e -> ieval m e = Some (zeval e).
Proof.
  induction e as [n|a IHa b IHb|a IHa b IHb|a IHa b IHb|a IHa]; cbn [ifits ieval zeval]; intros [H1 H2]; auto;
    try (destruct H2 as [Ha Hb]; rewrite (IHa Ha), (IHb Hb); now apply fit_in, in_i64_iff).
  rewrite (IHa H2). now apply fit_in, in_i64_iff.
Qed.

Lemma ieval_checked e z : ilits e -> ieval Checked e = Some z -> ifits e /\ z = zeval e.
Proof.
  revert z.
  induction e as [n|a IHa b IHb|a IHa b IHb|a IHa b IHb|a IHa]; cbn [ifits ieval zeval ilits]; intros z L H.
  - inversion H; subst. auto.
  - destruct L as [La Lb]. destruct (ieval Checked a) as [x|]; [|discriminate].
    destruct (ieval Checked b) as [y|]; [|discriminate].
    destruct (IHa x La eq_refl) as [Fa ->], (IHb y Lb eq_refl) as [Fb ->].
    apply fit_checked_Some in H as [-> H]. apply in_i64_iff in H. auto.
  - destruct L as [La Lb]. destruct (ieval Checked a) as [x|]; [|discriminate].
    destruct (ieval Checked b) as [y|]; [|discriminate].
    destruct (IHa x La eq_refl) as [Fa ->], (IHb y Lb eq_refl) as [Fb ->].
    apply fit_checked_Some in H as [-> H]. apply in_i64_iff in H. auto.
  - destruct L as [La Lb]. destruct (ieval Checked a) as [x|]; [|discriminate].
    destruct (ieval Checked b) as [y|]; [|discriminate].
    destruct (IHa x La eq_refl) as [Fa ->], (IHb y Lb eq_refl) as [Fb ->].
    apply fit_checked_Some in H as [-> H]. apply in_i64_iff in H. auto.
  - destruct (ieval Checked a) as [x|]; [|discriminate].
    destruct (IHa x L eq_refl) as [Fa ->]. apply fit_checked_Some in H as [-> H]. apply in_i64_iff in H. auto.
Qed.

Lemma ieval_range e z : ilits e -> ieval Wrapping e = Some z -> - 2 ^ 63 <= z < 2 ^ 63.
Proof.
  assert (K : forall x y, fit Wrapping x = Some y -> - 2 ^ 63 <= y < 2 ^ 63)
    by (intros x y H; now apply in_i64_iff, (fit_range Wrapping x)).
  destruct e; cbn [ieval ilits]; intros L H.
  - now inversion H; subst.
  - destruct (ieval Wrapping e1); [|discriminate]. destruct (ieval Wrapping e2); [|discriminate]. eapply K, H.
  - destruct (ieval Wrapping e1); [|discriminate]. destruct (ieval Wrapping e2); [|discriminate]. eapply K, H.
  - destruct (ieval Wrapping e1); [|discriminate]. destruct (ieval Wrapping e2); [|discriminate]. eapply K, H.
  - destruct (ieval Wrapping e); [|discriminate]. eapply K, H.
Qed.

Lemma ieval_wrapping e : exists z, ieval Wrapping e = Some z /\ (2 ^ 64 | z - zeval e).
Proof.
  assert (K : forall x y, (2 ^ 64 | x - y) -> forall z, fit Wrapping x = Some z -> (2 ^ 64 | z - y)).
  { intros x y H z Hz. apply fit_wrapping_congr in Hz.
    replace (z - y) with ((z - x) + (x - y)) by ring. now apply Z.divide_add_r. }
  induction e as [n|a IHa b IHb|a IHa b IHb|a IHa b IHb|a IHa]; cbn [ieval zeval].
  - exists n. split; auto. exists 0. lia.
  - destruct IHa as (x & -> & Hx), IHb as (y & -> & Hy).
    destruct (fit_wrapping_total (x + y)) as [z Hz]. exists z. split; auto. apply (K (x + y)); auto.
    replace (x + y - (zeval a + zeval b)) with ((x - zeval a) + (y - zeval b)) by ring.
    now apply Z.divide_add_r.
  - destruct IHa as (x & -> & Hx), IHb as (y & -> & Hy).
    destruct (fit_wrapping_total (x - y)) as [z Hz]. exists z. split; auto. apply (K (x - y)); auto.
    replace (x - y - (zeval a - zeval b)) with ((x - zeval a) - (y - zeval b)) by ring.
    now apply Z.divide_sub_r.
  - destruct IHa as (x & -> & Hx), IHb as (y & -> & Hy).
    destruct (fit_wrapping_total (x * y)) as [z Hz]. exists z. split; auto. apply (K (x * y)); auto.
    replace (x * y - zeval a * zeval b) with ((x - zeval a) * y + zeval a * (y - zeval b)) by ring.
    apply Z.divide_add_r; [now apply Z.divide_mul_l|now apply Z.divide_mul_r].
  - destruct IHa as (x & -> & Hx).
    destruct (fit_wrapping_total (- x)) as [z Hz]. exists z. split; auto. apply (K (- x)); auto.
    replace (- x - - zeval a) with (- (x - zeval a)) by ring. now apply Z.divide_opp_r.
Qed.

(** ** Correct rounding of the float operations used on factors *)

Lemma sign_prod a b :
  a <> 0%R -> b <> 0%R -> Rlt_bool (a * b) 0 = xorb (Rlt_bool a 0) (Rlt_bool b 0).
Proof.
  intros Ha Hb.
  destruct (Rlt_bool_spec a 0) as [A|A], (Rlt_bool_spec b 0) as [B|B]; simpl.
  - apply Rlt_bool_false. nra.
  - apply Rlt_bool_true. nra.
  - apply Rlt_bool_true. nra.
  - apply Rlt_bool_false. nra.
Qed.

Lemma sign_B2R (x : f64) :
  is_finite 53 1024 x = true -> B2R 53 1024 x <> 0%R -> Bsign 53 1024 x = Rlt_bool (B2R 53 1024 x) 0.
Proof.
  destruct x as [s|s|s pl H|s m e B]; try discriminate; simpl; intros _ N; [easy|].
  destruct s; simpl.
  - symmetry. apply Rlt_bool_true. now apply F2R_lt_0.
  - symmetry. apply Rlt_bool_false. apply F2R_ge_0. simpl. lia.
Qed.

Lemma rnd64_0 : rnd64 0 = 0%R.
Proof. apply round_0. apply valid_rnd_N. Qed.

Lemma f64_mul_nearest x y :
  is_finite 53 1024 x = true -> is_finite 53 1024 y = true ->
  nearest (B2R 53 1024 x * B2R 53 1024 y) (f64_mul x y).
Proof.
  intros Fx Fy. unfold nearest, rnd64, f64_mul, b64_mult.
  match goal with |- context [Bmult _ _ ?H1 ?H2 ?nan _ _ _] =>
    pose proof (Bmult_correct 53 1024 H1 H2 nan mode_NE x y) as C end.
  destruct (Rlt_bool _ _) eqn:E.
  - destruct C as (R1 & R2 & _). rewrite R2, Fx, Fy. auto.
  - assert (N : (B2R 53 1024 x * B2R 53 1024 y <> 0)%R).
    { intros Z. rewrite Z in E. fold rnd64 in E. change (round radix2 _ _ 0) with (rnd64 0) in E.
      rewrite rnd64_0, Rabs_R0 in E. rewrite Rlt_bool_true in E; [discriminate|]. apply bpow_gt_0. }
    rewrite sign_prod by (intros Z; apply N; rewrite Z; ring).
    rewrite <- !sign_B2R; auto; try (intros Z; apply N; rewrite Z; ring).
    apply B2FF_inj. rewrite C. reflexivity.
Qed.

Lemma f64_div_nearest x y :
  is_finite 53 1024 x = true -> is_finite 53 1024 y = true -> B2R 53 1024 y <> 0%R ->
  nearest (B2R 53 1024 x / B2R 53 1024 y) (f64_div x y).
Proof.
  intros Fx Fy Ny. unfold nearest, rnd64, f64_div, b64_div.
  match goal with |- context [Bdiv _ _ ?H1 ?H2 ?nan _ _ _] =>
    pose proof (Bdiv_correct 53 1024 H1 H2 nan mode_NE x y Ny) as C end.
  destruct (Rlt_bool _ _) eqn:E.
  - destruct C as (R1 & R2 & _). rewrite R2, Fx. auto.
  - assert (N : (B2R 53 1024 x <> 0)%R).
    { intros Z. rewrite Z in E. unfold Rdiv in E. rewrite Rmult_0_l in E.
      change (round radix2 _ _ 0) with (rnd64 0) in E.
      rewrite rnd64_0, Rabs_R0 in E. rewrite Rlt_bool_true in E; [discriminate|]. apply bpow_gt_0. }
    unfold Rdiv. rewrite sign_prod; auto; [|now apply Rinv_neq_0_compat].
    replace (Rlt_bool (/ B2R 53 1024 y) 0) with (Rlt_bool (B2R 53 1024 y) 0).
    2:{ destruct (Rlt_bool_spec (B2R 53 1024 y) 0) as [A|A]; symmetry.
        - apply Rlt_bool_true. now apply Rinv_lt_0_compat.
        - apply Rlt_bool_false. left. apply Rinv_0_lt_compat. lra. }
    rewrite <- !sign_B2R; auto.
    apply B2FF_inj. rewrite C. reflexivity.
Qed.

(** Single precision. *)
Definition rnd32 : R -> R := round radix2 (SpecFloat.fexp 24 128) (round_mode mode_NE).
Definition nearest32 (r : R) (x : f32) : Prop :=
  if Rlt_bool (Rabs (rnd32 r)) (bpow radix2 128)
  then is_finite 24 128 x = true /\ B2R 24 128 x = rnd32 r
  else x = B754_infinity 24 128 (Rlt_bool r 0).

Lemma f64_to_f32_nearest x :
  is_finite 53 1024 x = true -> nearest32 (B2R 53 1024 x) (f64_to_f32 x).
Proof.
  destruct x as [s|s|s pl H|s m e B]; try discriminate; intros _; unfold f64_to_f32.
  - unfold nearest32, rnd32. change (B2R 53 1024 (B754_zero 53 1024 s)) with 0%R.
    rewrite round_0; [|apply valid_rnd_N].
    rewrite Rabs_R0, Rlt_bool_true by apply bpow_gt_0. auto.
  - unfold nearest32, rnd32.
    match goal with |- context [binary_normalize _ _ ?H1 ?H2 _ ?z ?k ?b] =>
      pose proof (binary_normalize_correct 24 128 H1 H2 mode_NE z k b) as C end.
    replace (F2R (Float radix2 (cond_Zopp s (Zpos m)) e)) with (B2R 53 1024 (B754_finite 53 1024 s m e B)) in C
      by reflexivity.
    destruct (Rlt_bool _ _).
    + destruct C as (C1 & C2 & _). auto.
    + apply B2FF_inj. rewrite C. reflexivity.
Qed.

Lemma sign_B2R32 (x : f32) :
  is_finite 24 128 x = true -> B2R 24 128 x <> 0%R -> Bsign 24 128 x = Rlt_bool (B2R 24 128 x) 0.
Proof.
  destruct x as [s|s|s pl H|s m e B]; try discriminate; simpl; intros _ N; [easy|].
  destruct s; simpl.
  - symmetry. apply Rlt_bool_true. now apply F2R_lt_0.
  - symmetry. apply Rlt_bool_false. apply F2R_ge_0. simpl. lia.
Qed.

Lemma f32_mul_nearest x y :
  is_finite 24 128 x = true -> is_finite 24 128 y = true ->
  nearest32 (B2R 24 128 x * B2R 24 128 y) (f32_mul x y).
Proof.
  intros Fx Fy. unfold nearest32, rnd32, f32_mul, b32_mult.
  match goal with |- context [Bmult _ _ ?H1 ?H2 ?nan _ _ _] =>
    pose proof (Bmult_correct 24 128 H1 H2 nan mode_NE x y) as C end.
  destruct (Rlt_bool _ _) eqn:E.
  - destruct C as (R1 & R2 & _). rewrite R2, Fx, Fy. auto.
  - assert (N : (B2R 24 128 x * B2R 24 128 y <> 0)%R).
    { intros Z. rewrite Z in E. rewrite round_0, Rabs_R0 in E; [|apply valid_rnd_N].
      rewrite Rlt_bool_true in E; [discriminate|]. apply bpow_gt_0. }
    rewrite sign_prod by (intros Z; apply N; rewrite Z; ring).
    rewrite <- !sign_B2R32; auto; try (intros Z; apply N; rewrite Z; ring).
    apply B2FF_inj. rewrite C. reflexivity.
Qed.

(** Ratios of equal value built with denominators of the same sign are identical. *)
Lemma rnew_same_sign n1 d1 n2 d2 r1 r2 : 0 < d1 * d2 ->
  rnew Checked n1 d1 = Some r1 -> rnew Checked n2 d2 = Some r2 -> n1 * d2 = n2 * d1 -> r1 = r2.
Proof.
  intros Hd H1 H2 E.
  apply rnew_checked_Some in H1 as (G1 & N1 & D1 & C1). apply rnew_checked_Some in H2 as (G2 & N2 & D2 & C2).
  set (g1 := Z.gcd n1 d1) in *. set (g2 := Z.gcd n2 d2) in *. clearbody g1 g2.
  destruct r1 as [a1 b1], r2 as [a2 b2]. simpl in *. subst.
  assert (E' : a1 * b2 = a2 * b1).
  { apply (Z.mul_cancel_r _ _ (g1 * g2)); nia. }
  assert (S : 0 < b1 * b2) by nia.
  assert (Hb : b1 = b2).
  { assert (I1 : (b1 | b2)).
    { apply (Z.gauss b1 a1 b2); [rewrite E'; apply Z.divide_factor_r|now rewrite Z.gcd_comm]. }
    assert (I2 : (b2 | b1)).
    { apply (Z.gauss b2 a2 b1); [rewrite <- E'; apply Z.divide_factor_r|now rewrite Z.gcd_comm]. }
    destruct (Z.divide_antisym b1 b2 I1 I2); nia. }
  subst. f_equal. apply (Z.mul_cancel_r _ _ b2); nia.
Qed.
