(** * Properties of exponents and factors (C37-C45)

    Doubles are Flocq's binary64 ([f64]), so bitwise equality is [=].  [stable lo x]: [x] is not
    NaN and is zero, infinite or at least [2^(lo+52)] in absolute value.  [good_platform env lo]
    (Setting): what is assumed of [f64::powi]; it holds with [lo = -1023] for compiler-rt's
    implementation and with [lo = -1074] for num-traits' one. *)
From Coq Require Import String List Bool ZArith Lia Reals Lra.
From Coq Require Import QArith Qcanon.
From Flocq Require Import Core Binary Bits.
From Verif Require Import MachineInt Ratio RatioFacts F64 DecimalFacts Magnitude MagnitudeFacts
  Exponent ExponentFacts SMap Expression DimensionMath DimensionMathFacts Types Snake Resolve
  SystemSpec ResolveFacts ResolveAccept ResolveEquations Expansion Setting NumericFacts SystemFacts
  ExampleSystems.
Import ListNotations.
Local Open Scope list_scope.
Local Close Scope Qc_scope.
Local Close Scope Q_scope.
Local Open Scope Z_scope.

(** ** C37 *)
(** Exact description of a round trip for all [2^64] doubles. *)
Theorem C37_roundtrip : forall env lo x, good_platform env lo ->
  into_f64 env (from_f64 x) =
    if is_finite 53 1024 x
    then if Rlt_bool (Rabs (B2R 53 1024 x)) (bpow radix2 (lo + 52))
         then B754_zero 53 1024 (Bsign 53 1024 x) else x
    else B754_infinity 53 1024 (Bsign 53 1024 x).
Proof.
  intros env lo x [Hlo Hp]. destruct (is_finite 53 1024 x) eqn:F.
  - apply roundtrip_finite; auto; lia.
  - apply (roundtrip_nonfinite env lo); auto; lia.
Qed.
Print Assumptions C37_roundtrip.

Theorem C37_unchanged : forall env lo x, good_platform env lo -> stable lo x ->
  into_f64 env (from_f64 x) = x.
Proof. intros env lo x [Hlo Hp]. apply roundtrip_stable; auto; lia. Qed.
Print Assumptions C37_unchanged.

Example C37_applies : good_platform env0 (-1023) /\ stable (-1023) (f64_of_decimal 254 (-2)).
Proof. split; [apply good0|]. apply expo_ge_stable. reflexivity. Qed.

(** ** C38: false, for either implementation of powi *)
Definition C38_statement (env : fenv) : Prop :=
  forall x, is_finite 53 1024 x = true -> into_f64 env (from_f64 x) = x.

(** Witness: 1e-300 with compiler-rt's powi. *)
Theorem C38_refuted_compiler_rt : forall powf, ~ C38_statement (env_rt powf).
Proof.
  intros powf S. specialize (S (f64_of_decimal 1 (-300)) eq_refl).
  assert (B : f64_bits_eqb (into_f64 (mkFenv powi_rt powf) (from_f64 (f64_of_decimal 1 (-300))))
                           (f64_of_decimal 1 (-300)) = false) by (vm_compute; reflexivity).
  unfold env_rt in S. rewrite S in B. vm_compute in B. discriminate B.
Qed.
Print Assumptions C38_refuted_compiler_rt.

(** Witness: the smallest subnormal, whatever the platform. *)
Theorem C38_refuted : forall env lo, good_platform env lo -> ~ C38_statement env.
Proof.
  intros env lo G S. specialize (S (f64_pow2 (-1074)) eq_refl).
  rewrite (C37_roundtrip env lo) in S by auto. change (is_finite 53 1024 (f64_pow2 (-1074))) with true in S.
  cbv iota in S. rewrite Rlt_bool_true in S; [discriminate S|].
  destruct (f64_pow2_exact (-1074)) as (_ & R1 & _); [lia|]. rewrite R1.
  rewrite Rabs_pos_eq by apply bpow_ge_0. apply bpow_lt. destruct G. lia.
Qed.
Print Assumptions C38_refuted.

(** What holds instead is [C37_roundtrip]. *)
Theorem C38_partial : forall env lo x, good_platform env lo -> is_finite 53 1024 x = true ->
  (bpow radix2 (lo + 52) <= Rabs (B2R 53 1024 x))%R -> into_f64 env (from_f64 x) = x.
Proof.
  intros env lo x G F H. rewrite (C37_roundtrip env lo) by auto. rewrite F.
  now rewrite Rlt_bool_false.
Qed.
Print Assumptions C38_partial.

(** ** C39 *)
Theorem C39_different_factors_different_types : forall x y, from_f64 x = from_f64 y <-> x = y.
Proof. intros x y. split; [apply from_f64_inj|now intros ->]. Qed.
Print Assumptions C39_different_factors_different_types.
(** The derived [==] on factors is the same relation. *)
Theorem C39_equality_operator : forall x y, mag_eqb (from_f64 x) (from_f64 y) = true <-> x = y.
Proof.
  intros x y. rewrite <- C39_different_factors_different_types.
  destruct (from_f64 x) as [m e s], (from_f64 y) as [m' e' s']. unfold mag_eqb. cbn [mantissa mexponent msign].
  rewrite !andb_true_iff, !Z.eqb_eq. split; [now intros [[-> ->] ->]|now inversion 1].
Qed.
Print Assumptions C39_equality_operator.

(** ** C40 *)
Theorem C40_factor_arithmetic : forall env lo x y, good_platform env lo -> stable lo x -> stable lo y ->
  mag_mul env (from_f64 x) (from_f64 y) = from_f64 (f64_mul x y) /\
  mag_div env (from_f64 x) (from_f64 y) = from_f64 (f64_div x y) /\
  (forall z, f64_mul_mag env z (from_f64 y) = f64_mul z y) /\
  (forall z, f64_div_mag env z (from_f64 y) = f64_div z y) /\
  (forall z, f32_mul_mag env z (from_f64 y) = f32_mul z (f64_to_f32 y)) /\
  (forall z, f32_div_mag env z (from_f64 y) = f32_div z (f64_to_f32 y)) /\
  (forall z, mag_mul_f64 env (from_f64 x) z = from_f64 (f64_mul x z)) /\
  (forall z, mag_div_f64 env (from_f64 x) z = from_f64 (f64_div x z)) /\
  (forall z, mag_mul_f32 env (from_f64 x) z = from_f64 (f32_to_f64 (f32_mul (f64_to_f32 x) z))) /\
  (forall z, mag_div_f32 env (from_f64 x) z = from_f64 (f32_to_f64 (f32_div (f64_to_f32 x) z))).
Proof.
  intros env lo x y [Hlo Hp] Sx Sy.
  assert (E : into_f64 env (from_f64 y) = y) by (apply (roundtrip_stable env lo); auto; lia).
  split; [apply (mag_mul_exact env lo); auto; lia|]. split; [apply (mag_div_exact env lo); auto; lia|].
  assert (E' : into_f64 env (from_f64 x) = x) by (apply (roundtrip_stable env lo); auto; lia).
  unfold f64_mul_mag, f64_div_mag, f32_mul_mag, f32_div_mag, mag_mul_f64, mag_div_f64, mag_mul_f32, mag_div_f32, into_f32.
  rewrite E, E'. repeat split.
Qed.
Print Assumptions C40_factor_arithmetic.

(** The operations in C40 are the correctly rounded ones. *)
Theorem C40_correctly_rounded :
  (forall x y, is_finite 53 1024 x = true -> is_finite 53 1024 y = true ->
     nearest (B2R 53 1024 x * B2R 53 1024 y) (f64_mul x y) /\
     (B2R 53 1024 y <> 0%R -> nearest (B2R 53 1024 x / B2R 53 1024 y) (f64_div x y))) /\
  (forall x, is_finite 53 1024 x = true -> nearest32 (B2R 53 1024 x) (f64_to_f32 x)) /\
  (forall x y, is_finite 24 128 x = true -> is_finite 24 128 y = true ->
     nearest32 (B2R 24 128 x * B2R 24 128 y) (f32_mul x y)).
Proof.
  split; [|split; [exact f64_to_f32_nearest|exact f32_mul_nearest]].
  intros x y Fx Fy. split; [now apply f64_mul_nearest|now apply f64_div_nearest].
Qed.
Print Assumptions C40_correctly_rounded.

Example C40_applies : good_platform env0 (-1023) /\ stable (-1023) (f64_of_decimal 254 (-2)) /\
  stable (-1023) (f64_of_decimal 1 24).
Proof.
  split; [apply good0|]. split; apply expo_ge_stable; vm_compute; reflexivity.
Qed.

(** ** C41 *)
(** [e] is any computation from literals with positive denominators by [+ - * neg] and division
    by positive integers; [reval] computes it as the code does ([None]: overflow), [qeval] in [Q]. *)
Theorem C41_exact : forall e r, rexp_pos e -> reval Checked e = Some r ->
  denom r > 0 /\ Z.gcd (Ratio.num r) (denom r) = 1 /\ (inject_Z (Ratio.num r) / inject_Z (denom r) == qeval e)%Q.
Proof.
  intros e r P H. destruct (reval_exact e r P H) as [R [C1 C2]]. repeat split; auto; [lia|].
  apply (represents_Qeq r); auto. split; [lia|].
  unfold Qdiv, Qmult, Qinv, inject_Z. simpl. destruct (denom r) as [|p|p]; try lia. simpl. lia.
Qed.
Print Assumptions C41_exact.

Theorem C41_type_equality : forall e1 e2 r1 r2, rexp_pos e1 -> rexp_pos e2 ->
  reval Checked e1 = Some r1 -> reval Checked e2 = Some r2 -> (r1 = r2 <-> (qeval e1 == qeval e2)%Q).
Proof. exact reval_type_equality. Qed.
Print Assumptions C41_type_equality.

(** No overflow as long as numerators and denominators stay below [2^31]. *)
Theorem C41_defined : forall m a b, canonical a -> canonical b -> small (2 ^ 31) a -> small (2 ^ 31) b ->
  radd m a b <> None /\ rsub m a b <> None /\ rmul m a b <> None.
Proof.
  intros m a b Ca Cb Sa Sb.
  destruct (radd_defined m a b Ca Cb Sa Sb) as [r ->], (rmul_defined m a b Ca Cb Sa Sb) as [r' ->].
  repeat split; try discriminate. unfold rsub.
  assert (Sb' : small (2 ^ 63) b) by (destruct Sb; split; lia).
  assert (En : rneg m b = Some (mkRatio (- Ratio.num b) (denom b))).
  { unfold rneg, i64_neg. rewrite fit_in; auto. apply in_i64_iff. destruct Sb; lia. }
  rewrite En. destruct (radd_defined m a (mkRatio (- Ratio.num b) (denom b)) Ca) as [r2 ->]; try discriminate.
  - destruct Cb as [C1 C2]. split; simpl; auto. now rewrite Z.gcd_opp_l.
  - auto.
  - destruct Sb as [S1 S2]. split; simpl; lia.
Qed.
Print Assumptions C41_defined.

Example C41_applies :
  let e := RDivInt (RAdd (RLit 1 3) (RMul (RLit 2 4) (RNeg (RLit 1 6)))) 2 in
  rexp_pos e /\ reval Checked e = Some (mkRatio 1 8).
Proof. simpl. split; [lia|reflexivity]. Qed.

(** ** C42: false *)
Definition C42_statement : Prop := forall n1 d1 n2 d2 r1 r2, d1 <> 0 -> d2 <> 0 ->
  rnew Checked n1 d1 = Some r1 -> rnew Checked n2 d2 = Some r2 -> n1 * d2 = n2 * d1 -> r1 = r2.
Theorem C42_refuted : ~ C42_statement.
Proof.
  intros S. destruct rnew_negative_denominator as [H1 H2].
  specialize (S 1 (-2) (-1) 2 _ _ ltac:(lia) ltac:(lia) H1 H2 eq_refl). discriminate S.
Qed.
Print Assumptions C42_refuted.

(** It holds for denominators of the same sign (missing: denominators of different signs). *)
Theorem C42_partial : forall n1 d1 n2 d2 r1 r2, 0 < d1 * d2 ->
  rnew Checked n1 d1 = Some r1 -> rnew Checked n2 d2 = Some r2 -> n1 * d2 = n2 * d1 -> r1 = r2.
Proof. exact rnew_same_sign. Qed.
Print Assumptions C42_partial.

(** ** C43: false *)
Definition C43_statement : Prop := forall r n r', canonical r -> 0 < n ->
  rpowi Checked r n = Some r' -> (rval r' == rval r ^ n)%Q.
Theorem C43_refuted : ~ C43_statement.
Proof.
  intros S. specialize (S (mkRatio 1 2) 2 (mkRatio 1 2)).
  assert (H : (rval (mkRatio 1 2) == rval (mkRatio 1 2) ^ 2)%Q).
  { apply S; [split; reflexivity|lia|reflexivity]. }
  vm_compute in H. discriminate H.
Qed.
Print Assumptions C43_refuted.
(** In fact a positive power of a ratio is always the ratio itself. *)
Theorem C43_actual : forall r n r', rpowi Checked r n = Some r' -> 0 < n -> canonical r -> r' = r.
Proof. exact rpowi_never_power. Qed.
Print Assumptions C43_actual.

(** ** C44 *)
Theorem C44_integer_exponents : forall e, ilits e ->
  (ifits e -> forall m, ieval m e = Some (zeval e)) /\
  (~ ifits e -> ieval Checked e = None) /\
  (exists z, ieval Wrapping e = Some z /\ (2 ^ 64 | z - zeval e) /\ - 2 ^ 63 <= z < 2 ^ 63).
Proof.
  intros e L. split; [|split].
  - intros F m. now apply ieval_exact.
  - intros F. destruct (ieval Checked e) as [z|] eqn:E; auto. apply ieval_checked in E as [E _]; tauto.
  - destruct (ieval_wrapping e) as (z & E & D). exists z. split; [exact E|split; [exact D|]]. exact (ieval_range e z L E).
Qed.
Print Assumptions C44_integer_exponents.

(** Ratio exponents: with overflow checks a result is the exact one ([C41_exact]); a result that
    exists with checks on is the same with checks off. *)
Theorem C44_ratio_exponents : forall m e r, reval Checked e = Some r -> reval m e = Some r.
Proof. exact reval_checked_agrees. Qed.
Print Assumptions C44_ratio_exponents.

Example C44_applies :
  let e := IMul (ILit (2 ^ 62)) (ILit 4) in
  ilits e /\ ~ ifits e /\ ieval Checked e = None /\ ieval Wrapping e = Some 0.
Proof.
  cbn [ilits ifits zeval]. repeat split; try lia; try reflexivity.
Qed.

(** ** C45: false *)
Definition C45_statement : Prop := forall env T o n u a e,
  run_unit_system (int_exp Checked) env T = Some (o, []) ->
  In n (u_units T) -> ut_definition n = DefExpr (EVal (FPow (Other (un_name u)) e)) ->
  In u (df_units o) -> In a (df_units o) -> un_name a = ut_name n ->
  into_f64 env (un_mag a) = stored env (f_powi env (into_f64 env (un_mag u)) e) /\
  forall b, vec_of _ int_laws (un_dims a) b = (vec_of _ int_laws (un_dims u) b * ZQc e)%Qc.

(** [unit a = kilometer^4294967296]: dimension [Length^4294967296], factor 1. *)
Theorem C45_refuted : ~ C45_statement.
Proof.
  intros S. destruct big_power_result as (o & a & u & Er & Ia & Na & Iu & Nu & Mu & Ma).
  destruct (S env0 big_power o (nth 2 (u_units big_power) (meter IntegerExponents)) u a 4294967296 Er)
    as [F _]; auto.
  - simpl. auto.
  - rewrite Nu. reflexivity.
  - rewrite Mu, Ma in F.
    assert (B : f64_bits_eqb (into_f64 env0 (from_f64 f64_one))
              (stored env0 (f_powi env0 (into_f64 env0 (from_f64 (f64_of_Z 1000))) 4294967296)) = false)
      by (vm_compute; reflexivity).
    rewrite F in B. unfold f64_bits_eqb in B. rewrite Z.eqb_refl in B. discriminate B.
Qed.
Print Assumptions C45_refuted.

(** For exponents of 32 bits factor and dimension agree.  Missing: larger exponents. *)
Theorem C45_partial : forall env lo T o n u a e,
  good_platform env lo ->
  run_unit_system (int_exp Checked) env T = Some (o, []) ->
  In n (u_units T) -> ut_definition n = DefExpr (EVal (FPow (Other (un_name u)) e)) ->
  In u (df_units o) -> In a (df_units o) -> un_name a = ut_name n ->
  - 2 ^ 31 <= e < 2 ^ 31 ->
  into_f64 env (un_mag a) = stored env (f_powi env (into_f64 env (un_mag u)) e) /\
  forall b, vec_of _ int_laws (un_dims a) b = (vec_of _ int_laws (un_dims u) b * ZQc e)%Qc.
Proof. exact power_consistent. Qed.
Print Assumptions C45_partial.
