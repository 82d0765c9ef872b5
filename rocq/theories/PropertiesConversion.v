(** * Converting between units: C72 *)
From Coq Require Import String List Bool ZArith QArith Qabs Qreals Reals Lra Lia.
From Flocq Require Import Core IEEE754.Binary.
From Verif Require Import MachineInt Ratio F64 DecimalFacts NumericFacts FloatFacts Magnitude Exponent Expression Types PrefixSpec
  ExpansionSpec Resolve CodegenDimension Raw UnitOps
  SystemSpec Setting ExampleSystems Parse Grammar ParseFacts Accuracy RoundingSpec RoundingFacts AccuracyFacts
  ConversionFacts PropertiesParse FastCheck ResolveFacts ResolveEquations Expansion SystemFacts PropertiesSystem PropertiesSI
  Sources SiTree PropertiesSources Platform PropertiesUnits PropertiesAccuracy.
Import ListNotations.
Close Scope Q_scope. Close Scope R_scope.
Local Open Scope string_scope.
Local Open Scope list_scope.

(** The output has a unit or a constant (which is a unit, too, in the generated code) of this name
    and with this factor.  units_and_constants.rs:64-82. *)
Definition named {k : mode} (o : defs (ops k)) (n : ident) (m : magnitude) : Prop :=
  (exists u, In u (df_units o) /\ un_name u = n /\ un_mag u = m) \/
  (exists c, In c (df_constants o) /\ c_name c = n /\ c_mag c = m).
Lemma named_fac {k} env (o : defs (ops k)) n m : named o n m -> denotes_fac k env o n (into_f64 env m).
Proof.
  intros [(u & Hu & En & Em)|(c & Hc & En & Em)]; [left; exists u|right; exists c]; subst; auto.
Qed.
(** Zero, or of an absolute value between [2^lo] and [2^hi]. *)
Definition sized (lo hi : Z) (r : R) : Prop := (r = 0 \/ bpow radix2 lo <= Rabs r <= bpow radix2 hi)%R.

(** [n1.new(x).value_in(n2)] for two units of a file (with either kind of exponents), whatever their dimensions:
    the result is finite and within the rounding errors of the two factors plus two roundings of
    [x * n1 / n2], computed exactly. *)
Theorem C72_conversion : forall k env lo f T o G C,
  good_platform env lo -> (lo <= -953)%Z -> accurate_pow k env ->
  wf_file f -> parse_system k (print_file f) = Some T ->
  run_unit_system (ops k) env T = Some (o, []) ->
  budget G C f ->
  forall n1 n2 m1 m2 d1 d2 x, named o n1 m1 -> named o n2 m2 -> ~ (G n2 == 0)%Q ->
  let exact := (B2R 53 1024 x * Q2R (G n1) / Q2R (G n2))%R in
  is_finite 53 1024 x = true -> sized (-1000) 1000 (B2R 53 1024 x * Q2R (G n1)) -> sized (-1000) 1000 exact ->
  exists z y, unit_new k env (UnitC d1 m1) (RF64 x) = Some (Quant d1 z) /\
    value_in k env (Quant d1 z) (UnitC d2 m2) = Some (RF64 y) /\
    is_finite 53 1024 y = true /\
    (Rabs (B2R 53 1024 y - exact) <= 2 * INR (C n1 + C n2 + 2) * bpow radix2 (-53) * Rabs exact)%R.
Proof.
  intros k env lo f T o G C P Low A W E R B n1 n2 m1 m2 d1 d2 x H1 H2 Nz exact Fx S1 S2.
  rewrite parse_print in E by exact W. assert (Few : forall s, small (C s)) by exact (proj2 B).
  pose proof (factors_near k env lo P Low A G C Few f T o E R B) as K.
  pose proof (K _ _ (named_fac env o n1 m1 H1)) as A1. pose proof (K _ _ (named_fac env o n2 m2 H2)) as A2.
  assert (Nz' : Q2R (G n2) <> 0%R).
  { intros Z. apply Nz. apply eqR_Qeq. rewrite Z. symmetry. apply AccuracyFacts.Q2R_0. }
  eexists. eexists. split; [reflexivity|]. split; [reflexivity|].
  unfold f64_div_mag, f64_mul_mag. exact (convert64 x _ _ _ _ _ _ (Few n1) (Few n2) Fx A1 A2 Nz' S1 S2).
Qed.
Print Assumptions C72_conversion.

(** In single precision, up to [2^29] roundings in the (double precision) factors go unnoticed. *)
Theorem C72_single : forall k env lo f T o G C,
  good_platform env lo -> (lo <= -953)%Z -> accurate_pow k env ->
  wf_file f -> parse_system k (print_file f) = Some T ->
  run_unit_system (ops k) env T = Some (o, []) ->
  budget G C f ->
  forall n1 n2 m1 m2 d1 d2 x, named o n1 m1 -> named o n2 m2 -> ~ (G n2 == 0)%Q ->
  (Z.of_nat (C n1) <= 2 ^ 29)%Z -> (Z.of_nat (C n2) <= 2 ^ 29)%Z ->
  sized (-120) 120 (Q2R (G n1)) -> sized (-120) 120 (Q2R (G n2)) ->
  let exact := (B2R 24 128 x * Q2R (G n1) / Q2R (G n2))%R in
  is_finite 24 128 x = true -> sized (-120) 120 (B2R 24 128 x * Q2R (G n1)) -> sized (-120) 120 exact ->
  exists z y, unit_new k env (UnitC d1 m1) (RF32 x) = Some (Quant d1 z) /\
    value_in k env (Quant d1 z) (UnitC d2 m2) = Some (RF32 y) /\
    is_finite 24 128 y = true /\
    (Rabs (B2R 24 128 y - exact) <= 12 * bpow radix2 (-24) * Rabs exact)%R.
Proof.
  intros k env lo f T o G C P Low A W E R B n1 n2 m1 m2 d1 d2 x H1 H2 Nz L1 L2 G1 G2 exact Fx S1 S2.
  rewrite parse_print in E by exact W. assert (Few : forall s, small (C s)) by exact (proj2 B).
  pose proof (factors_near k env lo P Low A G C Few f T o E R B) as K.
  pose proof (K _ _ (named_fac env o n1 m1 H1)) as A1. pose proof (K _ _ (named_fac env o n2 m2 H2)) as A2.
  assert (Nz' : Q2R (G n2) <> 0%R).
  { intros Z. apply Nz. apply eqR_Qeq. rewrite Z. symmetry. apply AccuracyFacts.Q2R_0. }
  eexists. eexists. split; [reflexivity|]. split; [reflexivity|].
  unfold f32_div_mag, f32_mul_mag, into_f32. exact (convert32 x _ _ _ _ _ _ L1 L2 Fx A1 A2 Nz' G1 G2 S1 S2).
Qed.
Print Assumptions C72_single.

(** The bundled SI system: [2^-51] is the error of its factors (C66). *)
Lemma near_5 g f : is_finite 53 1024 f = true /\ (Rabs (B2R 53 1024 f - g) <= bpow radix2 (-51) * Rabs g)%R -> g <> 0%R -> approx 5 g f.
Proof.
  intros [F H] Nz. split; [exact F|]. exists (B2R 53 1024 f / g)%R. split; [|now field].
  replace (B2R 53 1024 f) with (g * (1 + (B2R 53 1024 f - g) / g))%R by (now field).
  set (e := ((B2R 53 1024 f - g) / g)%R). assert (He : (Rabs e <= 4 * bpow radix2 (-53))%R).
  { unfold e, Rdiv. rewrite Rabs_mult, Rabs_inv. pose proof (Rabs_pos_lt g Nz).
    apply Rmult_le_reg_r with (Rabs g); [lra|]. rewrite Rmult_assoc, Rinv_l, Rmult_1_r by lra.
    change (-51)%Z with (2 + -53)%Z in H. rewrite bpow_plus in H. change (bpow radix2 2) with 4%R in H. exact H. }
  replace (g * (1 + e) / g)%R with (1 + e)%R by (now field). clearbody e. clear H F Nz g f.
  apply Rabs_le_inv in He. assert (U : (0 < bpow radix2 (-53) <= / 1000)%R).
  { split; [apply bpow_gt_0|]. apply Rle_trans with (bpow radix2 (-10)); [apply bpow_le; lia|]. compute; lra. }
  set (v := bpow radix2 (-53)) in *.
  assert (K : ((1 - v) ^ 5 <= 1 - 4 * v)%R) by (cbn [pow]; nra).
  split; [lra|]. pose proof (wpow 53 ltac:(lia) 5) as P. change (bpow radix2 (- (53))) with v in P.
  apply Rle_trans with (/ (1 - 4 * v))%R; [|apply Rinv_le_contravar; lra].
  apply Rmult_le_reg_r with (1 - 4 * v)%R; [lra|]. rewrite Rinv_l by lra. nra.
Qed.
Theorem C72_si : forall powf env, env = env_rt powf \/ env = env_nt powf ->
  exists T o, parse_system IntegerExponents si_source = Some T /\
  run_unit_system (ops IntegerExponents) env T = Some (o, []) /\
  forall G, exact_solution G si_file -> forall n1 n2 m1 m2 d1 d2 x,
  named o n1 m1 -> named o n2 m2 -> ~ (G n1 == 0)%Q -> ~ (G n2 == 0)%Q ->
  let exact := (B2R 53 1024 x * Q2R (G n1) / Q2R (G n2))%R in
  is_finite 53 1024 x = true -> sized (-1000) 1000 (B2R 53 1024 x * Q2R (G n1)) -> sized (-1000) 1000 exact ->
  exists z y, unit_new IntegerExponents env (UnitC d1 m1) (RF64 x) = Some (Quant d1 z) /\
    value_in IntegerExponents env (Quant d1 z) (UnitC d2 m2) = Some (RF64 y) /\
    is_finite 53 1024 y = true /\
    (Rabs (B2R 53 1024 y - exact) <= 24 * bpow radix2 (-53) * Rabs exact)%R.
Proof.
  intros powf env He. destruct (C66_si_factors powf env He) as (T & o & E & R & K). exists T, o.
  split; [exact E|]. split; [exact R|]. intros G S n1 n2 m1 m2 d1 d2 x H1 H2 Nz1 Nz2 exact Fx S1 S2.
  assert (Nz : forall n, ~ (G n == 0)%Q -> Q2R (G n) <> 0%R).
  { intros n Nz Z. apply Nz. apply eqR_Qeq. rewrite Z. symmetry. apply AccuracyFacts.Q2R_0. }
  pose proof (near_5 _ _ (K G S _ _ (named_fac env o n1 m1 H1)) (Nz _ Nz1)) as A1.
  pose proof (near_5 _ _ (K G S _ _ (named_fac env o n2 m2 H2)) (Nz _ Nz2)) as A2.
  eexists. eexists. split; [reflexivity|]. split; [reflexivity|].
  unfold f64_div_mag, f64_mul_mag.
  replace 24%R with (2 * INR (5 + 5 + 2))%R by (cbn; lra).
  exact (convert64 x _ _ _ _ 5 5 ltac:(lia) ltac:(lia) Fx A1 A2 (Nz _ Nz2) S1 S2).
Qed.
Print Assumptions C72_si.

(** The bounds above are needed: a unit whose factor is beyond the largest [f32] stores every non-zero
    [f32] as an infinity, of the sign of the product, and reading it back in the same unit gives no number. *)
Lemma rnd32_over r : (bpow radix2 128 <= Rabs r)%R -> Rlt_bool (Rabs (rnd32 r)) (bpow radix2 128) = false.
Proof.
  intros H. apply Rlt_bool_false. unfold rnd32. rewrite <- round_NE_abs; [|apply fexp_correct; reflexivity].
  apply round_ge_generic; [apply fexp_correct; reflexivity|apply valid_rnd_N| |exact H].
  apply generic_format_bpow. cbn. lia.
Qed.
Lemma single_over y : is_nan 53 1024 y = false -> (is_finite 53 1024 y = true -> bpow radix2 128 <= Rabs (B2R 53 1024 y))%R ->
  f64_to_f32 y = B754_infinity 24 128 (Bsign 53 1024 y).
Proof.
  intros N L. destruct (is_finite 53 1024 y) eqn:F.
  - specialize (L eq_refl). pose proof (f64_to_f32_nearest y F) as H. unfold nearest32 in H. rewrite (rnd32_over _ L) in H.
    rewrite H. f_equal. symmetry. apply sign_B2R; [exact F|]. intros Z. rewrite Z, Rabs_R0 in L.
    pose proof (bpow_gt_0 radix2 128). lra.
  - destruct y; try discriminate F; try discriminate N. reflexivity.
Qed.
Theorem C72_too_large : forall k env d m x,
  is_nan 53 1024 (into_f64 env m) = false ->
  (is_finite 53 1024 (into_f64 env m) = true -> bpow radix2 128 <= Rabs (B2R 53 1024 (into_f64 env m)))%R ->
  is_finite 24 128 x = true -> B2R 24 128 x <> 0%R ->
  unit_new k env (UnitC d m) (RF32 x) =
    Some (Quant d (RF32 (B754_infinity 24 128 (xorb (Bsign 24 128 x) (Bsign 53 1024 (into_f64 env m)))))) /\
  forall s, exists y, value_in k env (Quant d (RF32 (B754_infinity 24 128 s))) (UnitC d m) = Some (RF32 y) /\
    is_nan 24 128 y = true.
Proof.
  intros k env d m x N L Fx Nx. split.
  - change (unit_new k env (UnitC d m) (RF32 x)) with (Some (Quant (X := ops k) d (RF32 (f32_mul x (f64_to_f32 (into_f64 env m)))))).
    rewrite (single_over _ N L). destruct x as [s|s|s pl H|s p e B]; try discriminate Fx; [now destruct Nx|]. reflexivity.
  - intros s. eexists. split; [reflexivity|]. unfold f32_div_mag, into_f32. rewrite (single_over _ N L). reflexivity.
Qed.
Print Assumptions C72_too_large.
Definition over32b (y : f64) : bool :=
  match y with B754_finite _ _ _ m e _ => (2 ^ 128 <=? Z.pos m * 2 ^ e)%Z && (0 <=? e)%Z | _ => false end.
Lemma over32b_over y : over32b y = true ->
  is_nan 53 1024 y = false /\ is_finite 53 1024 y = true /\ (bpow radix2 128 <= Rabs (B2R 53 1024 y))%R.
Proof.
  destruct y as [s|s|s pl H|s m e B]; try discriminate. intros K. split; [reflexivity|]. split; [reflexivity|].
  unfold over32b in K. apply andb_true_iff in K as [K Pe]. apply Z.leb_le in K, Pe.
  unfold B2R. rewrite <- F2R_Zabs, abs_cond_Zopp.
  unfold F2R. cbn [Fnum Fexp Z.abs]. rewrite <- !IZR_Zpower by lia. rewrite <- mult_IZR. apply IZR_le. exact K.
Qed.
(** [10^39], for instance. *)
Example C72_too_large_applies : let y := f64_of_decimal 1 39 in
  is_nan 53 1024 y = false /\ is_finite 53 1024 y = true /\ (bpow radix2 128 <= Rabs (B2R 53 1024 y))%R.
Proof. apply over32b_over. vm_compute. reflexivity. Qed.

Definition names_itemb {k : mode} (n : ident) (x : decl (ops k)) : bool :=
  match x with DDimension _ => false | _ => String.eqb (decl_name x) n end.
Lemma named_exists {k} env lo (T : template k) o n : good_platform env lo ->
  run_unit_system (ops k) env T = Some (o, []) ->
  existsb (names_itemb n) (decls (declared T)) = true -> exists m, named o n m.
Proof.
  intros P R H. apply existsb_exists in H as (x & Hx & Hn).
  assert (Ex : decl_name x = n /\ ~ is_dimension _ x).
  { destruct x; [discriminate Hn| |]; (split; [now apply String.eqb_eq|cbn; auto]). }
  destruct Ex as [En Nd]. destruct (C24_factor_equations k env lo T o P R x Hx Nd) as ((v & V) & _).
  rewrite En in V. destruct V as [(u & Hu & Eu & _)|(c & Hc & Ec & _)].
  - exists (un_mag u). left. eauto.
  - exists (c_mag c). right. eauto.
Qed.
Lemma sized_Q lo hi q : (lo <= -100)%Z -> (100 <= hi)%Z ->
  Qle_bool (1 # 2 ^ 100) (Qabs q) && Qle_bool (Qabs q) (2 ^ 100 # 1) = true -> sized lo hi (Q2R q).
Proof.
  intros L H. rewrite andb_true_iff, !Qle_bool_iff. intros [A B]. apply Qle_Rle in A, B. rewrite Q2R_Qabs in A, B.
  right. split.
  - apply Rle_trans with (bpow radix2 (-100)); [now apply bpow_le|]. eapply Rle_trans; [|exact A]. right. unfold Q2R. cbn [Qnum Qden].
    change (-100)%Z with (- (100))%Z. rewrite bpow_opp, Rmult_1_l. reflexivity.
  - apply Rle_trans with (bpow radix2 100); [|now apply bpow_le]. eapply Rle_trans; [exact B|]. right.
    unfold Q2R. cbn [Qnum Qden]. rewrite Rinv_1, Rmult_1_r. reflexivity.
Qed.

(** Two acres divided by an inch (dimensions are not looked at), off by at most 28 times [2^-53] of it. *)
Example C72_applies : forall k, exists T o G C ma mi,
  wf_file acre_file /\ good_platform env_whole (-1023) /\ accurate_pow k env_whole /\
  parse_system k (print_file acre_file) = Some T /\
  run_unit_system (ops k) env_whole T = Some (o, []) /\ budget G C acre_file /\
  named o "acre" ma /\ named o "inch" mi /\ ~ (G "inch" == 0)%Q /\ C "acre" = 10%nat /\ C "inch" = 2%nat /\
  sized (-120) 120 (Q2R (G "acre")) /\ sized (-120) 120 (Q2R (G "inch")) /\
  is_finite 53 1024 two = true /\ B2R 53 1024 two = Q2R (2 # 1) /\
  sized (-120) 120 (Q2R (2 # 1) * Q2R (G "acre")) /\ sized (-120) 120 (Q2R (2 # 1) * Q2R (G "acre") / Q2R (G "inch")).
Proof.
  intros k. destruct (C71_applies_both k) as (T & o & G & C & W & P & A & E & R & B & G1 & G2 & C1 & C2).
  assert (K : match parse_system k (print_file acre_file) with
    Some T => existsb (names_itemb "acre") (decls (declared T)) && existsb (names_itemb "inch") (decls (declared T))
    | None => false end = true) by (destruct k; vm_compute; reflexivity).
  rewrite E in K. apply andb_true_iff in K as [K1 K2].
  destruct (named_exists env_whole (-1023) T o _ P R K1) as [ma Ma]. destruct (named_exists env_whole (-1023) T o _ P R K2) as [mi Mi].
  exists T, o, G, C, ma, mi. rewrite G1, G2.
  repeat (split; [first [assumption|discriminate|apply sized_Q; [lia|lia|vm_compute; reflexivity]]|]).
  split; [exact (proj1 two_value)|]. split; [rewrite (proj2 two_value); unfold Q2R; cbn; lra|].
  rewrite <- Q2R_mult, <- Q2R_div by discriminate. split; (apply sized_Q; [lia|lia|vm_compute; reflexivity]).
Qed.
