(** * The bundled SI system in either build: C72 and C79 *)
From Coq Require Import String List Bool ZArith QArith Qabs Qreals Reals Lra Lia.
From Flocq Require Import Core IEEE754.Binary IEEE754.Bits.
From Verif Require Import MachineInt Ratio F64 FloatOps DecimalFacts NumericFacts FloatFacts Magnitude MagnitudeFacts Exponent Expression Types PrefixSpec
  ExpansionSpec Resolve CodegenDimension Storage Operators Raw UnitOps FloatMethods
  SystemSpec Setting ExampleSystems Parse Grammar ParseFacts Accuracy FloatAccuracy RoundingSpec RoundingFacts AccuracyFacts
  ConversionFacts PropertiesParse FastCheck ResolveFacts ResolveEquations Expansion SystemFacts PropertiesSystem PropertiesSI
  Sources SiTree PropertiesSources Platform PropertiesUnits PropertiesMethods PropertiesAccuracy PropertiesConversion PropertiesExact
  Vector Programs FloatPrograms TrackSpec TrackFacts TrackVector TrackRun PropertiesPrograms.
Import ListNotations.
Close Scope Q_scope. Close Scope R_scope.
Local Open Scope string_scope.
Local Open Scope list_scope.
Notation tracks64 units := (tracks (bpow radix2 (-53)) (-990) 990 units F64).
Notation tracks32 units := (tracks (bpow radix2 (-24)) (-110) 110 units F32).

(** With any sufficiently accurate power function, and with either kind of exponents: converting between
    two SI units is off by at most 88 times [2^-53]. *)
Theorem C72_si_both : forall k env lo, good_platform env lo -> (lo <= -953)%Z -> accurate_pow k env ->
  exists T o, parse_system k si_source = Some T /\ run_unit_system (ops k) env T = Some (o, []) /\
  forall G, exact_solution G si_file -> forall n1 n2 m1 m2 d1 d2 x,
  named o n1 m1 -> named o n2 m2 -> ~ (G n2 == 0)%Q ->
  let exact := (B2R 53 1024 x * Q2R (G n1) / Q2R (G n2))%R in
  is_finite 53 1024 x = true -> sized (-1000) 1000 (B2R 53 1024 x * Q2R (G n1)) -> sized (-1000) 1000 exact ->
  exists z y, unit_new k env (UnitC d1 m1) (RF64 x) = Some (Quant d1 z) /\
    value_in k env (Quant d1 z) (UnitC d2 m2) = Some (RF64 y) /\
    is_finite 53 1024 y = true /\
    (Rabs (B2R 53 1024 y - exact) <= 88 * bpow radix2 (-53) * Rabs exact)%R.
Proof.
  intros k env lo P Low A. destruct (C64_accepted k env) as (T & o & E & R & _). exists T, o. split; [exact E|]. split; [exact R|].
  intros G S n1 n2 m1 m2 d1 d2 x H1 H2 Nz exact Fx S1 S2.
  assert (Nz' : Q2R (G n2) <> 0%R).
  { intros Z. apply Nz. apply eqR_Qeq. rewrite Z. symmetry. apply AccuracyFacts.Q2R_0. }
  pose proof (si_near k env lo P Low A T o E R G S _ _ (named_fac env o n1 m1 H1)) as A1.
  pose proof (si_near k env lo P Low A T o E R G S _ _ (named_fac env o n2 m2 H2)) as A2.
  eexists. eexists. split; [reflexivity|]. split; [reflexivity|].
  unfold f64_div_mag, f64_mul_mag.
  replace 88%R with (2 * INR (21 + 21 + 2))%R by (cbn; lra).
  exact (convert64 x _ _ _ _ 21 21 ltac:(lia) ltac:(lia) Fx A1 A2 Nz' S1 S2).
Qed.
Print Assumptions C72_si_both.

(** Programs over SI units, with either kind of exponents: 21 roundings for a unit. *)
Theorem C79_si_both : forall k env lo M, good_platform env lo -> (lo <= -953)%Z -> accurate_pow k env -> good_math M -> good_powers M ->
  exists T o, parse_system k si_source = Some T /\ run_unit_system (ops k) env T = Some (o, []) /\
  forall G, exact_solution G si_file -> forall names mags, Forall2 (named o) names mags ->
  (forall functions inputs (p : prog k) e, Forall finite64 inputs ->
     tracks64 (double_units G (fun _ => 21%nat) names) (map given64 inputs) p e ->
     eval functions (exact_factors G names) [] (map meaning64 inputs) p = Some (exactly e) /\
     exists v, frun stop env M mags (map (fun r => FNum r) inputs) p = Some v /\ result64 e v) /\
  (forall functions inputs (p : prog k) e, Forall finite32 inputs ->
     tracks32 (single_units G (fun _ => 21%nat) names) (map given32 inputs) p e ->
     eval functions (exact_factors G names) [] (map meaning32 inputs) p = Some (exactly e) /\
     exists v, frun stop env M mags (map (fun r => FNum r) inputs) p = Some v /\ result32 e v).
Proof.
  intros k env lo M P Low A GM GP. destruct (C64_accepted k env) as (T & o & E & R & _). exists T, o. split; [exact E|]. split; [exact R|].
  intros G S names mags Nm.
  assert (Good : Forall2 (fun n m => approx 21 (Q2R (G n)) (into_f64 env m)) names mags).
  { clear -E R S Nm P Low A. induction Nm as [|n m ns ms Hh _ IH]; constructor; [|exact IH].
    apply (si_near k env lo P Low A T o E R G S). now apply named_fac. }
  split; intros functions inputs p e Fin H.
  - apply (sound64 env lo P Low M GM GP G (fun _ => 21%nat) names mags); [intros; lia|exact Good|exact Fin|exact H].
  - apply (sound32 env lo P Low M GM GP G (fun _ => 21%nat) names mags); [intros; lia|exact Good|exact Fin|exact H].
Qed.
Print Assumptions C79_si_both.

(** The hypotheses can be met, for either kind of exponents; and there is an exact solution. *)
Example C72_si_both_applies : forall k, good_platform env_whole (-1023) /\ accurate_pow k env_whole /\
  good_math math0 /\ good_powers math0 /\ exact_solution (tG si_table) si_file.
Proof.
  intros k. split; [apply good_rt|]. split; [apply whole_accurate|]. split; [exact math0_good|]. split; [exact math0_powers|].
  exact (C71_budget_is_exact _ _ _ (proj1 si_budget)).
Qed.
