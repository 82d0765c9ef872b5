(** * C81: the same physics in two unit systems *)
From Coq Require Import String List Bool ZArith QArith Qcanon Qabs Qreals Reals Lra Lia.
From Flocq Require Import Core IEEE754.Binary IEEE754.Bits.
From Verif Require Import MachineInt Ratio F64 FloatOps DecimalFacts NumericFacts FloatFacts Magnitude MagnitudeFacts Exponent ExponentFacts
  Expression Types PrefixSpec ExpansionSpec Resolve CodegenDimension CodegenDimensionFacts CodegenLiteral Storage Operators OperatorSpec OperatorFacts
  Raw UnitOps FloatMethods SystemSpec Setting ExampleSystems Parse Grammar ParseFacts ParsedSystems Accuracy FloatAccuracy RoundingSpec RoundingFacts AccuracyFacts
  ConversionFacts PropertiesParse FastCheck ResolveFacts ResolveEquations Expansion SystemFacts PropertiesSystem PropertiesSI
  Sources SiTree PropertiesSources Platform PropertiesUnits PropertiesMethods PropertiesAccuracy PropertiesConversion PropertiesExact
  PropertiesDimension PropertiesExponents PropertiesOperators Vector Programs FloatPrograms TrackSpec TrackFacts TrackVector TrackRun PropertiesPrograms
  Equivariance EquivarianceFacts PropertiesEquivariance IndependenceFacts.
Import ListNotations.
Close Scope Q_scope. Close Scope Qc_scope. Close Scope R_scope.
Local Open Scope string_scope.
Local Open Scope list_scope.

(** The generated [Unit] constant of this name (of a unit or a constant) has this dimension as its
    const generic argument.  units_and_constants.rs:39-82. *)
Definition unit_dimension {k : mode} (o : defs (ops k)) (n : ident) (d : dimval (ops k)) : Prop :=
  exists l, ((exists u, In u (df_units o) /\ un_name u = n /\ un_dims u = l) \/
             (exists c, In c (df_constants o) /\ c_name c = n /\ c_dims c = l)) /\
    dim_expr (ops k) (CodegenLiteral.lit k) (df_base_dimensions o) l = Some d.

Lemma file_literals_ok k f (T : template k) : wf_file f -> (k = RationalExponents -> positive_denominators f) ->
  parse_system k (print_file f) = Some T -> literals_ok k T.
Proof. intros W Pd P. destruct k; [exact (integer_literals_ok _ T P)|exact (rational_literals_ok f T W (Pd eq_refl) P)]. Qed.

Section File.
Context {k : mode} (env : fenv) (f : slist stmt) (T : template k) (o : defs (ops k)).
Context (W : wf_file f) (E : parse_system k (print_file f) = Some T).
Context (Pd : k = RationalExponents -> positive_denominators f) (Run : run_unit_system (ops k) env T = Some (o, [])).
Context (Nd : struct_declaration_ok (df_base_dimensions o) = true).
Context (G V : ident -> Q) (HG : exact_solution G f) (HV : sizes V f).
Notation fields := (df_base_dimensions o).
Notation lambda := (base_size T V).

Lemma unit_scaled n d : unit_dimension o n d ->
  is_dimension k fields d /\ Q2R (V n) = (rescale k lambda d * Q2R (G n))%R.
Proof.
  intros (l & Hl & El).
  assert (Hr : forall v, vec_is (ops k) (laws k) l v -> dim_result (ops k) (laws k) o n v).
  { intros v Hv. destruct Hl as [(u & Hu & En & Eu)|(c & Hc & En & Ec)]; subst l n; right; [left|right]; eauto. }
  assert (Hn : In n (map fst (file_defs f))).
  { apply (proj2 (C73_names k env f T o W E Run)). apply in_app_iff.
    destruct Hl as [(u & Hu & <- & _)|(c & Hc & <- & _)]; [left|right]; apply in_map_iff; eauto. }
  apply in_map_iff in Hn as ((n' & x) & En & Hx). cbn [fst] in En. subst n'.
  destruct (C60_source k env f T o [] l W E Pd Run Nd) as (d' & Ed & Sd).
  { right. destruct Hl as [(u & Hu & _ & <-)|(c & Hc & _ & <-)]; eauto. }
  assert (d' = d) by (rewrite El in Ed; congruence). subst d'.
  split; [eexists; exact Sd|]. rewrite (rescale_weight k fields lambda d _ Sd).
  pose proof W as W'. pose proof E as M. rewrite parse_print in M by exact W.
  rewrite (scaled_sizes env f T o (file_literals_ok k f T W Pd E) M Run (proj1 (nodupb_iff _) Nd) G V HG HV n _ x Hx (Hr _ (fun b => eq_refl))). ring.
Qed.
Lemma units_scaled names units : Forall2 (unit_dimension o) names units ->
  Forall (is_dimension k fields) units /\
  exact_factors V names = scale_table k lambda units (exact_factors G names).
Proof.
  intros H. induction H as [|n d ns ds Hh _ [IH1 IH2]]; [split; [constructor|reflexivity]|].
  destruct (unit_scaled n d Hh) as [Dd Ed]. split; [now constructor|].
  unfold exact_factors, scale_table in *. cbn [map combine fst snd]. now rewrite Ed, IH2.
Qed.
End File.

(** Bare numbers and dimensionless quantities stay as they are. *)
Lemma scale_none k fields lambda ts vs : NoDup fields -> (forall b, 0 < lambda b)%R -> length ts = length vs -> Forall (no_dimension k fields) ts ->
  scale_all k lambda ts vs = vs.
Proof.
  intros N P L H. revert vs L. induction H as [|t ts Ht _ IH]; intros [|v vs] L; try discriminate L; [reflexivity|].
  cbn [scale_all]. rewrite IH by (cbn [length] in L; lia). f_equal.
  destruct t as [[s d|s]|]; try reflexivity. destruct v as [a|]; [|reflexivity]. unfold scale_val.
  cbn [no_dimension] in Ht. rewrite (rescale_weight k fields lambda d _ Ht), weight_zero, exp_0, scale_one. reflexivity.
Qed.

(** A program that takes and returns numbers (or truth values, or dimensionless quantities), computed
    exactly: the result is that for any sizes of the base units, as long as all other units and the
    constants are as defined.  The unit system, i.e. which units it is based on, does not enter. *)
Theorem C81_exact : forall k env f T o,
  wf_file f -> (k = RationalExponents -> positive_denominators f) -> parse_system k (print_file f) = Some T ->
  run_unit_system (ops k) env T = Some (o, []) ->
  struct_declaration_ok (df_base_dimensions o) = true ->
  forall G V, exact_solution G f -> sizes V f ->
  forall names units, Forall2 (unit_dimension o) names units ->
  forall ft math ts p t functions rho,
  typed k (df_base_dimensions o) ft math units [] true ts p t ->
  Forall (no_dimension k (df_base_dimensions o)) ts -> no_dimension k (df_base_dimensions o) t ->
  length ts = length rho ->
  eval functions (exact_factors G names) [] rho p = eval functions (exact_factors V names) [] rho p.
Proof.
  intros k env f T o W Pd E Run Nd G V HG HV names units Hu ft math ts p t functions rho Ht Hts Hres Ln.
  destruct (units_scaled env f T o W E Pd Run Nd G V HG HV names units Hu) as [Du Eu].
  assert (N : NoDup (df_base_dimensions o)) by (now apply nodupb_iff).
  pose proof E as M. rewrite parse_print in M by exact W.
  assert (Pos : forall b, (0 < base_size T V b)%R) by exact (base_size_pos f T M V HV).
  assert (Tok : Forall (type_ok k (df_base_dimensions o)) ts).
  { clear -Hts. induction Hts as [|t ts Ht _ IH]; constructor; [|exact IH]. destruct t as [[s d|s]|]; [|exact Logic.I|exact Logic.I]. eexists. exact Ht. }
  rewrite Eu. rewrite <- (scale_none k _ (base_size T V) ts rho N Pos Ln Hts) at 2. symmetry.
  exact (C07_dimensionless_unchanged k _ ft math (base_size T V) units [] functions (exact_factors G names) [] ts p t rho
    N Pos Du (Forall_nil _) Tok Ht Hres).
Qed.
Print Assumptions C81_exact.

(** ** What is computed, in double precision *)
(** Two results of programs with the error bounds of C79: the same truth value, or numbers (component by
    component: vectors) that differ by no more than both errors together. *)
Definition same_number64 (e1 e2 : R * nat) (y1 y2 : f64) : Prop :=
  is_finite 53 1024 y1 = true /\ is_finite 53 1024 y2 = true /\
  (few_roundings (bpow radix2 (-53)) (snd e1) -> few_roundings (bpow radix2 (-53)) (snd e2) ->
   Rabs (B2R 53 1024 y1 - B2R 53 1024 y2) <= 2 * bpow radix2 (-53) * (INR (snd e1) * fst e1 + INR (snd e2) * fst e2))%R.
Inductive same_numbers64 : list (R * nat) -> list (R * nat) -> list f64 -> list f64 -> Prop :=
| same_none64 : same_numbers64 [] [] [] []
| same_more64 e1 e2 y1 y2 es1 es2 ys1 ys2 : same_number64 e1 e2 y1 y2 -> same_numbers64 es1 es2 ys1 ys2 ->
    same_numbers64 (e1 :: es1) (e2 :: es2) (y1 :: ys1) (y2 :: ys2).
Definition same_result64 (e1 e2 : est) (v1 v2 : fval) : Prop :=
  match e1, e2 with
  | EB _, EB _ => exists b, v1 = FBool b /\ v2 = FBool b
  | EN _ s1 n1, EN _ s2 n2 => exists y1 y2, v1 = FNum (RF64 y1) /\ v2 = FNum (RF64 y2) /\ same_number64 (s1, n1) (s2, n2) y1 y2
  | EV bs1, EV bs2 => exists ys1 ys2, v1 = FNum (RVec64 ys1) /\ v2 = FNum (RVec64 ys2) /\
      same_numbers64 (map (fun '(_, s, n) => (s, n)) bs1) (map (fun '(_, s, n) => (s, n)) bs2) ys1 ys2
  | _, _ => False
  end.
Notation tracks64 units := (tracks (bpow radix2 (-53)) (-990) 990 units F64).

Theorem C81_same_results : forall k env lo M f1 T1 o1 G1 C1 f2 T2 o2 G2 C2 V,
  good_platform env lo -> (lo <= -953)%Z -> accurate_pow k env -> good_math M -> good_powers M ->
  (* two accepted files *)
  wf_file f1 -> (k = RationalExponents -> positive_denominators f1) -> parse_system k (print_file f1) = Some T1 ->
  run_unit_system (ops k) env T1 = Some (o1, []) -> struct_declaration_ok (df_base_dimensions o1) = true ->
  wf_file f2 -> (k = RationalExponents -> positive_denominators f2) -> parse_system k (print_file f2) = Some T2 ->
  run_unit_system (ops k) env T2 = Some (o2, []) -> struct_declaration_ok (df_base_dimensions o2) = true ->
  (* that agree about the sizes of the units, apart from which of them are the base units *)
  sizes V f1 -> sizes V f2 ->
  budget G1 C1 f1 -> budget G2 C2 f2 ->
  (* a program over units both of them have *)
  forall names mags1 units1 mags2 units2,
  Forall2 (named o1) names mags1 -> Forall2 (unit_dimension o1) names units1 ->
  Forall2 (named o2) names mags2 -> Forall2 (unit_dimension o2) names units2 ->
  forall ft math ts1 ts2 p t1 t2 inputs e1 e2,
  typed k (df_base_dimensions o1) ft math units1 [] true ts1 p t1 ->
  typed k (df_base_dimensions o2) ft math units2 [] true ts2 p t2 ->
  (* from numbers to a number *)
  Forall (no_dimension k (df_base_dimensions o1)) ts1 -> no_dimension k (df_base_dimensions o1) t1 ->
  Forall (no_dimension k (df_base_dimensions o2)) ts2 -> no_dimension k (df_base_dimensions o2) t2 ->
  length ts1 = length inputs -> length ts2 = length inputs -> Forall finite64 inputs ->
  tracks64 (double_units G1 C1 names) (map given64 inputs) p e1 ->
  tracks64 (double_units G2 C2 names) (map given64 inputs) p e2 ->
  exists v1 v2,
    frun stop env M mags1 (map (fun r => FNum r) inputs) p = Some v1 /\
    frun stop env M mags2 (map (fun r => FNum r) inputs) p = Some v2 /\
    same_result64 e1 e2 v1 v2.
Proof.
  intros k env lo M f1 T1 o1 G1 C1 f2 T2 o2 G2 C2 V P Low A GM GP W1 D10 E1 R1 N1 W2 D20 E2 R2 N2 V1 V2 B1 B2 names mags1 units1 mags2 units2
    Nm1 Ud1 Nm2 Ud2 ft math ts1 ts2 p t1 t2 inputs e1 e2 Ty1 Ty2 D1 D1' D2 D2' L1 L2 Fin K1 K2.
  pose (none := fun (_ : float_fn) (_ : R) => @None R).
  destruct (C79_vectors k env lo M f1 T1 o1 G1 C1 P Low A GM GP W1 E1 R1 B1 names mags1 Nm1 none inputs p e1 Fin K1) as (X1 & v1 & F1 & H1).
  destruct (C79_vectors k env lo M f2 T2 o2 G2 C2 P Low A GM GP W2 E2 R2 B2 names mags2 Nm2 none inputs p e2 Fin K2) as (X2 & v2 & F2 & H2).
  exists v1, v2. split; [exact F1|]. split; [exact F2|].
  assert (Q1 : exact_solution G1 f1) by exact (C71_budget_is_exact G1 C1 f1 B1).
  assert (Q2 : exact_solution G2 f2) by exact (C71_budget_is_exact G2 C2 f2 B2).
  pose proof (C81_exact k env f1 T1 o1 W1 D10 E1 R1 N1 G1 V Q1 V1 names units1 Ud1 ft math ts1 p t1 none
    (map meaning64 inputs) Ty1 D1 D1' ltac:(now rewrite map_length)) as Y1.
  pose proof (C81_exact k env f2 T2 o2 W2 D20 E2 R2 N2 G2 V Q2 V2 names units2 Ud2 ft math ts2 p t2 none
    (map meaning64 inputs) Ty2 D2 D2' ltac:(now rewrite map_length)) as Y2.
  rewrite Y1, <- Y2, X2 in X1. assert (Ex : exactly e2 = exactly e1) by congruence. clear -Ex H1 H2.
  assert (One : forall x s1 n1 s2 n2 y1 y2,
    (fin64 y1 /\ (few_roundings (bpow radix2 (-53)) n1 -> Rabs (v64 y1 - x) <= 2 * INR n1 * bpow radix2 (-53) * s1)%R) ->
    (fin64 y2 /\ (few_roundings (bpow radix2 (-53)) n2 -> Rabs (v64 y2 - x) <= 2 * INR n2 * bpow radix2 (-53) * s2)%R) ->
    same_number64 (s1, n1) (s2, n2) y1 y2).
  { intros x s1 n1 s2 n2 y1 y2 [A1 O1] [A2 O2]. split; [exact A1|]. split; [exact A2|]. cbn [fst snd]. intros S1 S2. specialize (O1 S1). specialize (O2 S2).
    replace (B2R 53 1024 y1 - B2R 53 1024 y2)%R with ((v64 y1 - x) - (v64 y2 - x))%R by ring.
    eapply Rle_trans; [apply Rabs_triang|]. rewrite Rabs_Ropp. lra. }
  destruct e1 as [x1 s1 n1|bs1|b1], e2 as [x2 s2 n2|bs2|b2]; cbn [exactly] in Ex; try discriminate Ex; cbn [result64 same_result64] in *.
  - destruct H1 as (y1 & -> & O1). destruct H2 as (y2 & -> & O2). exists y1, y2. do 2 (split; [reflexivity|]).
    assert (Hx : x2 = x1) by congruence. subst x2. exact (One x1 s1 n1 s2 n2 y1 y2 O1 O2).
  - destruct H1 as (ys1 & -> & O1). destruct H2 as (ys2 & -> & O2). exists ys1, ys2. do 2 (split; [reflexivity|]).
    assert (Hx : map (fun b : bound => fst (fst b)) bs2 = map (fun b => fst (fst b)) bs1) by (now injection Ex). clear Ex. revert bs2 ys2 Hx O2.
    induction O1 as [|[[x1 s1] n1] y1 bs1 ys1 Hh _ IH]; intros bs2 ys2 Hx O2; destruct O2 as [|[[x2 s2] n2] y2 bs2 ys2 Hh2 O2]; try discriminate Hx; [constructor|].
    cbn [map fst] in Hx. injection Hx as Hx0 Hx. subst x2. cbn [map snd]. constructor; [exact (One x1 s1 n1 s2 n2 y1 y2 Hh Hh2)|now apply IH].
  - exists b1. assert (b2 = b1) by congruence. subst. auto.
Qed.
Print Assumptions C81_same_results.

(** ** And in single precision *)
Definition same_number32 (e1 e2 : R * nat) (y1 y2 : f32) : Prop :=
  is_finite 24 128 y1 = true /\ is_finite 24 128 y2 = true /\
  (few_roundings (bpow radix2 (-24)) (snd e1) -> few_roundings (bpow radix2 (-24)) (snd e2) ->
   Rabs (B2R 24 128 y1 - B2R 24 128 y2) <= 2 * bpow radix2 (-24) * (INR (snd e1) * fst e1 + INR (snd e2) * fst e2))%R.
Inductive same_numbers32 : list (R * nat) -> list (R * nat) -> list f32 -> list f32 -> Prop :=
| same_none32 : same_numbers32 [] [] [] []
| same_more32 e1 e2 y1 y2 es1 es2 ys1 ys2 : same_number32 e1 e2 y1 y2 -> same_numbers32 es1 es2 ys1 ys2 ->
    same_numbers32 (e1 :: es1) (e2 :: es2) (y1 :: ys1) (y2 :: ys2).
Definition same_result32 (e1 e2 : est) (v1 v2 : fval) : Prop :=
  match e1, e2 with
  | EB _, EB _ => exists b, v1 = FBool b /\ v2 = FBool b
  | EN _ s1 n1, EN _ s2 n2 => exists y1 y2, v1 = FNum (RF32 y1) /\ v2 = FNum (RF32 y2) /\ same_number32 (s1, n1) (s2, n2) y1 y2
  | EV bs1, EV bs2 => exists ys1 ys2, v1 = FNum (RVec32 ys1) /\ v2 = FNum (RVec32 ys2) /\
      same_numbers32 (map (fun '(_, s, n) => (s, n)) bs1) (map (fun '(_, s, n) => (s, n)) bs2) ys1 ys2
  | _, _ => False
  end.
Notation tracks32 units := (tracks (bpow radix2 (-24)) (-110) 110 units F32).

Theorem C81_same_results_single : forall k env lo M f1 T1 o1 G1 C1 f2 T2 o2 G2 C2 V,
  good_platform env lo -> (lo <= -953)%Z -> accurate_pow k env -> good_math M -> good_powers M ->
  (* two accepted files *)
  wf_file f1 -> (k = RationalExponents -> positive_denominators f1) -> parse_system k (print_file f1) = Some T1 ->
  run_unit_system (ops k) env T1 = Some (o1, []) -> struct_declaration_ok (df_base_dimensions o1) = true ->
  wf_file f2 -> (k = RationalExponents -> positive_denominators f2) -> parse_system k (print_file f2) = Some T2 ->
  run_unit_system (ops k) env T2 = Some (o2, []) -> struct_declaration_ok (df_base_dimensions o2) = true ->
  (* that agree about the sizes of the units, apart from which of them are the base units *)
  sizes V f1 -> sizes V f2 ->
  budget G1 C1 f1 -> budget G2 C2 f2 ->
  (* a program over units both of them have *)
  forall names mags1 units1 mags2 units2,
  Forall2 (named o1) names mags1 -> Forall2 (unit_dimension o1) names units1 ->
  Forall2 (named o2) names mags2 -> Forall2 (unit_dimension o2) names units2 ->
  forall ft math ts1 ts2 p t1 t2 inputs e1 e2,
  typed k (df_base_dimensions o1) ft math units1 [] true ts1 p t1 ->
  typed k (df_base_dimensions o2) ft math units2 [] true ts2 p t2 ->
  (* from numbers to a number *)
  Forall (no_dimension k (df_base_dimensions o1)) ts1 -> no_dimension k (df_base_dimensions o1) t1 ->
  Forall (no_dimension k (df_base_dimensions o2)) ts2 -> no_dimension k (df_base_dimensions o2) t2 ->
  length ts1 = length inputs -> length ts2 = length inputs -> Forall finite32 inputs ->
  tracks32 (single_units G1 C1 names) (map given32 inputs) p e1 ->
  tracks32 (single_units G2 C2 names) (map given32 inputs) p e2 ->
  exists v1 v2,
    frun stop env M mags1 (map (fun r => FNum r) inputs) p = Some v1 /\
    frun stop env M mags2 (map (fun r => FNum r) inputs) p = Some v2 /\
    same_result32 e1 e2 v1 v2.
Proof.
  intros k env lo M f1 T1 o1 G1 C1 f2 T2 o2 G2 C2 V P Low A GM GP W1 D10 E1 R1 N1 W2 D20 E2 R2 N2 V1 V2 B1 B2 names mags1 units1 mags2 units2
    Nm1 Ud1 Nm2 Ud2 ft math ts1 ts2 p t1 t2 inputs e1 e2 Ty1 Ty2 D1 D1' D2 D2' L1 L2 Fin K1 K2.
  pose (none := fun (_ : float_fn) (_ : R) => @None R).
  destruct (C79_vectors_single k env lo M f1 T1 o1 G1 C1 P Low A GM GP W1 E1 R1 B1 names mags1 Nm1 none inputs p e1 Fin K1) as (X1 & v1 & F1 & H1).
  destruct (C79_vectors_single k env lo M f2 T2 o2 G2 C2 P Low A GM GP W2 E2 R2 B2 names mags2 Nm2 none inputs p e2 Fin K2) as (X2 & v2 & F2 & H2).
  exists v1, v2. split; [exact F1|]. split; [exact F2|].
  assert (Q1 : exact_solution G1 f1) by exact (C71_budget_is_exact G1 C1 f1 B1).
  assert (Q2 : exact_solution G2 f2) by exact (C71_budget_is_exact G2 C2 f2 B2).
  pose proof (C81_exact k env f1 T1 o1 W1 D10 E1 R1 N1 G1 V Q1 V1 names units1 Ud1 ft math ts1 p t1 none
    (map meaning32 inputs) Ty1 D1 D1' ltac:(now rewrite map_length)) as Y1.
  pose proof (C81_exact k env f2 T2 o2 W2 D20 E2 R2 N2 G2 V Q2 V2 names units2 Ud2 ft math ts2 p t2 none
    (map meaning32 inputs) Ty2 D2 D2' ltac:(now rewrite map_length)) as Y2.
  rewrite Y1, <- Y2, X2 in X1. assert (Ex : exactly e2 = exactly e1) by congruence. clear -Ex H1 H2.
  assert (One : forall x s1 n1 s2 n2 y1 y2,
    (fin32 y1 /\ (few_roundings (bpow radix2 (-24)) n1 -> Rabs (v32 y1 - x) <= 2 * INR n1 * bpow radix2 (-24) * s1)%R) ->
    (fin32 y2 /\ (few_roundings (bpow radix2 (-24)) n2 -> Rabs (v32 y2 - x) <= 2 * INR n2 * bpow radix2 (-24) * s2)%R) ->
    same_number32 (s1, n1) (s2, n2) y1 y2).
  { intros x s1 n1 s2 n2 y1 y2 [A1 O1] [A2 O2]. split; [exact A1|]. split; [exact A2|]. cbn [fst snd]. intros S1 S2. specialize (O1 S1). specialize (O2 S2).
    replace (B2R 24 128 y1 - B2R 24 128 y2)%R with ((v32 y1 - x) - (v32 y2 - x))%R by ring.
    eapply Rle_trans; [apply Rabs_triang|]. rewrite Rabs_Ropp. lra. }
  destruct e1 as [x1 s1 n1|bs1|b1], e2 as [x2 s2 n2|bs2|b2]; cbn [exactly] in Ex; try discriminate Ex; cbn [result32 same_result32] in *.
  - destruct H1 as (y1 & -> & O1). destruct H2 as (y2 & -> & O2). exists y1, y2. do 2 (split; [reflexivity|]).
    assert (Hx : x2 = x1) by congruence. subst x2. exact (One x1 s1 n1 s2 n2 y1 y2 O1 O2).
  - destruct H1 as (ys1 & -> & O1). destruct H2 as (ys2 & -> & O2). exists ys1, ys2. do 2 (split; [reflexivity|]).
    assert (Hx : map (fun b : bound => fst (fst b)) bs2 = map (fun b => fst (fst b)) bs1) by (now injection Ex). clear Ex. revert bs2 ys2 Hx O2.
    induction O1 as [|[[x1 s1] n1] y1 bs1 ys1 Hh _ IH]; intros bs2 ys2 Hx O2; destruct O2 as [|[[x2 s2] n2] y2 bs2 ys2 Hh2 O2]; try discriminate Hx; [constructor|].
    cbn [map fst] in Hx. injection Hx as Hx0 Hx. subst x2. cbn [map snd]. constructor; [exact (One x1 s1 n1 s2 n2 y1 y2 Hh Hh2)|now apply IH].
  - exists b1. assert (b2 = b1) by congruence. subst. auto.
Qed.
Print Assumptions C81_same_results_single.


(** ** Two such files *)
(** Metres first and inches first: [2] metres and [2] inches, in inches. *)
Definition metre_file : slist stmt := {| sl_trailing := true; sl_items :=
  [SQuantityType [] "Quantity"; SDimensionType [] "Dimension"; SDimension [] "Length" None;
   SUnit [USymbol "m"; UBase "Length"] "meter" None None;
   SUnit [] "inch" None (Some (SxBin (SxOne (SfVal (AtLit (SDec false 254 (-4))))) ByStar (SfVal (AtIdent "meter"))))] |}.
Definition inch_file : slist stmt := {| sl_trailing := true; sl_items :=
  [SQuantityType [] "Quantity"; SDimensionType [] "Dimension"; SDimension [] "Length" None;
   SUnit [USymbol "inch"; UBase "Length"] "inch" None None;
   SUnit [] "meter" None (Some (SxBin (SxOne (SfVal (AtIdent "inch"))) BySlash (SfVal (AtLit (SDec false 254 (-4))))))] |}.
Definition inches_program : prog IntegerExponents := ValueIn (Bin TAdd (New (U 0) (Var 0)) (New (U 1) (Var 0))) (U 1).
Definition inch_size (n : ident) : Q := if String.eqb n "meter" then 1%Q else (127 # 5000)%Q.
Definition small_table (f : slist stmt) : ident -> option (Q * nat) := b_name (file_defs f) 3.

Definition one_length : dimval (ops IntegerExponents) := [("length", 1%Z)].
Definition has_dimensionb (o : defs (ops IntegerExponents)) (n : ident) : bool :=
  existsb (fun u => String.eqb (un_name u) n &&
    match dim_expr (ops IntegerExponents) (CodegenLiteral.lit IntegerExponents) (df_base_dimensions o) (un_dims u) with
    | Some [(g, z)] => String.eqb g "length" && Z.eqb z 1
    | _ => false
    end) (df_units o).
Lemma has_dimensionb_ok o n : has_dimensionb o n = true -> unit_dimension o n one_length.
Proof.
  intros H. apply existsb_exists in H as (u & Hu & H). apply andb_true_iff in H as [En H]. apply String.eqb_eq in En.
  exists (un_dims u). split; [left; eauto|].
  destruct (dim_expr _ _ _ _) as [[|[g z] [|]]|]; try discriminate H. apply andb_true_iff in H as [H1 H2].
  apply String.eqb_eq in H1. apply Z.eqb_eq in H2. subst. reflexivity.
Qed.
Definition lengthsb (ts : slist stmt) : bool :=
  match parse_system IntegerExponents (print_file ts) with
  | Some t => match run_unit_system (ops IntegerExponents) env0 t with
              | Some (o, []) => match df_base_dimensions o with
                                | [g] => String.eqb g "length" && has_dimensionb o "meter" && has_dimensionb o "inch"
                                | _ => false end
              | _ => false end
  | None => false end.
Lemma small_file f : (f = metre_file \/ f = inch_file) -> exists T o,
  wf_file f /\ parse_system IntegerExponents (print_file f) = Some T /\
  run_unit_system (ops IntegerExponents) env0 T = Some (o, []) /\ df_base_dimensions o = ["length"] /\
  struct_declaration_ok (df_base_dimensions o) = true /\
  Forall2 (unit_dimension o) ["meter"; "inch"] [one_length; one_length] /\
  (exists m1 m2, Forall2 (named o) ["meter"; "inch"] [m1; m2]) /\
  budget (tG (small_table f)) (tC (small_table f)) f /\ sizes inch_size f.
Proof.
  intros Hf. assert (Ck : lengthsb f = true) by (destruct Hf as [->| ->]; vm_compute; reflexivity). unfold lengthsb in Ck.
  destruct (parse_system IntegerExponents (print_file f)) as [T|] eqn:E; [|discriminate Ck].
  destruct (run_unit_system (ops IntegerExponents) env0 T) as [[o [|]]|] eqn:Rn; try discriminate Ck.
  destruct (df_base_dimensions o) as [|g [|]] eqn:Eb; try discriminate Ck. apply andb_true_iff in Ck as [Ck K2]. apply andb_true_iff in Ck as [Eg K1].
  apply String.eqb_eq in Eg. subst g. exists T, o. rewrite Eb.
  split. { destruct Hf as [->| ->]; (split; [easy|]); cbn [sl_items metre_file inch_file]; unfold wf_stmt, wf_ident;
    repeat (first [apply accept_name; reflexivity | constructor | discriminate | reflexivity]). }
  split; [reflexivity|]. split; [exact Rn|]. split; [reflexivity|]. split; [reflexivity|].
  split; [exact (Forall2_cons _ _ (has_dimensionb_ok o _ K1) (Forall2_cons _ _ (has_dimensionb_ok o _ K2) (Forall2_nil _)))|].
  split.
  { assert (K : forall n, has_dimensionb o n = true -> exists m, named o n m).
    { intros n H. apply existsb_exists in H as (u & Hu & H). apply andb_true_iff in H as [En _]. apply String.eqb_eq in En.
      exists (un_mag u). left. eauto. }
    destruct (K _ K1) as [m1 H1]. destruct (K _ K2) as [m2 H2]. exists m1, m2.
    exact (Forall2_cons _ _ H1 (Forall2_cons _ _ H2 (Forall2_nil _))). }
  split.
  { apply budget_checks_ok; [destruct Hf as [->| ->]; vm_compute; reflexivity|].
    intros n. assert (K := b_name_le (file_defs f) 2 100). cbv zeta in K. unfold tC, small_table.
    assert (Kn := K ltac:(destruct Hf as [->| ->]; vm_compute; reflexivity) n).
    destruct (b_name (file_defs f) 3 n) as [p|]; lia. }
  destruct Hf as [->| ->]; split.
  - intros n H. cbn [file_defs metre_file sl_items flat_map stmt_defs alias_names prefixes_of metrics_of explicit_prefixes map app] in H.
    destruct H as [H|[H|[]]]; [injection H as <-; reflexivity|discriminate H].
  - intros n d H Nb. destruct H as [H|[H|[]]]; [exfalso; apply Nb; congruence|]. injection H as <- <-.
    exists (lit_Q (SDec false 254 (-4)) * inch_size "meter")%Q. split; [|reflexivity].
    apply is_mul; [discriminate|constructor; constructor|apply (is_val inch_size (AtIdent "meter"))].
  - intros n H. destruct H as [H|[H|[]]]; [injection H as <-; reflexivity|discriminate H].
  - intros n d H Nb. destruct H as [H|[H|[]]]; [exfalso; apply Nb; congruence|]. injection H as <- <-.
    exists (inch_size "inch" / lit_Q (SDec false 254 (-4)))%Q. split; [|reflexivity].
    apply is_div; [constructor; apply (is_val inch_size (AtIdent "inch"))|constructor].
Qed.
Lemma inches_tracked G C a i : Q2R (G "meter") = a -> Q2R (G "inch") = i -> (/ 100 <= a <= 100)%R -> (/ 100 <= i <= 100)%R ->
  (C "meter" <= 100)%nat -> (C "inch" <= 100)%nat -> exists x s n,
  tracks64 (double_units G C ["meter"; "inch"]) (map input64 [two]) inches_program (EN x s n) /\ (n <= 1000)%nat.
Proof.
  intros Ea Ei Ba Bi Ca Ci. destruct two_value as [F2 V2].
  pose (units := double_units G C ["meter"; "inch"]). fold units.
  assert (Ua : units (U 0) a (C "meter")) by (exists "meter"; auto).
  assert (Ui : units (U 1) i (C "inch")) by (exists "inch"; auto).
  cbn [map]. unfold input64. rewrite V2.
  assert (Aa : Rabs a = a) by (apply Rabs_pos_eq; lra). assert (Ai : Rabs i = i) by (apply Rabs_pos_eq; lra).
  assert (A2 : Rabs 2 = 2%R) by (apply Rabs_pos_eq; lra). rewrite A2.
  assert (Ka : tracks64 units [EN 2 2 0] (New (k := IntegerExponents) (U 0) (Var 0)) (EN (2 * a) (2 * Rabs a) (0 + C "meter" + 1))).
  { apply k_times with (a := Var 0) (v := U 0); [now left|now constructor|exact Ua|]. rewrite Aa. apply fine_size; [lia|lra]. }
  assert (Ki : tracks64 units [EN 2 2 0] (New (k := IntegerExponents) (U 1) (Var 0)) (EN (2 * i) (2 * Rabs i) (0 + C "inch" + 1))).
  { apply k_times with (a := Var 0) (v := U 1); [now left|now constructor|exact Ui|]. rewrite Ai. apply fine_size; [lia|lra]. }
  rewrite Aa in Ka. rewrite Ai in Ki. do 3 eexists. split.
  - apply k_over with (a := Bin TAdd (New (U 0) (Var 0)) (New (U 1) (Var 0))) (v := U 1); [right; now left| |exact Ui|lra|].
    + apply k_add; [now left|exact Ka|exact Ki|]. apply fine_size; [lia|lra].
    + rewrite Ai. apply fine_size; [lia|]. assert (0 < / i)%R by (apply Rinv_0_lt_compat; lra).
      assert (/ 100 <= / i)%R by (apply Rinv_le_contravar; lra). assert (/ i <= 100)%R.
      { rewrite <- (Rinv_inv 100). apply Rinv_le_contravar; lra. }
      unfold Rdiv. split; nra.
  - lia.
Qed.
Lemma inches_typed : typed IntegerExponents ["length"] all_features true [one_length; one_length] [] true [number (Float F64)]
  inches_program (number (Float F64)).
Proof.
  assert (D : is_dimension IntegerExponents ["length"] one_length).
  { exists (fun _ => ZQc 1). split; [reflexivity|]. intros g e [[= <- <-]|[]]. split; [exact Logic.I|reflexivity]. }
  apply T_ValueIn with (d := one_length) (d1 := one_length); [now constructor| |reflexivity].
  apply T_Bin with (b1 := TyQ (Known (Float F64)) one_length) (b2 := TyQ (Known (Float F64)) one_length).
  - apply T_New; [now constructor|now constructor].
  - apply T_New; [now constructor|now constructor].
  - apply (compiles_iff_spec _ _ _ _ _ _ _ _ _ (std_ok all_features)). exists (Known (Float F64)).
    split; [split; [reflexivity|split; intros H; now destruct H]|].
    split; [now left|]. split; [now left|]. split; reflexivity.
Qed.
Example C81_applies : exists T1 o1 G1 C1 T2 o2 G2 C2 mags1 mags2 x1 s1 n1 x2 s2 n2,
  good_platform env0 (-1023) /\ accurate_powi (f_powi env0) /\ good_math math0 /\ good_powers math0 /\
  wf_file metre_file /\ parse_system IntegerExponents (print_file metre_file) = Some T1 /\
  run_unit_system (ops IntegerExponents) env0 T1 = Some (o1, []) /\ struct_declaration_ok (df_base_dimensions o1) = true /\
  wf_file inch_file /\ parse_system IntegerExponents (print_file inch_file) = Some T2 /\
  run_unit_system (ops IntegerExponents) env0 T2 = Some (o2, []) /\ struct_declaration_ok (df_base_dimensions o2) = true /\
  sizes inch_size metre_file /\ sizes inch_size inch_file /\ budget G1 C1 metre_file /\ budget G2 C2 inch_file /\
  Forall2 (named o1) ["meter"; "inch"] mags1 /\ Forall2 (unit_dimension o1) ["meter"; "inch"] [one_length; one_length] /\
  Forall2 (named o2) ["meter"; "inch"] mags2 /\ Forall2 (unit_dimension o2) ["meter"; "inch"] [one_length; one_length] /\
  typed IntegerExponents (df_base_dimensions o1) all_features true [one_length; one_length] [] true [number (Float F64)] inches_program (number (Float F64)) /\
  typed IntegerExponents (df_base_dimensions o2) all_features true [one_length; one_length] [] true [number (Float F64)] inches_program (number (Float F64)) /\
  Forall finite64 [RF64 two] /\
  tracks64 (double_units G1 C1 ["meter"; "inch"]) (map given64 [RF64 two]) inches_program (EN x1 s1 n1) /\ (n1 <= 1000)%nat /\
  tracks64 (double_units G2 C2 ["meter"; "inch"]) (map given64 [RF64 two]) inches_program (EN x2 s2 n2) /\ (n2 <= 1000)%nat /\
  ~ (G1 "inch" == G2 "inch")%Q.
Proof.
  destruct (small_file metre_file (or_introl eq_refl)) as (T1 & o1 & W1 & E1 & R1 & D1 & N1 & U1 & (a1 & b1 & M1) & B1 & S1).
  destruct (small_file inch_file (or_intror eq_refl)) as (T2 & o2 & W2 & E2 & R2 & D2 & N2 & U2 & (a2 & b2 & M2) & B2 & S2).
  assert (K1 : tG (small_table metre_file) "meter" = 1%Q /\ tG (small_table metre_file) "inch" = (127 # 5000)%Q /\
    tC (small_table metre_file) "meter" = 0%nat /\ tC (small_table metre_file) "inch" = 2%nat) by (vm_compute; auto).
  assert (K2 : tG (small_table inch_file) "meter" = (5000 # 127)%Q /\ tG (small_table inch_file) "inch" = 1%Q /\
    tC (small_table inch_file) "meter" = 2%nat /\ tC (small_table inch_file) "inch" = 0%nat) by (vm_compute; auto).
  destruct K1 as (Ka1 & Kb1 & Kc1 & Kd1). destruct K2 as (Ka2 & Kb2 & Kc2 & Kd2).
  assert (Q1 : Q2R 1 = 1%R) by (unfold Q2R; cbn; lra).
  destruct (inches_tracked (tG (small_table metre_file)) (tC (small_table metre_file)) 1 (Q2R (127 # 5000))) as (x1 & s1 & n1 & H1 & L1);
    [now rewrite Ka1|now rewrite Kb1|lra|unfold Q2R; cbn; lra|rewrite Kc1; lia|rewrite Kd1; lia|].
  destruct (inches_tracked (tG (small_table inch_file)) (tC (small_table inch_file)) (Q2R (5000 # 127)) 1) as (x2 & s2 & n2 & H2 & L2);
    [now rewrite Ka2|now rewrite Kb2|unfold Q2R; cbn; lra|lra|rewrite Kc2; lia|rewrite Kd2; lia|].
  exists T1, o1, (tG (small_table metre_file)), (tC (small_table metre_file)), T2, o2, (tG (small_table inch_file)), (tC (small_table inch_file)).
  exists [a1; b1], [a2; b2], x1, s1, n1, x2, s2, n2. rewrite D1, D2.
  split; [apply good_rt|]. split; [exact powi_rt_accurate|]. split; [exact math0_good|]. split; [exact math0_powers|].
  do 16 (split; [assumption || reflexivity|]). split; [exact inches_typed|]. split; [exact inches_typed|].
  split; [exact (Forall_cons (RF64 two) (proj1 two_value) (Forall_nil _))|].
  do 4 (split; [assumption|]). rewrite Kb1, Kb2. discriminate.
Qed.
