(** * The systems written in the repository: C64, C65

    Sources.v holds the text of the bundled SI system and of the repository's tests, as tokens. *)
From Coq Require Import String Ascii List Bool ZArith Lia QArith Qcanon Qreals Reals Lra.
From Flocq Require Import Core Binary Bits.
From Verif Require Import MachineInt Ratio RatioFacts F64 DecimalFacts Magnitude MagnitudeFacts
  Exponent ExponentFacts SMap Expression DimensionMath DimensionMathFacts Types PrefixSpec ExpansionSpec Snake Resolve
  SystemSpec ResolveFacts ResolveEquations Expansion Setting SystemFacts ExampleSystems Platform
  Parse Grammar ParseFacts ParsedSystems Sources SiTree Accuracy PropertiesSystem.
Import ListNotations.
Close Scope Qc_scope. Close Scope Q_scope. Close Scope R_scope.
Local Open Scope string_scope.
Local Open Scope list_scope.

(** ** C65: what is reported, and the dimensions, do not depend on the platform *)
Theorem C65_platform_independent : forall k env1 env2 (T : template k),
  match run_unit_system (ops k) env1 T, run_unit_system (ops k) env2 T with
  | Some (o1, ds1), Some (o2, ds2) =>
      ds1 = ds2 /\
      (forall n v, denotes_dim k o1 n v <-> denotes_dim k o2 n v) /\
      map un_name (df_units o1) = map un_name (df_units o2) /\
      map un_symbol (df_units o1) = map un_symbol (df_units o2) /\
      df_base_dimensions o1 = df_base_dimensions o2 /\
      df_quantity_type o1 = df_quantity_type o2 /\ df_dimension_type o1 = df_dimension_type o2
  | None, None => True
  | _, _ => False
  end.
Proof.
  intros k env1 env2 T. pose proof (platform_independent (ops k) env1 env2 T) as P.
  destruct (run_unit_system (ops k) env1 T) as [[o1 d1]|], (run_unit_system (ops k) env2 T) as [[o2 d2]|]; auto.
  destruct P as (-> & ED & EU & EC & EB & EQ & ET). split; [reflexivity|]. split; [|repeat split; auto].
  - assert (U : forall o o', map (unit_shape (ops k)) (df_units o) = map (unit_shape (ops k)) (df_units o') ->
      forall n v, (exists u, In u (df_units o) /\ un_name u = n /\ vec_is (ops k) (laws k) (un_dims u) v) ->
      exists u, In u (df_units o') /\ un_name u = n /\ vec_is (ops k) (laws k) (un_dims u) v).
    { intros o o' E n v (u & Hu & <- & V). apply (in_map (unit_shape (ops k))) in Hu. rewrite E in Hu.
      apply in_map_iff in Hu as (u' & S & Hu'). unfold unit_shape in S. injection S as S1 S2 S3 S4.
      exists u'. rewrite S1, S2. auto. }
    assert (C : forall o o', map (constant_shape (ops k)) (df_constants o) = map (constant_shape (ops k)) (df_constants o') ->
      forall n v, (exists u, In u (df_constants o) /\ c_name u = n /\ vec_is (ops k) (laws k) (c_dims u) v) ->
      exists u, In u (df_constants o') /\ c_name u = n /\ vec_is (ops k) (laws k) (c_dims u) v).
    { intros o o' E n v (u & Hu & <- & V). apply (in_map (constant_shape (ops k))) in Hu. rewrite E in Hu.
      apply in_map_iff in Hu as (u' & S & Hu'). unfold constant_shape in S. injection S as S1 S2.
      exists u'. rewrite S1, S2. auto. }
    intros n v. unfold dim_result. rewrite ED. split; intros [H|[H|H]]; auto; right; eauto.
  - apply (f_equal (map (fun s => fst (fst (fst s))))) in EU. now rewrite !map_map in EU.
  - apply (f_equal (map (fun s => snd (fst s)))) in EU. now rewrite !map_map in EU.
Qed.
Print Assumptions C65_platform_independent.

(** ** The model reproduces the expected output of the repository's compile-fail tests *)
Definition diags_of (k : mode) (ts : list tok) : option (list diag) :=
  match parse_system k ts with
  | Some T => match run_unit_system (ops k) env0 T with Some (_, ds) => Some ds | None => None end
  | None => None
  end.
(** [tests/compile_fail/<name>.stderr] in crates/diman_unit_system. *)
Definition expected_diagnostics : list (list tok * option (list diag)) := [
  (resolver_dimension_in_constant_expression_not_allowed,
     Some [KindNotAllowed "SOLAR_MASS" "Mass" KConstant KDimension]);
  (resolver_dimension_in_unit_expression_not_allowed,
     Some [KindNotAllowed "kilograms" "Mass" KUnit KDimension]);
  (resolver_duplicate_base_unit, Some [MultipleBaseUnits "Length" "parsec"]);
  (resolver_duplicate_definition, Some [MultipleDefinitions ["foo"; "foo"]]);
  (resolver_duplicate_symbol, Some [SymbolMultiple "mm" ["millimeters"; "my_unit"]]);
  (resolver_partial_resolution, Some [Unresolvable "undefined"]);
  (resolver_prefixed_or_aliased_units_dont_generate_multiple_errors, Some [Undefined "undefined"]);
  (resolver_undefined_identifier, Some [Undefined "meters"]);
  (resolver_units_in_dimension_expression_not_allowed,
     Some [KindNotAllowed "Mass2" "kilograms" KDimension KBaseUnit]);
  (resolver_unresolvable, Some [Unresolvable "meters"; Unresolvable "kilometers"]);
  (dimension_annotation_violated_constant, Some [ViolatedAnnotation "Mass"]);
  (dimension_annotation_violated_unit, Some [ViolatedAnnotation "Length"]);
  (dimension_annotation_with_unit_not_allowed, Some [WrongTypeInAnnotation "kilograms" KBaseUnit]);
  (dimension_definition_with_numeric_factor, None)].
Example repository_compile_fail : forall k,
  map (fun e => diags_of k (fst e)) expected_diagnostics = map snd expected_diagnostics.
Proof. intros []; vm_compute; reflexivity. Qed.
Example repository_accepted :
  map (diags_of IntegerExponents) [example_source; unit_aliases_source; rational_source]
    = [Some []; Some []; None] /\
  map (diags_of RationalExponents) [example_source; unit_aliases_source; rational_source]
    = [Some []; Some []; Some []].
Proof. split; vm_compute; reflexivity. Qed.

(** ** C64: the SI system *)

Lemma prefix_stable lo p : (-1074 <= lo <= -164)%Z -> stable lo (f64_of_decimal 1 (prefix_decimal p)).
Proof.
  intros Hlo.
  assert (Q : exists q, f64_Q (f64_of_decimal 1 (prefix_decimal p)) = Some q /\
                        Qle_bool (1 # Pos.pow 2 112) q = true).
  { destruct p; eexists; (split; [vm_compute; reflexivity|vm_compute; reflexivity]). }
  destruct Q as (q & E & L). apply f64_Q_ok in E as [F E]. apply Qle_bool_iff, Qle_Rle in L.
  split; [destruct (f64_of_decimal 1 (prefix_decimal p)); easy|]. right. rewrite <- E.
  assert (B : Q2R (1 # Pos.pow 2 112) = bpow radix2 (-112)).
  { unfold Q2R. cbn [Qnum Qden]. rewrite Rmult_1_l. change (-112)%Z with (- (112))%Z. rewrite bpow_opp. f_equal. }
  rewrite B in L. rewrite Rabs_right.
  - eapply Rle_trans; [|exact L]. apply bpow_le. lia.
  - apply Rle_ge. eapply Rle_trans; [|exact L]. apply bpow_ge_0.
Qed.

(** In every accepted system a prefixed base unit (or alias of one) has as factor the double
    nearest to the power of ten. *)
Theorem C64_prefixed_base_units : forall k env lo (T : template k) o t p d (alias : option ident) f,
  good_platform env lo -> literals_ok k T -> run_unit_system (ops k) env T = Some (o, []) ->
  In t (u_units T) -> ut_definition t = DefBase d -> In p (ut_prefixes t) ->
  (forall a, alias = Some a -> In a (ut_aliases t)) ->
  denotes_fac k env o (si_name p ++ match alias with None => ut_name t | Some a => a end)%string f ->
  nearest (powerRZ 10 (si_power p)) f.
Proof.
  intros k env lo T o t p d alias f G L R Ht Hd Hp Ha Hf.
  pose proof (C20_prefixed_unit k env lo T o t p alias G L R Ht Hp Ha) as C. cbv zeta in C.
  destruct C as (N & _ & _ & F & _).
  assert (Hin : In (DUnit (expand_one t None None)) (decls (declared T))).
  { rewrite <- declared_expand. apply expanded_In; auto. }
  destruct (C24_factor_equations k env lo T o G R _ Hin ltac:(easy)) as ((g & Hg) & _ & Eq).
  specialize (Eq g Hg). unfold fac_equation in Eq. cbn [expand_one ue_definition get_definition] in Eq.
  rewrite Hd in Eq. subst g. change (decl_name (DUnit (expand_one t None None))) with (ut_name t) in Hg.
  destruct (F f f64_one Hf Hg) as [_ F2].
  pose proof (prefix_stable lo p (proj1 G)) as St. rewrite prefix_decimal_si in St.
  rewrite (f64_mul_one _ (proj1 St)) in F2. now rewrite (F2 St).
Qed.
Print Assumptions C64_prefixed_base_units.
