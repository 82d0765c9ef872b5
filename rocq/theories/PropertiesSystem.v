(** * Properties of [unit_system!]: expansion, acceptance, diagnostics, denotation (C19-C36)

    Vocabulary: [Types] (what a declaration is), [SystemSpec] (what a declaration means),
    [Setting] ([mode]: integer or rational exponents; [good_platform]: what is assumed of
    [f64::powi]).  [run_unit_system X env T = Some (o, ds)]: the macro, given the parsed
    declarations [T], produces the definitions [o] and emits the diagnostics [ds]; [None]: it
    panics (exponent overflow).  The call is accepted iff [ds = []]. *)
From Coq Require Import String List Bool ZArith Lia Permutation Sorting.Sorted Reals.
From Coq Require Import QArith Qcanon.
From Flocq Require Import Core Binary Bits.
From Verif Require Import MachineInt Ratio RatioFacts F64 DecimalFacts Magnitude MagnitudeFacts
  Exponent ExponentFacts SMap Expression DimensionMath DimensionMathFacts Types PrefixSpec ExpansionSpec Snake Resolve
  ResolveLoop ResolveChecks SystemSpec ResolveFacts ResolveAccept ResolveEquations ResolveReports
  Expansion Setting SystemFacts ExampleSystems.
Import ListNotations.
Local Open Scope list_scope.
Local Close Scope Qc_scope.
Local Close Scope Q_scope.

Notation template k := (unresolved (ops k) (unit_template (ops k))).
Notation denotes_dim k o n v := (dim_result (ops k) (laws k) o n v).
Notation denotes_fac k env o n f := (fac_result (ops k) env o n f).

(** ** C19 *)
Theorem C19_alias_same_as_unit :
  forall k env lo (T : template k) o t a,
    good_platform env lo -> literals_ok k T ->
    run_unit_system (ops k) env T = Some (o, []) -> In t (u_units T) -> In a (ut_aliases t) ->
    (exists u, In u (df_units o) /\ un_name u = a) /\
    (forall v, denotes_dim k o a v <-> denotes_dim k o (ut_name t) v) /\
    (forall f, denotes_fac k env o a f <-> denotes_fac k env o (ut_name t) f) /\
    (forall u, In u (df_units o) -> un_name u = a -> un_symbol u = None).
Proof.
  intros k env lo T o t a [Hlo Hp] [Hl Hv] Hr Ht Ha.
  assert (Hin : In (expand_one t None (Some a)) (u_units (expand_templates T))).
  { apply (unit_decl (ops k)). apply expanded_In; eauto. }
  destruct (unit_results _ (laws k) env _ o (generated_ok_expand _ T) Hr) as (U1 & U2 & U3).
  split; [|split; [|split]].
  - apply (U1 _ Hin).
  - intros v. apply (generated_dim _ (laws k) env T o t None (Some a) v); eauto.
  - intros f. apply (alias_fac _ (laws k) env (pow_encoded k env) _ (pow_law k env) lo T o t a f); auto; lia.
  - intros u Hu En. apply (U2 _ _ Hin Hu En).
Qed.
Print Assumptions C19_alias_same_as_unit.

Example C19_applies : forall k, exists o,
  run_unit_system (ops k) env0 (example k) = Some (o, []) /\ literals_ok k (example k) /\
  good_platform env0 (-1023) /\ In (meter k) (u_units (example k)) /\
  In "metre"%string (ut_aliases (meter k)).
Proof.
  intros k. destruct (example_ok k) as (o & H1 & H2 & H3). exists o. simpl. auto 8.
Qed.

(** ** C20 *)
Theorem C20_prefixed_unit :
  forall k env lo (T : template k) o t p (alias : option ident),
    good_platform env lo -> literals_ok k T ->
    run_unit_system (ops k) env T = Some (o, []) -> In t (u_units T) -> In p (ut_prefixes t) ->
    (forall a, alias = Some a -> In a (ut_aliases t)) ->
    let plain := match alias with None => ut_name t | Some a => a end in
    let n := (si_name p ++ plain)%string in
    let ten := f64_of_decimal 1 (si_power p) in
    nearest (powerRZ 10 (si_power p)) ten /\
    (exists u, In u (df_units o) /\ un_name u = n) /\
    (forall v, denotes_dim k o n v <-> denotes_dim k o (ut_name t) v) /\
    (forall f g, denotes_fac k env o n f -> denotes_fac k env o (ut_name t) g ->
       f = stored env (f64_mul ten g) /\
       (stable lo (f64_mul ten g) -> f = f64_mul ten g)) /\
    (forall u, In u (df_units o) -> un_name u = n ->
       un_symbol u = match alias with
                     | None => option_map (fun s => si_symbol p ++ s)%string (ut_symbol t)
                     | Some _ => None
                     end).
Proof.
  intros k env lo T o t p alias [Hlo Hp] [Hl Hv] Hr Ht Hpr Ha.
  rewrite <- prefix_name_si, <- prefix_decimal_si, <- prefix_short_si. intros plain n ten.
  assert (Ha' : alias = None \/ exists b, alias = Some b /\ In b (ut_aliases t)).
  { destruct alias; eauto. }
  assert (Hp' : Some p = None \/ exists q, Some p = Some q /\ In q (ut_prefixes t)) by eauto.
  assert (Hin : In (expand_one t (Some p) alias) (u_units (expand_templates T))).
  { apply (unit_decl (ops k)). apply expanded_In; eauto. }
  assert (En : n = format_name t (Some p) alias) by (unfold n, plain; destruct alias; reflexivity).
  destruct (unit_results _ (laws k) env _ o (generated_ok_expand _ T) Hr) as (U1 & U2 & U3).
  repeat apply conj.
  - replace (powerRZ 10 (prefix_decimal p)) with (IZR 1 * powerRZ 10 (prefix_decimal p))%R
      by apply Rmult_1_l.
    apply f64_of_decimal_nearest. lia.
  - rewrite En. apply (U1 _ Hin).
  - intros v. rewrite En. apply (generated_dim _ (laws k) env T o t (Some p) alias v); auto.
  - intros f g Hf Hg. rewrite En in Hf.
    assert (E : f = stored env (f64_mul ten g)).
    { eapply (generated_fac _ (laws k) env _ (pow_law k env) lo T o t p alias f g); eauto. }
    split; auto. intros St. rewrite E. unfold stored. apply (roundtrip_stable env lo); auto. lia.
  - intros u Hu Eu. rewrite En in Eu. destruct (U2 _ _ Hin Hu Eu) as [-> _].
    simpl. destruct alias; reflexivity.
Qed.
Print Assumptions C20_prefixed_unit.

(** Name, symbol and factor of the prefixes are those of the SI, each prefix is read by its SI name, and
    no two prefixes agree in any of the three. *)
Theorem C20_si_prefixes : forall p,
  prefix_name p = si_name p /\ prefix_keyword p = si_name p /\ prefix_short p = si_symbol p /\
  prefix_factor p = from_f64 (f64_of_decimal 1 (si_power p)).
Proof.
  intros p. rewrite <- prefix_decimal_si. auto using prefix_name_si, prefix_keyword_si, prefix_short_si.
Qed.
Print Assumptions C20_si_prefixes.
Theorem C20_prefixes_distinct : forall p q,
  si_name p = si_name q \/ si_symbol p = si_symbol q \/ si_power p = si_power q -> p = q.
Proof.
  intros p q. rewrite <- !prefix_name_si, <- !prefix_decimal_si, <- !prefix_short_si. intros [H|[H|H]]; [now apply prefix_names_distinct|now apply prefix_symbols_distinct|
                         now apply prefix_decimals_distinct].
Qed.
Print Assumptions C20_prefixes_distinct.

Example C20_applies : forall k, exists o,
  run_unit_system (ops k) env0 (example k) = Some (o, []) /\ literals_ok k (example k) /\
  good_platform env0 (-1023) /\ In (meter k) (u_units (example k)) /\ In Kilo (ut_prefixes (meter k)) /\
  exists u, In u (df_units o) /\ un_name u = "kilometre"%string.
Proof.
  intros k. destruct (example_ok k) as (o & H1 & H2 & H3). exists o.
  split; [auto|]. split; [auto|]. split; [auto|]. split; [simpl; auto|].
  split; [apply metric_prefixes_In; simpl; tauto|].
  destruct (C20_prefixed_unit k env0 (-1023) (example k) o (meter k) Kilo (Some "metre"%string))
      as (_ & H & _); auto.
  - simpl. auto.
  - apply metric_prefixes_In. simpl. tauto.
  - intros a [= <-]. simpl. auto.
Qed.

(** ** C21 *)
(** The units declared by a statement are exactly its variants, in the order: for each prefix and
    then no prefix, each alias and then the name; all dimensions, constants and type names of the
    source are kept, and nothing else is declared. *)
Theorem C21_expansion : forall k (T : template k),
  let S := expand_templates T in
  u_dimensions S = u_dimensions T /\ u_constants S = u_constants T /\
  u_dimension_types S = u_dimension_types T /\ u_quantity_types S = u_quantity_types T /\
  (forall u, In u (u_units S) <-> exists t, In t (u_units T) /\ is_variant t u) /\
  u_units S = flat_map expand (u_units T).
Proof.
  intros k T. cbv zeta. rewrite declared_expand.
  split; [reflexivity|]. split; [reflexivity|]. split; [reflexivity|]. split; [reflexivity|].
  split; [apply declared_units|]. now rewrite <- declared_expand.
Qed.
Print Assumptions C21_expansion.

Theorem C21_variants_in_order : forall k (t : unit_template (ops k)),
  length (expand t) = ((length (ut_prefixes t) + 1) * (length (ut_aliases t) + 1))%nat /\
  forall i j, (i <= length (ut_prefixes t))%nat -> (j <= length (ut_aliases t))%nat ->
    nth_error (expand t) (i * (length (ut_aliases t) + 1) + j) =
      Some (variant t (nth_error (ut_prefixes t) i) (nth_error (ut_aliases t) j)).
Proof.
  intros k t. split; [apply expand_length|]. intros i j Hi Hj.
  rewrite <- expand_one_variant. now apply expand_nth.
Qed.
Print Assumptions C21_variants_in_order.

(** What is generated from an accepted system: one unit for every variant, one constant for every
    constant, one dimension for every dimension, and no others. *)
Theorem C21_generated_names : forall k env (T : template k) o,
  run_unit_system (ops k) env T = Some (o, []) ->
  (forall n, (exists u, In u (df_units o) /\ un_name u = n) <->
     exists t p a, In t (u_units T) /\ chosen (ut_prefixes t) p /\ chosen (ut_aliases t) a /\ n = variant_name t p a) /\
  (forall n, (exists d, In d (df_dimensions o) /\ d_name d = n) <-> exists d, In d (u_dimensions T) /\ de_name d = n) /\
  (forall n, (exists c, In c (df_constants o) /\ c_name c = n) <-> exists c, In c (u_constants T) /\ ce_name c = n) /\
  u_quantity_types T = [df_quantity_type o] /\ u_dimension_types T = [df_dimension_type o].
Proof.
  intros k env T o H.
  destruct (unit_results _ (laws k) env _ o (generated_ok_expand _ T) H) as (U1 & _ & U3).
  pose proof (dimension_results _ (laws k) env _ o (generated_ok_expand _ T) H) as Dr.
  pose proof (constant_results _ (laws k) env _ o (generated_ok_expand _ T) H) as Cr.
  pose proof (type_results _ (laws k) env _ o (generated_ok_expand _ T) H) as Tr.
  rewrite declared_expand in *. split; [|split; [exact Dr|split; [exact Cr|exact Tr]]].
  intros n. split.
  - intros (u & Hu & <-). destruct (U3 u Hu) as (e & He & ->).
    apply declared_units in He as (t & Ht & p & a & Hp & Ha & ->). exists t, p, a. auto.
  - intros (t & p & a & Ht & Hp & Ha & ->). apply (U1 (variant t p a)).
    apply declared_units. exists t. split; [exact Ht|]. exists p, a. auto.
Qed.
Print Assumptions C21_generated_names.

Example C21_applies : length (expand (meter IntegerExponents)) = 34%nat.
Proof. reflexivity. Qed.

(** ** C22 (the parser part, "explicit prefixes are appended", is with the parser) *)
Theorem C22_metric_prefixes : forall skip,
  (forall p, In p (metric_prefixes skip) <-> ~ In p skip) /\
  StronglySorted (fun p q => (si_power q < si_power p)%Z) (metric_prefixes skip).
Proof.
  intros skip. split; [apply metric_prefixes_In|].
  pose proof (metric_prefixes_sorted skip) as S. induction S as [|p l S IH F]; constructor; auto.
  eapply Forall_impl; [|exact F]. intros q. now rewrite !prefix_decimal_si.
Qed.
Print Assumptions C22_metric_prefixes.

(** ** C23 *)
Theorem C23_base_unit : forall k env lo (T : template k) o u d v f,
  good_platform env lo -> literals_ok k T -> run_unit_system (ops k) env T = Some (o, []) ->
  In u (u_units (declared T)) -> base_unit_of u d ->
  denotes_dim k o (ue_name u) v -> denotes_fac k env o (ue_name u) f ->
  f = f64_one /\
  (forall b, v b = if String.eqb b (base_dimension_of d) then 1%Qc else 0%Qc) /\
  (forall x, is_nan 53 1024 x = false -> f64_mul x f = x).
Proof.
  intros k env lo T o u d v f [Hlo Hp] [Hl Hv] Hr Hu Hb Hd Hf. rewrite <- ?declared_expand in *.
  destruct (base_unit_result _ (laws k) env _ (pow_law k env) lo (expand_templates T) o u d v f) as [-> H]; auto; try lia.
  - apply generated_ok_expand.
  - repeat split; auto. intros x Hx. now apply f64_mul_one.
Qed.
Print Assumptions C23_base_unit.

Example C23_applies : forall k, exists o v f,
  run_unit_system (ops k) env0 (example k) = Some (o, []) /\ literals_ok k (example k) /\
  good_platform env0 (-1023) /\ In (expand_one (meter k) None None) (u_units (declared (example k))) /\
  base_unit_of (expand_one (meter k) None None) "Length"%string /\
  denotes_dim k o "meter"%string v /\ denotes_fac k env0 o "meter"%string f.
Proof.
  intros k. rewrite <- ?declared_expand in *. destruct (example_ok k) as (o & H1 & H2 & H3).
  assert (Hx : In (DUnit (expand_one (meter k) None None)) (decls (expand_templates (example k)))).
  { apply expanded_In; simpl; auto. }
  destruct (dim_equations _ (laws k) env0 _ o (generated_ok_expand _ _) (proj2 H2) H1 _ Hx) as [[v Hv] _].
  destruct (fac_equations _ (laws k) env0 (pow k env0) (-1023) _ o (pow_law k env0) ltac:(lia) (proj2 H3)
              (generated_ok_expand _ _) H1 _ Hx ltac:(easy)) as [[f Hf] _].
  exists o, v, f. repeat (split; auto). simpl. tauto. Unshelve.
Qed.

(** ** C24 *)
Theorem C24_dimension_equations : forall k env (T : template k) o,
  literals_ok k T -> run_unit_system (ops k) env T = Some (o, []) ->
  forall x, In x (decls (declared T)) ->
    (exists v, denotes_dim k o (decl_name x) v) /\
    (forall v w, denotes_dim k o (decl_name x) v -> denotes_dim k o (decl_name x) w -> forall b, v b = w b) /\
    (forall v, denotes_dim k o (decl_name x) v ->
               dim_equation (ops k) (laws k) (fun n v => denotes_dim k o n v) x v).
Proof.
  intros k env T o [_ Hv] Hr x Hx. rewrite <- ?declared_expand in *.
  destruct (dim_equations _ (laws k) env _ o (generated_ok_expand _ T) Hv Hr x Hx) as [E1 E2].
  repeat split; auto. intros v w. eapply dim_result_functional; eauto.
Qed.
Print Assumptions C24_dimension_equations.

Theorem C24_factor_equations : forall k env lo (T : template k) o,
  good_platform env lo -> run_unit_system (ops k) env T = Some (o, []) ->
  forall x, In x (decls (declared T)) -> ~ is_dimension _ x ->
    (exists f, denotes_fac k env o (decl_name x) f) /\
    (forall f g, denotes_fac k env o (decl_name x) f -> denotes_fac k env o (decl_name x) g -> f = g) /\
    (forall f, denotes_fac k env o (decl_name x) f ->
               fac_equation (ops k) env (pow k env) (fun n g => denotes_fac k env o n g) x f).
Proof.
  intros k env lo T o [Hlo Hp] Hr x Hx Hd. rewrite <- ?declared_expand in *.
  destruct (fac_equations _ (laws k) env (pow k env) lo _ o (pow_law k env) ltac:(lia) Hp
              (generated_ok_expand _ T) Hr x Hx Hd) as [E1 E2].
  repeat split; auto. intros v w. eapply fac_result_functional; eauto.
Qed.
Print Assumptions C24_factor_equations.

(** The equations determine the values: any assignment satisfying them is the one of the macro. *)
Theorem C24_equations_have_one_solution : forall k env lo (T : template k) o,
  good_platform env lo -> literals_ok k T -> run_unit_system (ops k) env T = Some (o, []) ->
  (forall V : ident -> vec,
     (forall x, In x (decls (declared T)) ->
        dim_equation (ops k) (laws k) (fun n v => forall b, v b = V n b) x (V (decl_name x))) ->
     forall x, In x (decls (declared T)) -> denotes_dim k o (decl_name x) (V (decl_name x))) /\
  (forall F : ident -> f64,
     (forall x, In x (decls (declared T)) ->
        fac_equation (ops k) env (pow k env) (fun n g => g = F n) x (F (decl_name x))) ->
     forall x, In x (decls (declared T)) -> ~ is_dimension _ x ->
        denotes_fac k env o (decl_name x) (F (decl_name x))).
Proof.
  intros k env lo T o [Hlo Hp] [_ Hv] Hr. rewrite <- ?declared_expand in *. split.
  - intros V HV. exact (dim_unique _ (laws k) env _ o V (generated_ok_expand _ T) Hv Hr HV).
  - intros F HF. exact (fac_unique _ (laws k) env (pow k env) lo _ o F (pow_law k env) ltac:(lia) Hp
                          (generated_ok_expand _ T) Hr HF).
Qed.
Print Assumptions C24_equations_have_one_solution.

Example C24_applies : forall k, exists o,
  run_unit_system (ops k) env0 (example k) = Some (o, []) /\ literals_ok k (example k) /\
  good_platform env0 (-1023) /\ length (decls (declared (example k))) = 43%nat.
Proof.
  intros k. rewrite <- ?declared_expand in *. destruct (example_ok k) as (o & H1 & H2 & H3). exists o. repeat (split; auto); apply H3.
Qed.

(** ** C25 *)
Theorem C25_order_independent : forall k env (T1 T2 : template k),
  permuted _ T1 T2 -> unique_names _ (declared T1) ->
  match run_unit_system (ops k) env T1, run_unit_system (ops k) env T2 with
  | Some (o1, ds1), Some (o2, ds2) =>
      df_dimensions o1 = df_dimensions o2 /\ df_units o1 = df_units o2 /\
      df_constants o1 = df_constants o2 /\
      Permutation (df_base_dimensions o1) (df_base_dimensions o2) /\
      (ds1 = [] <-> ds2 = []) /\
      (ds1 = [] -> df_quantity_type o1 = df_quantity_type o2 /\
                   df_dimension_type o1 = df_dimension_type o2)
  | None, None => True
  | _, _ => False
  end.
Proof.
  intros k env T1 T2 P N. rewrite <- ?declared_expand in *. apply (order_independent _ (laws k) env); auto using generated_ok_expand.
  now apply expand_permuted.
Qed.
Print Assumptions C25_order_independent.

Example C25_applies : forall k,
  permuted _ (example k) (example_permuted k) /\ unique_names _ (declared (example k)) /\
  u_units (example k) <> u_units (example_permuted k).
Proof.
  intros k. rewrite <- ?declared_expand in *. split; [|split].
  - split; [apply Permutation_refl|]. split; [apply Permutation_refl|].
    split; [apply Permutation_rev|]. split; [apply Permutation_rev|apply Permutation_refl].
  - destruct (example_ok k) as (o & H1 & _).
    apply wf_names. eapply (accept_iff _ (laws k) env0); eauto using generated_ok_expand.
  - intros E. discriminate E.
Qed.

(** ** C26 *)
Theorem C26_resolved_iff_grounded : forall k env (T : template k) o ds n,
  run_unit_system (ops k) env T = Some (o, ds) ->
  In n (result_names o) <-> grounded (declared T) n.
Proof. intros k env T o ds n. rewrite <- ?declared_expand in *. exact (results_grounded _ env _ o ds n (generated_ok_expand _ T)). Qed.
Print Assumptions C26_resolved_iff_grounded.

Theorem C26_rest_is_reported : forall k env (T : template k) o ds n,
  unique_names _ (declared T) -> all_defined _ (declared T) ->
  run_unit_system (ops k) env T = Some (o, ds) ->
  In (Unresolvable n) ds <->
  In n (map decl_name (decls (declared T))) /\ ~ grounded (declared T) n.
Proof.
  intros k env T o ds n N D H. rewrite <- ?declared_expand in *. split.
  - exact (unresolvable_sound _ env _ o ds n (generated_ok_expand _ T) N H).
  - intros [H1 H2]. exact (unresolvable_complete _ env _ o ds n (generated_ok_expand _ T) N D H H1 H2).
Qed.
Print Assumptions C26_rest_is_reported.

(** Termination: resolution is a total function; with wrapping exponent arithmetic there is no
    panic at all, so every panic of the checked build is an exponent overflow. *)
Theorem C26_terminates : forall env T, run_unit_system (int_exp Wrapping) env T <> None.
Proof. exact run_wrapping_total. Qed.
Print Assumptions C26_terminates.

Example C26_applies : forall k, exists o,
  run_unit_system (ops k) env0 (cyclic k) =
    Some (o, [Unresolvable "a"; Unresolvable "b"; Unresolvable "c"]%string) /\
  unique_names _ (declared (cyclic k)) /\ all_defined _ (declared (cyclic k)).
Proof.
  intros k. rewrite <- ?declared_expand in *. destruct (diags_run k _ _ (cyclic_diags k)) as [o H]. exists o. split; [exact H|]. split.
  - pose proof (systems_unique k) as F. rewrite Forall_forall in F. apply F. simpl; auto.
  - pose proof (systems_defined k) as F. rewrite Forall_forall in F. apply F. simpl; auto.
Qed.

(** ** C27 *)
Theorem C27_accepted_iff_well_formed : forall k env (T : template k) o ds,
  run_unit_system (ops k) env T = Some (o, ds) ->
  ds = [] <-> well_formed (declared T) /\
              (forall x, In x (decls (declared T)) -> annotation_accepted o x).
Proof.
  intros k env T o ds. rewrite <- ?declared_expand in *. exact (accept_iff _ (laws k) env _ o ds (generated_ok_expand _ T)).
Qed.
Print Assumptions C27_accepted_iff_well_formed.

Example C27_applies : forall k,
  well_formed (declared (example k)) /\ ~ well_formed (declared (mixed k)).
Proof.
  intros k. rewrite <- ?declared_expand in *. split.
  - destruct (example_ok k) as (o & H & _).
    now apply (proj1 (C27_accepted_iff_well_formed k env0 _ o [] H)).
  - intros W. destruct (diags_run k _ _ (mixed_diags k)) as [o H].
    assert (E : [KindNotAllowed "a"%string "Length"%string KUnit KDimension] = []); [|discriminate E].
    apply (C27_accepted_iff_well_formed k env0 _ o _ H). split; auto.
    intros x Hx a Ea. exfalso. revert x Hx a Ea.
    assert (N : forall u, In u (u_units (expand_templates (mixed k))) -> ue_annotation u = None).
    { assert (B : forallb (fun u => match ue_annotation u with None => true | _ => false end)
                    (u_units (expand_templates (mixed k))) = true) by (destruct k; vm_compute; reflexivity).
      rewrite forallb_forall in B. intros u Hu. specialize (B u Hu).
      destruct (ue_annotation u); [discriminate|reflexivity]. }
    intros x Hx a Ea. destruct x as [d|u|c]; simpl in Ea; try discriminate.
    + apply (unit_decl (ops k)) in Hx. rewrite (N u Hx) in Ea. discriminate.
    + unfold decls in Hx. apply in_app_iff in Hx as [Hx|Hx].
      * apply in_map_iff in Hx as (? & E & _). discriminate.
      * apply in_app_iff in Hx as [Hx|Hx].
        -- apply in_map_iff in Hx as (? & E & _). discriminate.
        -- easy.
Qed.

(** ** C28 *)
Theorem C28_undefined_reported : forall k env (T : template k) o ds,
  run_unit_system (ops k) env T = Some (o, ds) ->
  (forall x n, In x (decls (declared T)) -> mentions x n ->
     ~ In n (map decl_name (decls (declared T))) ->
     exists m, In (Undefined m) ds /\ mentions x m /\ ~ In m (map decl_name (decls (declared T)))) /\
  (forall n, In (Undefined n) ds ->
     ~ In n (map decl_name (decls (declared T))) /\
     exists x, In x (decls (declared T)) /\ mentions x n).
Proof.
  intros k env T o ds H. rewrite <- ?declared_expand in *. split.
  - intros x n. exact (undefined_complete _ env _ o ds x n H).
  - intros n. exact (undefined_sound _ env _ o ds n H).
Qed.
Print Assumptions C28_undefined_reported.

Example C28_applies : forall k, exists o,
  run_unit_system (ops k) env0 (undefined k) = Some (o, [Undefined "parsec"%string]).
Proof. intros k. exact (diags_run k _ _ (undefined_diags k)). Qed.

(** ** C29 *)
Theorem C29_duplicates_reported : forall k env (T : template k) o ds,
  run_unit_system (ops k) env T = Some (o, ds) ->
  let defined n := count_occ String.string_dec (map decl_name (decls (declared T))) n in
  (all_defined _ (declared T) ->
     forall n, (2 <= defined n)%nat -> In (MultipleDefinitions (repeat n (defined n))) ds) /\
  (forall l, In (MultipleDefinitions l) ds ->
     exists n m, l = repeat n m /\ (2 <= m <= defined n)%nat).
Proof.
  intros k env T o ds H. rewrite <- !declared_expand. intros defined. split.
  - intros D n Hn. exact (duplicates_complete _ env _ o ds n (generated_ok_expand _ T) D H Hn).
  - intros l. exact (duplicates_sound _ env _ o ds l H).
Qed.
Print Assumptions C29_duplicates_reported.

Example C29_applies : forall k, exists o,
  run_unit_system (ops k) env0 (duplicate k) =
    Some (o, [MultipleDefinitions ["millimeter"; "millimeter"]%string]) /\
  all_defined _ (declared (duplicate k)).
Proof.
  intros k. rewrite <- ?declared_expand in *. destruct (diags_run k _ _ (duplicate_diags k)) as [o H]. exists o. split; [exact H|].
  pose proof (systems_defined k) as F. rewrite Forall_forall in F. apply F. simpl; auto.
Qed.

(** ** C30 *)
Theorem C30_kinds : forall k env (T : template k) o ds,
  all_defined _ (declared T) -> unique_names _ (declared T) ->
  run_unit_system (ops k) env T = Some (o, ds) ->
  forall l r kl kr, In (KindNotAllowed l r kl kr) ds <->
    exists x y, In x (decls (declared T)) /\ In y (decls (declared T)) /\
      mentions x (decl_name y) /\ ~ may_mention (decl_kind x) (decl_kind y) /\
      l = decl_name x /\ r = decl_name y /\ kl = decl_kind x /\ kr = decl_kind y.
Proof.
  intros k env T o ds D N H l r kl kr. rewrite <- ?declared_expand in *.
  exact (kinds_exact _ env _ o ds l r kl kr (generated_ok_expand _ T) D N H).
Qed.
Print Assumptions C30_kinds.

Theorem C30_accepted_kinds : forall k env (T : template k) o,
  run_unit_system (ops k) env T = Some (o, []) ->
  forall x y, In x (decls (declared T)) -> In y (decls (declared T)) ->
    mentions x (decl_name y) -> may_mention (decl_kind x) (decl_kind y).
Proof.
  intros k env T o H. apply (C27_accepted_iff_well_formed k env T o [] H). reflexivity.
Qed.
Print Assumptions C30_accepted_kinds.

Example C30_applies : forall k, exists o,
  run_unit_system (ops k) env0 (mixed k) =
    Some (o, [KindNotAllowed "a" "Length" KUnit KDimension]%string) /\
  all_defined _ (declared (mixed k)) /\ unique_names _ (declared (mixed k)).
Proof.
  intros k. rewrite <- ?declared_expand in *. destruct (diags_run k _ _ (mixed_diags k)) as [o H]. exists o. split; [exact H|]. split.
  - pose proof (systems_defined k) as F. rewrite Forall_forall in F. apply F. simpl; auto.
  - pose proof (systems_unique k) as F. rewrite Forall_forall in F. apply F. simpl; auto 6.
Qed.

(** ** C31: the full statement is false *)
Definition C31_statement (k : mode) : Prop := forall env (T : template k) o x a v w,
  run_unit_system (ops k) env T = Some (o, []) -> literals_ok k T ->
  In x (decls (declared T)) -> annotation x = Some a ->
  denotes_dim k o a v -> denotes_dim k o (decl_name x) w -> forall b, v b = w b.

(** [dimension Dimensionless = 1; unit a: Dimensionless = meter;] is accepted. *)
Theorem C31_refuted : forall k, ~ C31_statement k.
Proof.
  intros k S. destruct (accepted_run k _ (false_annotation_accepted k)) as [o H].
  destruct (false_annotation_dims k) as [D1 D2].
  pose proof (run_dims_result _ _ _ _ _ _ D1 H) as R1.
  pose proof (run_dims_result _ _ _ _ _ _ D2 H) as R2.
  assert (E : forall b, vec_of (ops k) (laws k) [] b =
                        vec_of (ops k) (laws k) [("length"%string, e_one (ops k))] b).
  { refine (S env0 _ o (DUnit (expand_one
       (annotated k "a" "Dimensionless" (EVal (nm k "meter"))) None None)%string) "Dimensionless"%string _ _
       H _ _ eq_refl R1 R2).
    - apply template_literals. repeat apply conj.
      + intros t e [<-|[<-|[<-|[]]]] E; try discriminate E. inversion E; subst. simpl. split; [|easy].
        intros c [Hc|[]]; discriminate Hc.
      + intros c [].
      + intros d e [<-|[<-|[<-|[<-|[]]]]] E; try discriminate E; inversion E; subst; easy.
    - apply expanded_In; simpl; auto. }
  specialize (E "length"%string). destruct (l_one _ (laws k)) as [_ E1].
  change (ZQc 0 = l_val (ops k) (laws k) (e_one (ops k))) in E. rewrite E1 in E. now apply ZQc_inj in E.
Qed.
Print Assumptions C31_refuted.

(** What is missing: base dimensions on which the annotation has exponent zero are not compared. *)
Theorem C31_partial : forall k env (T : template k) o x a,
  run_unit_system (ops k) env T = Some (o, []) ->
  In x (decls (declared T)) -> annotation x = Some a ->
  exists v w, denotes_dim k o a v /\ denotes_dim k o (decl_name x) w /\
    forall b, v b <> 0%Qc -> w b = v b.
Proof.
  intros k env T o x a H. rewrite <- ?declared_expand in *. exact (annotation_nonzero _ (laws k) env _ o x a (generated_ok_expand _ T) H).
Qed.
Print Assumptions C31_partial.

(** ** C32: the full statement is false *)
Definition C32_statement (k : mode) : Prop := forall env (T : template k) o ds x a v,
  run_unit_system (ops k) env T = Some (o, ds) -> literals_ok k T ->
  In x (decls (declared T)) -> annotation x = Some a ->
  denotes_dim k o a v -> denotes_dim k o (decl_name x) v -> ~ In (ViolatedAnnotation a) ds.

(** [dimension Angle = Length / Length; unit radian: Angle = 1;] is rejected. *)
Theorem C32_refuted : forall k, ~ C32_statement k.
Proof.
  intros k S. destruct (diags_run k _ _ (true_annotation_rejected k)) as [o H].
  destruct (true_annotation_dims k) as [D1 D2].
  pose proof (run_dims_result _ _ _ _ _ _ D1 H) as R1.
  pose proof (run_dims_result _ _ _ _ _ _ D2 H) as R2.
  eapply (S env0 _ o _ (DUnit (expand_one
     (annotated k "radian" "Angle" (EVal (num k 1 0))) None None)%string) "Angle"%string _ H).
  - apply template_literals. repeat apply conj.
    + intros t e [<-|[<-|[<-|[]]]] E; try discriminate E. inversion E; subst. simpl. split; [|easy].
      intros c [Hc|[]]. inversion Hc. eexists; reflexivity.
    + intros c [].
    + intros d e [<-|[<-|[<-|[<-|[]]]]] E; try discriminate E; inversion E; subst; easy.
  - apply expanded_In; simpl; auto.
  - reflexivity.
  - exact R1.
  - pose proof (resolve_some _ _ _ _ _ H) as (res & d8 & Hi & -> & _).
    eapply (R_dim_ext _ (laws k) env0); [exact Hi|exact R2|].
    intros b. unfold vec_of. cbn [sget fst snd]. destruct (String.eqb b "length"); [|reflexivity].
    symmetry. apply (l_zero _ (laws k)).
  - simpl. auto.
Qed.
Print Assumptions C32_refuted.

(** Proved when no exponent zero is recorded for the annotation [D] (a cancelled exponent, as in
    [Length / Length], is recorded as zero).  Missing: exactly the cancelled exponents. *)
Theorem C32_partial : forall k env (T : template k) o ds x a D,
  run_unit_system (ops k) env T = Some (o, ds) -> literals_ok k T ->
  annotation x = Some a -> In D (df_dimensions o) -> d_name D = a ->
  (forall b e, In (b, e) (d_dims D) -> l_val (ops k) (laws k) e <> 0%Qc) ->
  (exists dx, fields_of o x dx /\
     forall b, vec_of (ops k) (laws k) dx b = vec_of (ops k) (laws k) (d_dims D) b) ->
  annotation_accepted o x.
Proof.
  intros k env T o ds x a D H [_ Hv].
  exact (annotation_true_accepted _ (laws k) env _ o ds x a D (generated_ok_expand _ T) Hv H).
Qed.
Print Assumptions C32_partial.

(** ** C33 *)
Theorem C33_base_units : forall k env (T : template k) o ds,
  run_unit_system (ops k) env T = Some (o, ds) ->
  let S := declared T in
  let base_dimension d := exists b, In b (u_dimensions S) /\ de_name b = d /\ de_rhs b = DefBase tt in
  forall d u,
  (In (BaseUnitForNonBase d u) ds <->
     exists e, In e (u_units S) /\ ue_name e = u /\ base_unit_of e d /\ ~ base_dimension d) /\
  (In (MultipleBaseUnits d u) ds <->
     exists before e after e', u_units S = before ++ e :: after /\ ue_name e = u /\
       base_unit_of e d /\ In e' before /\ base_unit_of e' d /\ base_dimension d).
Proof.
  intros k env T o ds H. rewrite <- !declared_expand. intros S base_dimension d u.
  exact (base_units_exact _ env _ o ds d u (generated_ok_expand _ T) H).
Qed.
Print Assumptions C33_base_units.

Example C33_C35_apply : forall k, exists o,
  run_unit_system (ops k) env0 (bad_base k) =
    Some (o, [MultipleBaseUnits "Length" "foot"; BaseUnitForNonBase "Velocity" "mph";
              NoSymbol "mph"; NoSymbol "s"]%string) /\
  unique_names _ (declared (bad_base k)).
Proof.
  intros k. rewrite <- ?declared_expand in *. destruct (diags_run k _ _ (bad_base_diags k)) as [o H]. exists o. split; [exact H|].
  pose proof (systems_unique k) as F. rewrite Forall_forall in F. apply F. simpl; auto 8.
Qed.

(** ** C34 *)
Theorem C34_symbols : forall k env (T : template k) o ds,
  run_unit_system (ops k) env T = Some (o, ds) ->
  forall s us, In (SymbolMultiple s us) ds <->
    us = map ue_name (filter (fun u => match ue_symbol u with Some t => String.eqb t s | None => false end)
                             (u_units (declared T))) /\
    (2 <= length us)%nat.
Proof.
  intros k env T o ds H s us. rewrite <- ?declared_expand in *. rewrite (symbols_exact _ env _ o ds s us H).
  replace (users_of (ops k) (expand_templates T) s) with
    (map ue_name (filter (fun u => match ue_symbol u with Some t => String.eqb t s | None => false end)
                         (u_units (expand_templates T)))); [reflexivity|].
  unfold users_of. induction (u_units (expand_templates T)) as [|u l IH]; [reflexivity|].
  simpl. destruct (ue_symbol u) as [t|]; [|exact IH].
  destruct (String.eqb t s); simpl; rewrite IH; reflexivity.
Qed.
Print Assumptions C34_symbols.

Example C34_applies : forall k, exists o,
  run_unit_system (ops k) env0 (clash k) = Some (o, [SymbolMultiple "mm" ["millimeter"; "mile"]]%string).
Proof. intros k. exact (diags_run k _ _ (clash_diags k)). Qed.

(** ** C35 *)
Theorem C35_base_units_without_symbol : forall k env (T : template k) o ds,
  unique_names _ (declared T) -> run_unit_system (ops k) env T = Some (o, ds) ->
  forall n, In (NoSymbol n) ds <->
    exists u d, In u (u_units (declared T)) /\ ue_name u = n /\ base_unit_of u d /\
      ue_symbol u = None /\ grounded (declared T) n.
Proof.
  intros k env T o ds N H n. rewrite <- ?declared_expand in *. exact (no_symbol_exact _ env _ o ds n (generated_ok_expand _ T) N H).
Qed.
Print Assumptions C35_base_units_without_symbol.

(** ** C36 *)
Theorem C36_sorted : forall k env (T : template k) o ds,
  run_unit_system (ops k) env T = Some (o, ds) ->
  StronglySorted slt (map d_name (df_dimensions o)) /\
  StronglySorted slt (map un_name (df_units o)) /\
  StronglySorted slt (map c_name (df_constants o)).
Proof. intros k env T o ds H. exact (results_sorted _ env _ o ds H). Qed.
Print Assumptions C36_sorted.

(** The exponent maps are hash maps: multiplying dimensions visits the right operand's entries in
    any order. *)
Theorem C36_hash_order_irrelevant : forall k (a : bdims (ops k)) entries1 entries2,
  wf a -> NoDup (map fst entries1) -> Permutation entries1 entries2 ->
  bd_mul_entries (ops k) a entries1 = bd_mul_entries (ops k) a entries2.
Proof. intros k a e1 e2. exact (bd_mul_order (ops k) a e1 e2). Qed.
Print Assumptions C36_hash_order_irrelevant.

Example C36_applies :
  let a := sinsert "length"%string 1%Z [] in
  let e1 := [("time", 1); ("length", 2)]%Z%string in
  wf a /\ NoDup (map fst e1) /\ bd_mul_entries (int_exp Checked) a e1 = Some [("length", 3); ("time", 1)]%Z%string.
Proof.
  split; [apply sinsert_wf; constructor|]. split; [|reflexivity].
  apply nodupb_NoDup. reflexivity.
Qed.
