(** * How often an error is reported: C69 *)
From Coq Require Import String List Bool ZArith Lia Qcanon.
From Verif Require Import MachineInt Ratio F64 Magnitude Exponent ExponentFacts SMap Expression
  DimensionMath DimensionMathFacts Types PrefixSpec ExpansionSpec Snake Resolve ResolveLoop ResolveChecks
  SystemSpec ResolveFacts ResolveAccept ResolveEquations ResolveReports Expansion Setting SystemFacts
  ExampleSystems PropertiesSystem CodegenDimension CodegenDimensionFacts.
Import ListNotations.
Close Scope Q_scope. Close Scope Qc_scope.
Local Open Scope string_scope.
Local Open Scope list_scope.

(** The statements as written: every unit once, under its own name. *)
Definition written {X} (T : unresolved X (unit_template X)) : list (decl X) :=
  map (@DDimension X) (u_dimensions T) ++ map (fun t => DUnit (variant t None None)) (u_units T) ++
  map (@DConstant X) (u_constants T).
(** [xs] is obtained from [l] by leaving out elements. *)
Inductive subseq {A} : list A -> list A -> Prop :=
| sub_nil : subseq [] []
| sub_skip a xs l : subseq xs l -> subseq xs (a :: l)
| sub_take a xs l : subseq xs l -> subseq (a :: xs) (a :: l).
Lemma subseq_app {A} (a b c d : list A) : subseq a b -> subseq c d -> subseq (a ++ c) (b ++ d).
Proof. induction 1; simpl; intros Hc; [exact Hc|apply sub_skip; auto|apply sub_take; auto]. Qed.

Definition undefined_reports (n : ident) (ds : list diag) : nat :=
  length (filter (fun d => match d with Undefined m => String.eqb m n | _ => false end) ds).
Definition violation_reports (a : ident) (ds : list diag) : nat :=
  length (filter (fun d => match d with ViolatedAnnotation b => String.eqb b a | _ => false end) ds).

Section Count.
Context {X : exp_ops} (n : ident) (D : list ident).
Notation is_u := (fun d => match d with Undefined m => String.eqb m n | _ => false end).
Definition report (x : decl X) : list diag :=
  match first_undefined X D (item_of X x) with Some m => [Undefined m] | None => [] end.
Lemma report_subseq l : exists xs, subseq xs l /\ Forall (fun x => mentions x n) xs /\
  length (filter is_u (flat_map report l)) = length xs.
Proof.
  induction l as [|x l (xs & S1 & F & E)]; [exists []; repeat constructor|].
  cbn [flat_map]. rewrite filter_app, app_length. unfold report at 1.
  destruct (first_undefined X D (item_of X x)) as [m|] eqn:Em; cbn [filter].
  - destruct (String.eqb_spec m n) as [->|].
    + exists (x :: xs). apply first_undefined_some in Em as [Hm _].
      split; [now constructor|]. split; [constructor; [now apply mentions_item|exact F]|]. simpl. now rewrite E.
    + exists xs. split; [now constructor|]. auto.
  - exists xs. split; [now constructor|]. auto.
Qed.
Lemma flat_map_nil' {A B} (f : A -> list B) l : (forall x, In x l -> f x = []) -> flat_map f l = [].
Proof. induction l as [|a l IH]; intros H; [easy|]. simpl. rewrite H by now left. apply IH. intros; apply H. now right. Qed.
Lemma occurs_scaled {C} (c : C) m s :
  occurs (X := X) m (EBin (EVal (FVal (Concrete c))) (FVal (Other s)) OMul) -> m = s.
Proof.
  rewrite <- others_occurs. cbn. intros [H|[]]. now symmetry.
Qed.
Lemma report_variant t p a : In (ut_name t) D -> ~ (p = None /\ a = None) ->
  report (DUnit (variant t p a)) = [].
Proof.
  intros HD N. unfold report. replace (first_undefined X D (item_of X (DUnit (variant t p a)))) with (@None ident); [easy|].
  symmetry. apply first_undefined_none. intros m Hm. apply (mentions_item X (DUnit (variant t p a))) in Hm.
  assert (m = ut_name t); [|now subst].
  destruct p as [p|], a as [a|]; try (exfalso; apply N; split; reflexivity);
    cbn [mentions variant ue_definition variant_definition] in Hm; exact (occurs_scaled _ _ _ Hm).
Qed.
Lemma report_units us : (forall t, In t us -> In (ut_name t) D) ->
  flat_map report (map (@DUnit X) (flat_map (fun t => flat_map (fun p => map (variant t p) (options (ut_aliases t)))
     (options (ut_prefixes t))) us)) = flat_map report (map (fun t => DUnit (variant t None None)) us).
Proof.
  induction us as [|t us IH]; intros H; [easy|]. cbn [flat_map map].
  rewrite map_app, flat_map_app, IH by (intros; apply H; now right). f_equal.
  assert (HD : In (ut_name t) D) by (apply H; now left). clear IH H.
  unfold options at 2. rewrite flat_map_app, map_app, flat_map_app.
  rewrite flat_map_nil'.
  - cbn [flat_map app]. rewrite app_nil_r. unfold options. rewrite map_app, map_app, flat_map_app.
    rewrite flat_map_nil'; [cbn [map flat_map app]; now rewrite app_nil_r|].
    intros x Hx. rewrite !map_map in Hx. apply in_map_iff in Hx as (a & <- & _).
    apply report_variant; [exact HD|]. intros [_ E]. discriminate E.
  - intros x Hx. apply in_map_iff in Hx as (u & <- & Hu). apply in_flat_map in Hu as (p & Hp & Hu).
    apply in_map_iff in Hp as (q & <- & _). apply in_map_iff in Hu as (a & <- & _).
    apply report_variant; [exact HD|]. intros [E _]. discriminate E.
Qed.
End Count.

(** An error in a statement is reported once per statement: for no name are there more reports of a
    violated annotation than statements annotated with it, and likewise for undefined names. *)
Definition C69_statement (k : mode) : Prop := forall env (T : template k) o ds,
  unique_names _ (declared T) -> run_unit_system (ops k) env T = Some (o, ds) ->
  (forall n, (exists xs, subseq xs (written T) /\ Forall (fun x => mentions x n) xs /\
     undefined_reports n ds = length xs)) /\
  (forall a, (exists xs, subseq xs (written T) /\ Forall (fun x => annotation x = Some a) xs /\
     violation_reports a ds = length xs)).

(** The undefined names: as many reports as statements mentioning the name (the first undefined name of
    each statement is reported), whatever prefixes and aliases the units have.  Missing: annotations
    (false, see below), and the definitions that cannot be resolved because of a cycle. *)
Theorem C69_undefined_once_partial : forall k env (T : template k) o ds n,
  run_unit_system (ops k) env T = Some (o, ds) ->
  exists xs, subseq xs (written T) /\ Forall (fun x => mentions x n) xs /\ undefined_reports n ds = length xs.
Proof.
  intros k env T o ds n R. apply resolve_some in R as (res & d8 & Hres & -> & ->).
  set (Sx := expand_templates T) in *.
  assert (E : undefined_reports n (diags_before (ops k) Sx ++ d8 ++ check_type_annotations (ops k) res
             ++ check_for_base_units_without_symbol (ops k) (get_units (ops k) res)) =
           undefined_reports n (snd (filter_undefined (ops k) (items_of (ops k) Sx)))).
  { unfold undefined_reports, diags_before.
    assert (Z : forall l, (forall d, In d l -> match d with Undefined _ => False | _ => True end) ->
                filter (fun d => match d with Undefined m => String.eqb m n | _ => false end) l = []).
    { induction l as [|d l IH]; intros H; [easy|]. simpl. rewrite IH by (intros; apply H; now right).
      specialize (H d (or_introl eq_refl)). destruct d; easy. }
    rewrite !filter_app.
    rewrite (Z (snd (get_single_ident (u_quantity_types Sx) _ _))), (Z (snd (get_single_ident (u_dimension_types Sx) _ _))),
      (Z (check_invalid_base_units _ _)), (Z (check_multiply_defined_symbols _)),
      (Z (filter_multiply_defined _ _)), (Z (check_kinds_in_definitions _ _)), (Z d8), (Z (check_type_annotations _ _)),
      (Z (check_for_base_units_without_symbol _ _)).
    - rewrite !app_nil_r. reflexivity.
    - intros d H. apply no_symbol_emits in H as [? ->]. exact I.
    - intros d H. apply annotations_emit in H as [[? ->]|[[? ->]|[? [? ->]]]]; exact I.
    - intros d H. eapply loop_emits in H as [? ->]; [exact I|exact Hres].
    - intros d H. apply kinds_report in H as (? & ? & ? & _ & _ & _ & _ & ->). exact I.
    - intros d H. apply duplicates_report in H as (? & -> & _). exact I.
    - intros d H. apply symbols_report in H as (? & -> & _). exact I.
    - intros d H. apply base_units_report in H as (? & ? & ? & ? & _ & _ & [[_ ->]|(_ & _ & ->)]); exact I.
    - intros d H. apply get_single_ident_emits in H as [->|[? ->]]; exact I.
    - intros d H. apply get_single_ident_emits in H as [->|[? ->]]; exact I. }
  rewrite E. unfold undefined_reports, filter_undefined. cbn [snd].
  rewrite names_of_items, items_of_decls.
  set (D := map decl_name (decls Sx)).
  assert (F : flat_map (fun i => match first_undefined (ops k) D i with Some n => [Undefined n] | None => [] end)
                (map (item_of (ops k)) (decls Sx)) = flat_map (report D) (written T)).
  { rewrite flat_map_concat_map, map_map, <- flat_map_concat_map.
    change (fun x => match first_undefined (ops k) D (item_of (ops k) x) with Some n0 => [Undefined n0] | None => [] end)
      with (@report (ops k) D).
    assert (HD : forall t, In t (u_units T) -> In (ut_name t) D).
    { intros t Ht. unfold D, Sx. rewrite declared_expand.
      apply in_map_iff. exists (DUnit (variant t None None)). split; [reflexivity|].
      apply (unit_decl (ops k)), declared_units. exists t. split; [exact Ht|].
      exists None, None. repeat split. }
    clearbody D. unfold decls, written. rewrite !flat_map_app. unfold Sx. rewrite declared_expand.
    cbn [declared u_dimensions u_units u_constants]. f_equal. f_equal.
    now apply report_units. }
  rewrite F. apply report_subseq.
Qed.
Print Assumptions C69_undefined_once_partial.

(** No variant of a unit that mentions an undefined name is reported as unresolvable. *)
Theorem C69_variants_silent_partial : forall k env (T : template k) o ds t u n,
  unique_names _ (declared T) -> run_unit_system (ops k) env T = Some (o, ds) ->
  In t (u_units T) -> is_variant t u -> mentions (DUnit (variant t None None)) n ->
  ~ In n (map decl_name (decls (declared T))) -> ~ In (Unresolvable (ue_name u)) ds.
Proof.
  intros k env T o ds t u n N R Ht Hu Hm Hn H. rewrite <- declared_expand in N, Hn.
  apply resolve_some in R as (res & d8 & Hres & -> & ->).
  apply (in_part _ env (expand_templates T) res d8) in H; auto; cbv beta iota in H.
  apply (reported_unresolvable _ env _ _ _ (U4_nodup _ _ N) Hres) in H as (i & Hi & _ & E).
  injection E as E.
  set (Sx := expand_templates T) in *.
  assert (In1 : forall v, is_variant t v -> In (DUnit v) (decls Sx)).
  { intros v Hv. apply (unit_decl (ops k)). unfold Sx. rewrite declared_expand. apply declared_units. eauto. }
  assert (Own : ~ In (ut_name t) (map it_ident (U1 (ops k) Sx))).
  { intros Hin. apply in_map_iff in Hin as (j & Ej & Hj).
    pose proof Hj as Hj'. apply U1_sub in Hj'. rewrite items_of_decls in Hj'. apply in_map_iff in Hj' as (y & <- & Hy).
    rewrite ident_of_item in Ej.
    assert (y = DUnit (variant t None None)).
    { apply (nodup_decl _ Sx); auto. apply In1. exists None, None. repeat split. }
    subst y. unfold U1, filter_undefined in Hj. cbn [fst] in Hj. apply filter_In in Hj as [_ Hj].
    destruct (first_undefined _ _ _) eqn:Ef; [discriminate|]. rewrite first_undefined_none in Ef.
    apply Hn. rewrite <- names_of_items. apply Ef. now apply mentions_item. }
  pose proof Hi as Hi'. apply U4_sub in Hi'. rewrite items_of_decls in Hi'. apply in_map_iff in Hi' as (y & <- & Hy).
  rewrite ident_of_item in E.
  assert (y = DUnit u) by (apply (nodup_decl _ Sx); auto). subst y.
  unfold U4, U3, U2 in Hi. apply filter_auto_In in Hi as [Hi _]. apply filter_auto_In in Hi as [Hi _].
  apply filter_auto_In in Hi as [Hi Hs].
  destruct Hu as (p & a & _ & _ & ->).
  assert (C : (p = None /\ a = None) \/ source (item_of (ops k) (DUnit (variant t p a))) = Some (ut_name t)).
  { unfold source. cbn [item_of item_of_unit it_type variant ue_autogenerated_from]. destruct p, a; auto. }
  destruct C as [[-> ->]|C].
  - apply Own. apply in_map_iff. eexists. split; [|exact Hi]. rewrite ident_of_item. reflexivity.
  - rewrite C in Hs. now apply Own.
Qed.
Print Assumptions C69_variants_silent_partial.

(** [#[metric_prefixes] unit a: Time = meter]: seventeen reports of the same violated annotation. *)
Definition violating k : template k := with_units k
  [meter k; second k; {| ut_name := "a"; ut_symbol := None; ut_aliases := []; ut_prefixes := metric_prefixes [];
     ut_annotation := Some "Time"; ut_definition := DefExpr (EVal (nm k "meter")) |}]%string.
Lemma violating_reports k : exists o ds, run_unit_system (ops k) env0 (violating k) = Some (o, ds) /\
  violation_reports "Time" ds = 17.
Proof.
  assert (B : match run_unit_system (ops k) env0 (violating k) with
              | Some (_, ds) => Nat.eqb (violation_reports "Time" ds) 17 | None => false end = true)
    by (destruct k; vm_compute; reflexivity).
  destruct (run_unit_system (ops k) env0 (violating k)) as [[o ds]|]; [|discriminate].
  exists o, ds. split; [reflexivity|]. now apply Nat.eqb_eq.
Qed.
Theorem C69_refuted : forall k, ~ C69_statement k.
Proof.
  intros k H. destruct (violating_reports k) as (o & ds & R & V).
  destruct (H env0 (violating k) o ds) as [_ A]; [|exact R|].
  - assert (B : nodupb (map decl_name (decls (declared (violating k)))) = true)
      by (destruct k; vm_compute; reflexivity).
    now apply nodupb_iff.
  - destruct (A "Time"%string) as (xs & S1 & F & E). rewrite V in E.
    assert (L : forall (a b : list (decl (ops k))), subseq a b -> Forall (fun x => annotation x = Some "Time"%string) a ->
        length a <= length (filter (fun x => match annotation x with Some s => String.eqb s "Time" | None => false end) b)).
    { induction 1 as [|x a b S2 IH|x a b S2 IH]; intros Fa; simpl; [lia| |].
      - specialize (IH Fa). destruct (match annotation x with Some s => String.eqb s "Time" | None => false end); simpl; lia.
      - inversion Fa as [|? ? Hx Fa']; subst. rewrite Hx. simpl. specialize (IH Fa'). lia. }
    specialize (L _ _ S1 F). rewrite <- E in L.
    assert (C : length (filter (fun x => match annotation x with Some s => String.eqb s "Time" | None => false end)
                  (written (violating k))) = 1) by (destruct k; reflexivity).
    rewrite C in L. lia.
Qed.
Print Assumptions C69_refuted.

(** [#[metric_prefixes] #[alias(b)] unit a = 3 parsec]: one report, of [parsec]. *)
Definition silent k : template k := with_units k
  [meter k; second k; {| ut_name := "a"; ut_symbol := None; ut_aliases := ["b"]; ut_prefixes := metric_prefixes [];
     ut_annotation := Some "Time"; ut_definition := DefExpr (EBin (EVal (num k 3 0)) (nm k "parsec") OMul) |}]%string.
Example C69_applies : forall k, exists o t u,
  run_unit_system (ops k) env0 (silent k) = Some (o, [Undefined "parsec"%string]) /\
  unique_names _ (declared (silent k)) /\ In t (u_units (silent k)) /\ is_variant t u /\
  ue_name u = "kilob"%string /\ mentions (DUnit (variant t None None)) "parsec"%string.
Proof.
  intros k.
  assert (B : match run_unit_system (ops k) env0 (silent k) with
              | Some (_, [Undefined m]) => String.eqb m "parsec" | _ => false end = true)
    by (destruct k; vm_compute; reflexivity).
  destruct (run_unit_system (ops k) env0 (silent k)) as [[o [|[] [|]]]|]; try discriminate B.
  apply String.eqb_eq in B. subst.
  eexists o, _, (variant _ (Some Kilo) (Some "b"%string)).
  split; [reflexivity|]. split; [|split; [right; right; now left|split; [|split; [reflexivity|]]]].
  - assert (B : nodupb (map decl_name (decls (declared (silent k)))) = true)
      by (destruct k; vm_compute; reflexivity).
    now apply nodupb_iff.
  - exists (Some Kilo), (Some "b"%string). split; [|split; [now left|reflexivity]].
    cbn [chosen ut_prefixes]. apply metric_prefixes_In. easy.
  - cbn [mentions variant ue_definition variant_definition ut_definition]. apply occ_rhs, occ_name.
Qed.
