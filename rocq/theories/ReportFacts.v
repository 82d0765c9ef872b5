(** * What is reported about a well-formed system: exactly its unsatisfied annotations *)
From Coq Require Import String List Bool ZArith QArith Qcanon Lia.
From Verif Require Import MachineInt Ratio F64 Magnitude Exponent ExponentFacts SMap Snake Expression DimensionMath DimensionMathFacts Types
  ExpansionSpec Resolve ResolveLoop ResolveChecks SystemSpec ResolveFacts ResolveEquations ResolveAccept ResolveReports Expansion Setting SystemFacts RemovalFacts
  AnnotationFacts.
Import ListNotations.
Close Scope Q_scope. Close Scope Qc_scope.
Local Open Scope list_scope.

(** ** Specification: the report an annotation [a] that is not satisfied gives rise to. *)
Inductive annotation_report {X} (S : unresolved X (unit_entry X)) (a : ident) : diag -> Prop :=
| report_undefined : ~ In a (map decl_name (decls S)) -> annotation_report S a (UndefinedAnnotation a)
| report_kind y : In y (decls S) -> decl_name y = a -> decl_kind y <> KDimension ->
    annotation_report S a (WrongTypeInAnnotation a (decl_kind y))
| report_violated d : In d (u_dimensions S) -> de_name d = a -> annotation_report S a (ViolatedAnnotation a).

(** A report about an annotation. *)
Definition about_annotation (d : diag) : bool :=
  match d with UndefinedAnnotation _ | WrongTypeInAnnotation _ _ | ViolatedAnnotation _ => true | _ => false end.

(** If nothing else than annotations is complained about, the system is well formed. *)
Lemma well_formed_reports (X : exp_ops) (env : fenv) (S : unresolved X (unit_entry X)) o ds :
  generated_ok X S -> resolve X env S = Some (o, ds) -> forallb about_annotation ds = true -> well_formed S.
Proof.
  intros G R H. apply resolve_some in R as (res & d8 & Hres & -> & ->). unfold diags_before in H.
  pose proof (resolved_wf X env _ _ _ Hres) as W.
  rewrite !forallb_app, !andb_true_iff in H.
  assert (Z : forall l, forallb about_annotation l = true -> (forall d, In d l -> about_annotation d = false) -> l = []).
  { intros [|d l] F E; [reflexivity|]. cbn in F. rewrite (E d (or_introl eq_refl)) in F. discriminate F. }
  destruct H as ((Dq & Dd & Db & Ds & Du & Dm & Dk) & D8 & _ & Dn).
  apply Z in Dq; [|intros d E; apply get_single_ident_emits in E as [->|[? ->]]; reflexivity].
  apply Z in Dd; [|intros d E; apply get_single_ident_emits in E as [->|[? ->]]; reflexivity].
  apply Z in Db; [|intros d E; apply base_units_report in E as (? & ? & ? & ? & _ & _ & [[_ ->]|(_ & _ & ->)]); reflexivity].
  apply Z in Ds; [|intros d E; apply symbols_report in E as (? & -> & _); reflexivity].
  apply Z in Du; [|intros d E; apply undefined_report in E as (? & ? & _ & _ & ->); reflexivity].
  apply Z in Dm; [|intros d E; apply duplicates_report in E as (? & -> & _); reflexivity].
  apply Z in Dk; [|intros d E; apply kinds_report in E as (? & ? & ? & _ & _ & _ & _ & ->); reflexivity].
  apply Z in D8; [|intros d E; eapply loop_emits in E as [? ->]; [reflexivity|exact Hres]].
  apply Z in Dn; [|intros d E; apply no_symbol_emits in E as [? ->]; reflexivity].
  destruct (U_defined X S G Du) as (E2 & E3 & E4).
  rewrite E2 in Dm. apply duplicates_nil in Dm. pose proof Dm as N. rewrite names_of_items in N.
  assert (Gr : forall x, In x (decls S) -> grounded S (decl_name x)).
  { intros x Hx. apply igrounded_iff. rewrite <- ident_of_item. rewrite E4 in Hres.
    eapply no_report_all_grounded; eauto. rewrite items_of_decls. now apply in_map. }
  apply base_units_nil in Db as [Db1 Db2]; auto.
  constructor; auto.
  + now apply get_single_ident_nil in Dq.
  + now apply get_single_ident_nil in Dd.
  + intros x n Hx Hm. rewrite <- names_of_items. rewrite undefined_nil in Du.
    apply (Du (item_of X x)); [rewrite items_of_decls; now apply in_map|]. now apply mentions_item.
  + intros x y Hx Hy Hm. rewrite E3 in Dk. rewrite kinds_nil in Dk by auto.
    apply kind_allowed_iff. rewrite <- !kind_of_item. apply Dk.
    * rewrite items_of_decls. now apply in_map.
    * rewrite items_of_decls. now apply in_map.
    * apply mentions_item. now rewrite ident_of_item.
  + now apply symbols_unique.
  + intros u dim Hu Hb Hs. apply unit_decl in Hu. pose proof (Gr _ Hu) as Hg. apply (resolved_names X env S res d8 _ G Hres) in Hg.
    apply sget_keys in Hg as [r Hr].
    destruct (fields_of_entry X env S res d8 _ _ r N Hres Hu eq_refl Hr) as [Ei _].
    unfold base_unit_of in Hb. unfold check_for_base_units_without_symbol in Dn. rewrite flat_map_nil in Dn.
    specialize (Dn {| un_name := ue_name u; un_dims := dm_dims (ri_dims r);
       un_mag := dm_mag (ri_dims r); un_symbol := ue_symbol u;
       un_is_base := match ue_definition u with DefBase _ => true | DefExpr _ => false end |}).
    simpl in Dn. rewrite Hb, Hs in Dn. discriminate Dn.
    apply get_units_In; auto. exists (ue_name u), r, u. rewrite Ei, Hb, Hs. auto.
Qed.

Section Reports.
Context (X : exp_ops) (L : exp_laws X) (env : fenv).
Context (S : unresolved X (unit_entry X)) (o : defs X) (ds : list diag).
Hypothesis G : generated_ok X S.
Hypothesis R : resolve X env S = Some (o, ds).
Hypothesis WF : well_formed S.

Lemma only_annotations : exists res d8, resolve_items X env (U4 X S) = Some (res, d8) /\ o = out_of X S res /\
  ds = check_type_annotations X res.
Proof.
  destruct (well_formed_all X env S o ds G WF R) as (res & d8 & Hres & Ho & Al).
  exists res, d8. split; [exact Hres|]. split; [exact Ho|].
  apply resolve_some in R as (res' & d8' & Hres' & _ & ->).
  assert (res' = res /\ d8' = d8) as [-> ->] by (rewrite Hres in Hres'; injection Hres' as <- <-; auto).
  pose proof (resolved_wf X env _ _ _ Hres) as W.
  destruct WF as [Wq Wd Wn Wdef Wg Wk Wb Wbu Ws Wbs].
  assert (Du : snd (filter_undefined X (items_of X S)) = []).
  { apply undefined_nil. intros i n Hi Hn. rewrite items_of_decls in Hi.
    apply in_map_iff in Hi as (x & <- & Hx). rewrite names_of_items.
    apply (Wdef x); auto. now apply mentions_item. }
  destruct (U_defined X S G Du) as (E2 & E3 & E4).
  assert (Nit : NoDup (map it_ident (items_of X S))) by now rewrite names_of_items.
  apply (get_single_ident_nil _ "quantity type" "Quantity") in Wq.
  apply (get_single_ident_nil _ "dimension type" "Dimension") in Wd.
  assert (Hb : check_invalid_base_units (u_units S) (filter is_base_dimension (u_dimensions S)) = [])
    by (apply base_units_nil; auto).
  assert (Hs : check_multiply_defined_symbols (u_units S) = []) by now apply symbols_unique.
  assert (Hm : filter_multiply_defined X (U2 X S) = []).
  { rewrite E2. now apply duplicates_nil. }
  assert (Hk : check_kinds_in_definitions X (U3 X S) = []).
  { rewrite E3. apply kinds_nil; auto. intros lhs rhs Hl Hr Ho'.
    rewrite items_of_decls in Hl, Hr. apply in_map_iff in Hl as (x & <- & Hx).
    apply in_map_iff in Hr as (y & <- & Hy). rewrite !kind_of_item. apply kind_allowed_iff.
    apply Wk; auto. apply mentions_item. now rewrite <- ident_of_item. }
  assert (H8 : d8 = []).
  { rewrite E4 in Hres. eapply all_grounded_no_report; eauto. intros i Hi.
    rewrite items_of_decls in Hi. apply in_map_iff in Hi as (x & <- & Hx).
    apply igrounded_iff. rewrite ident_of_item. auto. }
  assert (Hbs : check_for_base_units_without_symbol X (get_units X res) = []).
  { unfold check_for_base_units_without_symbol. rewrite flat_map_nil.
    intros y Hy. apply get_units_In in Hy as (n & r & u & Hr & Et & ->); auto. simpl.
    destruct (entry_decl X env _ _ _ _ _ Hres Hr) as (x & Hx & Ei & Nx).
    rewrite Ei in Et. apply item_of_type_unit in Et. subst x.
    destruct (ue_definition u) as [dim|e] eqn:Ed; auto.
    destruct (ue_symbol u) as [s|] eqn:Es; auto. exfalso.
    apply (Wbs u dim); auto. now apply unit_decl. }
  unfold diags_before. rewrite Wq, Wd, Hb, Hs, Du, Hm, Hk, H8, Hbs. cbn [app]. now rewrite app_nil_r.
Qed.

Definition unsatisfied (x : decl X) : Prop := exists a, annotation x = Some a /\ ~ annotation_fits X L S o x a.

Hypothesis V : exponents_valid X L S.

(** The check of one entry. *)
Lemma check_one res d8 x r : resolve_items X env (U4 X S) = Some (res, d8) -> o = out_of X S res ->
  In x (decls S) -> sget (decl_name x) res = Some r -> ri_item r = item_of X x ->
  (check_annotation X res r = [] /\ ~ unsatisfied x) \/
  (exists a d, annotation x = Some a /\ check_annotation X res r = [d] /\ annotation_report S a d /\ unsatisfied x).
Proof.
  intros Hres Ho Hx Er Ir. pose proof (resolved_wf X env _ _ _ Hres) as W.
  destruct (well_formed_all X env S o ds G WF R) as (res' & d8' & Hres' & _ & Al).
  assert (res' = res) by (rewrite Hres in Hres'; injection Hres' as <- <-; auto). subst res'. clear Hres' d8'.
  unfold check_annotation. rewrite Ir, annotation_of_item.
  destruct (annotation x) as [a|] eqn:Ha.
  2: { left. split; [reflexivity|]. intros (a & Ea & _). congruence. }
  pose proof (annotation_exactly X L env S o ds G V R x a WF Hx Ha) as AE.
  assert (Un : ~ annotation_accepted o x -> unsatisfied x).
  { intros N. exists a. split; [exact Ha|]. intros F. apply N. now apply AE. }
  assert (Nu : annotation_accepted o x -> ~ unsatisfied x).
  { intros N (a' & Ea & F). assert (a' = a) by congruence. subst a'. apply F. now apply AE. }
  assert (Wr : wf (dm_dims (ri_dims r))).
  { destruct (resolved_entry X env _ _ _ _ _ Hres Er) as (_ & _ & De). apply (iden_incl X env _ (items_of X S)) in De; [|apply U4_sub]. eapply iden_wf; eauto. }
  assert (Fx : forall dx, fields_of o x dx <-> dx = dm_dims (ri_dims r)).
  { intros dx. rewrite Ho. exact (proj2 (fields_of_entry X env S res d8 x _ r (wf_names _ _ WF) Hres Hx eq_refl Er) dx). }
  destruct (sget a res) as [an|] eqn:Ea.
  2: { right. exists a, (UndefinedAnnotation a). split; [reflexivity|]. split; [reflexivity|]. split.
       - constructor. intros Hin. apply in_map_iff in Hin as (y & Ny & Hy). destruct (Al y Hy) as (ry & Ey & _). congruence.
       - apply Un. intros A. destruct (A a Ha) as (D & dx & HD & ND & _). rewrite Ho in HD. cbn [out_of df_dimensions] in HD.
         apply (get_dimensions_In X _ _ W) in HD as (n & ra & d & Hra & Ta & ->). cbn in ND.
         destruct (entry_decl X env _ _ _ _ _ Hres Hra) as (y & Hy & Ey & Ny). rewrite Ey in Ta. apply item_of_type_dim in Ta. subst y.
         cbn in Ny. congruence. }
  destruct (entry_decl X env _ _ _ _ _ Hres Ea) as (y & Hy & Ey & Ny). rewrite Ey, kind_of_item.
  assert (Acc : decl_kind y <> KDimension -> ~ annotation_accepted o x).
  { intros K A. destruct (A a Ha) as (D & dx & HD & ND & _). rewrite Ho in HD. cbn [out_of df_dimensions] in HD.
    apply (get_dimensions_In X _ _ W) in HD as (n & ra & d & Hra & Ta & ->). cbn in ND.
    destruct (entry_decl X env _ _ _ _ _ Hres Hra) as (z & Hz & Ez & Nz). rewrite Ez in Ta. apply item_of_type_dim in Ta. subst z.
    cbn in Nz. apply K. assert (DDimension d = y); [|now subst y].
    apply (same_decl X S); auto; [apply (wf_names _ _ WF)|]. cbn. congruence. }
  assert (Rk : decl_kind y <> KDimension -> annotation_report S a (WrongTypeInAnnotation a (decl_kind y))).
  { intros K. now apply report_kind. }
  destruct y as [D|u|c].
  - cbn [decl_kind]. destruct (bd_eq X (dm_dims (ri_dims an)) (dm_dims (ri_dims r))) eqn:Eb.
    + left. split; [reflexivity|]. apply Nu. intros a' Ha'. assert (a' = a) by congruence. subst a'.
      exists {| d_name := de_name D; d_dims := dm_dims (ri_dims an) |}, (dm_dims (ri_dims r)).
      split; [|split; [|split]].
      * rewrite Ho. cbn [out_of df_dimensions]. apply get_dimensions_In; auto. exists a, an, D. rewrite Ey. auto.
      * exact Ny.
      * now apply Fx.
      * simpl. apply bd_eq_iff; auto.
    + right. exists a, (ViolatedAnnotation a). split; [reflexivity|]. split; [reflexivity|]. split.
      * apply (report_violated S a D); [|exact Ny]. unfold decls in Hy. rewrite !in_app_iff, !in_map_iff in Hy.
        destruct Hy as [(z & E & Hz)|[(z & E & _)|(z & E & _)]]; [|discriminate E|discriminate E]. now assert (z = D) by congruence; subst z.
      * apply Un. intros A. destruct (A a Ha) as (D' & dx & HD & ND & Hdx & Hsub). apply Fx in Hdx. subst dx.
        rewrite Ho in HD. cbn [out_of df_dimensions] in HD. apply get_dimensions_In in HD as (n' & an' & E' & Ga & Et & ->); auto. cbn in *.
        destruct (entry_decl X env _ _ _ _ _ Hres Ga) as (z & Hz & Ez & Nz). rewrite Ez in Et. apply item_of_type_dim in Et. subst z.
        cbn in Nz. assert (an' = an) by congruence. subst an'.
        assert (bd_eq X (dm_dims (ri_dims an)) (dm_dims (ri_dims r)) = true) by (apply bd_eq_iff; auto). congruence.
  - assert (K : decl_kind (DUnit u) <> KDimension) by (cbn; destruct (ue_definition u); discriminate).
    right. exists a, (WrongTypeInAnnotation a (decl_kind (DUnit u))). split; [reflexivity|].
    split; [cbn; destruct (ue_definition u); reflexivity|]. split; [now apply Rk|]. apply Un. now apply Acc.
  - assert (K : decl_kind (DConstant c) <> KDimension) by discriminate.
    right. exists a, (WrongTypeInAnnotation a (decl_kind (DConstant c))). split; [reflexivity|].
    split; [reflexivity|]. split; [now apply Rk|]. apply Un. now apply Acc.
Qed.

Lemma all_reports : exists xs, NoDup xs /\
  (forall x, In x xs <-> In x (decls S) /\ unsatisfied x) /\
  Forall2 (fun x d => exists a, annotation x = Some a /\ annotation_report S a d) xs ds.
Proof.
  destruct only_annotations as (res & d8 & Hres & Ho & Hds).
  pose proof (resolved_wf X env _ _ _ Hres) as W.
  destruct (well_formed_all X env S o ds G WF R) as (res' & d8' & Hres' & _ & Al).
  assert (res' = res) by (rewrite Hres in Hres'; injection Hres' as <- <-; auto). subst res'. clear Hres' d8'.
  rewrite Hds. unfold check_type_annotations, svalues.
  assert (K : forall l : smap (resolved_item X), NoDup (map fst l) -> (forall n r, In (n, r) l -> sget n res = Some r) ->
    exists xs, NoDup (map decl_name xs) /\
      (forall x, In x xs <-> In x (decls S) /\ unsatisfied x /\ In (decl_name x) (map fst l)) /\
      Forall2 (fun x d => exists a, annotation x = Some a /\ annotation_report S a d) xs (flat_map (check_annotation X res) (map snd l))).
  { induction l as [|[n r] l IH]; intros N Hl; cbn [map fst snd flat_map] in *.
    - exists []. split; [constructor|]. split; [intros x; cbn; tauto|constructor].
    - apply NoDup_cons_iff in N as [Nn N]. destruct IH as (xs & N1 & I1 & F1); [exact N|intros m q Hq; apply Hl; now right|].
      pose proof (Hl n r (or_introl eq_refl)) as Hr.
      destruct (entry_decl X env _ _ _ _ _ Hres Hr) as (x & Hx & Ex & Nx). subst n.
      destruct (check_one res d8 x r Hres Ho Hx Hr Ex) as [[C U]|(a & d & Ha & C & Rp & U)]; rewrite C; cbn [app].
      + exists xs. split; [exact N1|]. split; [|exact F1]. intros y. rewrite I1. cbn [In]. split; [tauto|].
        intros (Hy & Uy & [E|E]); [|tauto]. exfalso. apply U. assert (x = y); [|now subst].
        apply (same_decl X S); auto. apply (wf_names _ _ WF).
      + exists (x :: xs). cbn [map]. split; [|split].
        * constructor; [|exact N1]. intros Hin. apply in_map_iff in Hin as (y & Ey & Hy). apply I1 in Hy as (_ & _ & Hy). rewrite Ey in Hy. contradiction.
        * intros y. cbn [In]. rewrite I1. split.
          -- intros [<-|(H1 & H2 & H3)]; auto.
          -- intros (Hy & Uy & [E|E]); [left|right; auto]. apply (same_decl X S); auto. apply (wf_names _ _ WF).
        * constructor; [eauto|exact F1]. }
  destruct (K res) as (xs & N1 & I1 & F1).
  - apply wf_NoDup. exact W.
  - intros n r Hr. now apply In_sget.
  - exists xs. split; [exact (NoDup_map_inv _ _ N1)|]. split; [|exact F1]. intros x. rewrite I1. split; [tauto|].
    intros [Hx U]. split; [exact Hx|]. split; [exact U|]. destruct (Al x Hx) as (r & Er & _). apply sget_In in Er. exact (in_map fst _ _ Er).
Qed.
End Reports.
