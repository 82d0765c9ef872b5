(** * Acceptance of a system is exactly well-formedness *)
From Coq Require Import String List Bool ZArith QArith Qcanon Lia Permutation Sorted.
From Verif Require Import MachineInt Ratio F64 Magnitude Exponent ExponentFacts SMap Expression
  DimensionMath DimensionMathFacts Types Snake Resolve ResolveLoop ResolveChecks SystemSpec
  ResolveFacts.
Import ListNotations.
Local Open Scope list_scope.

Section Accept.
Context (X : exp_ops) (L : exp_laws X) (env : fenv).
Notation sys := (unresolved X (unit_entry X)).
Notation dm := (dimmag X).

(** ** Properties preserved by evaluation *)

Lemma eval_pred_mut (P : bdims X -> Prop) (Q : X -> Prop) (lk : fac dm -> option dm) :
  (forall a b c, P a -> P b -> bd_mul X a b = Some c -> P c) ->
  (forall a b c, P a -> P b -> bd_div X a b = Some c -> P c) ->
  (forall a p c, P a -> Q p -> bd_pow X a p = Some c -> P c) ->
  (forall e, (forall p, In p (exponents e) -> Q p) ->
     (forall f d, In f (expr_vals e) -> lk f = Some d -> P (dm_dims d)) ->
     forall d, eval_with X env lk e = Some d -> P (dm_dims d)) /\
  (forall v, (forall p, In p (fexponents v) -> Q p) ->
     (forall f d, In f (factor_vals v) -> lk f = Some d -> P (dm_dims d)) ->
     forall d, feval_with X env lk v = Some d -> P (dm_dims d)).
Proof.
  intros Hmul Hdiv Hpow. apply expr_factor_ind.
  - intros f IH HQ HP d H. apply IH; auto.
  - intros l IHl r IHr op HQ HP d H. cbn [exponents expr_vals] in *. rewrite eval_bin in H.
    destruct (eval_with X env lk l) as [a|] eqn:Ea; [|discriminate].
    destruct (feval_with X env lk r) as [b|] eqn:Eb; [|discriminate].
    assert (Pa : P (dm_dims a)).
    { apply IHl; auto; intros; [apply HQ|eapply HP; [|eauto]]; apply in_or_app; now left. }
    assert (Pb : P (dm_dims b)).
    { apply IHr; auto; intros; [apply HQ|eapply HP; [|eauto]]; apply in_or_app; now right. }
    destruct op; unfold dm_mul, dm_div in H.
    + destruct (bd_mul X (dm_dims a) (dm_dims b)) as [c|] eqn:E; [|discriminate].
      inversion H; subst; simpl. exact (Hmul _ _ _ Pa Pb E).
    + destruct (bd_div X (dm_dims a) (dm_dims b)) as [c|] eqn:E; [|discriminate].
      inversion H; subst; simpl. exact (Hdiv _ _ _ Pa Pb E).
  - intros t HQ HP d H. apply (HP t); auto. now left.
  - intros t e HQ HP d H. cbn [feval_with] in H.
    destruct (lk t) as [a|] eqn:Ea; [|discriminate].
    unfold dm_pow in H. destruct (bd_pow X (dm_dims a) e) as [c|] eqn:E; [|discriminate].
    inversion H; subst; simpl. eapply Hpow; [|apply HQ; now left|exact E].
    apply (HP t); auto. now left.
  - intros x IH HQ HP d H. apply IH; auto.
Qed.

Lemma bd_mul_wf a b c : wf a -> bd_mul X a b = Some c -> wf c.
Proof.
  unfold bd_mul. revert a. induction b as [|kv b IH]; intros a W H; simpl in H.
  - now inversion H; subst.
  - destruct (bd_mul_step X a kv) as [f|] eqn:E; [|discriminate].
    eapply IH; [|exact H]. eapply bd_mul_step_wf; eauto.
Qed.

Lemma eval_wf lk e d :
  (forall f d, In f (expr_vals e) -> lk f = Some d -> wf (dm_dims d)) ->
  eval_with X env lk e = Some d -> wf (dm_dims d).
Proof.
  intros H.
  assert (Hm : forall a b c : bdims X, wf a -> wf b -> bd_mul X a b = Some c -> wf c).
  { intros a b c Wa _ E. exact (bd_mul_wf a b c Wa E). }
  assert (Hd : forall a b c : bdims X, wf a -> wf b -> bd_div X a b = Some c -> wf c).
  { intros a b c Wa _ E. unfold bd_div in E. destruct (bd_inv X b) as [i|]; [|discriminate].
    exact (bd_mul_wf a i c Wa E). }
  assert (Hp : forall (a : bdims X) p c, wf a -> True -> bd_pow X a p = Some c -> wf c).
  { intros a p c Wa _ E. exact (smap_opt_wf _ _ _ E Wa). }
  apply (proj1 (eval_pred_mut wf (fun _ => True) lk Hm Hd Hp)); auto.
Qed.

Lemma concrete_dims x (c : dm) :
  In (Concrete c) (expr_vals (it_expr (item_of X x))) ->
  dm_dims c = bd_none X \/ exists n, dm_dims c = bd_for_base X n.
Proof.
  destruct x as [d|u|k]; simpl.
  - destruct (de_rhs d) as [[]|e]; simpl.
    + intros [E|[]]; inversion E; subst. right. eexists; reflexivity.
    + rewrite (proj1 (vals_map_mut X _)), in_map_iff. intros ([y|y] & E & _); inversion E; subst; auto.
  - destruct (ue_definition u) as [dim|e]; simpl; [intros [E|[]]; discriminate|].
    rewrite (proj1 (vals_map_mut X _)), in_map_iff. intros ([y|y] & E & _); inversion E; subst; auto.
  - rewrite (proj1 (vals_map_mut X _)), in_map_iff. intros ([y|y] & E & _); inversion E; subst; auto.
Qed.

Lemma iden_wf (S : sys) n d : iden X env (items_of X S) n d -> wf (dm_dims d).
Proof.
  intros H. induction H as [i lk d Hi Hlk IH He].
  rewrite items_of_decls in Hi. apply in_map_iff in Hi as (x & <- & Hx).
  eapply eval_wf; [|exact He]. intros [c|m] d' Hf E; simpl in E; inversion E; subst.
  - apply concrete_dims in Hf as [->|[k ->]]; [constructor|apply sinsert_wf; constructor].
  - apply IH. now apply others_vals.
Qed.

Lemma bd_eq_iff (a b : bdims X) :
  wf b -> bd_eq X a b = true <-> forall k e, In (k, e) a -> In (k, e) b.
Proof.
  intros W. unfold bd_eq. rewrite forallb_forall. split.
  - intros H k e Hin. specialize (H _ Hin). simpl in H.
    destruct (sget k b) as [v|] eqn:E; [|discriminate]. apply (l_eqb X L) in H. subst.
    now apply sget_In.
  - intros H [k e] Hin. simpl. apply H in Hin. apply In_sget in Hin; auto. rewrite Hin.
    now apply (l_eqb X L).
Qed.

(** ** Acceptance *)

Lemma nodup_decl (S : sys) x y :
  NoDup (map decl_name (decls S)) -> In x (decls S) -> In y (decls S) ->
  decl_name x = decl_name y -> x = y.
Proof.
  generalize (decls S) as l. induction l as [|z l IH]; simpl; [easy|].
  intros N. inversion N as [|? ? Hz N']; subst. intros [->|Hx] [->|Hy] E; auto.
  - exfalso. apply Hz. rewrite E. now apply in_map.
  - exfalso. apply Hz. rewrite <- E. now apply in_map.
Qed.

Lemma nodup_app_l {A} (a b : list A) : NoDup (a ++ b) -> NoDup a.
Proof.
  induction a as [|x a IH]; simpl; intros N; [constructor|].
  apply NoDup_cons_iff in N as [H N]. constructor; auto. intros Hx. apply H. apply in_or_app. now left.
Qed.
Lemma nodup_app_r {A} (a b : list A) : NoDup (a ++ b) -> NoDup b.
Proof.
  induction a as [|x a IH]; simpl; intros N; auto. apply NoDup_cons_iff in N as [H N]. auto.
Qed.

Lemma units_nodup (S : sys) : NoDup (map decl_name (decls S)) -> NoDup (u_units S).
Proof.
  intros N. unfold decls in N. rewrite !map_app in N.
  apply nodup_app_r in N. apply nodup_app_l in N.
  rewrite map_map in N. eapply NoDup_map_inv. exact N.
Qed.

Lemma in_two {A} (x y : A) l :
  In x l -> In y l -> x = y \/ (exists a b, l = a ++ y :: b /\ In x a) \/
                      (exists a b, l = a ++ x :: b /\ In y a).
Proof.
  intros Hx Hy. apply in_split in Hy as (a & b & ->).
  apply in_app_or in Hx as [Hx|[->|Hx]]; auto.
  - right; left. eauto.
  - right; right. apply in_split in Hx as (c & d & ->). exists (a ++ y :: c), d.
    split; [now rewrite <- app_assoc|]. apply in_or_app. right. now left.
Qed.

Lemma base_of_base_unit (S : sys) u d :
  generated_ok X S -> In u (u_units S) -> base_of u = Some d <-> base_unit_of u d.
Proof.
  intros G Hu. unfold base_of, base_unit_of. split.
  - destruct (ue_autogenerated_from u); [discriminate|]. destruct (ue_definition u); congruence.
  - intros E. rewrite (gen_base _ _ G _ _ Hu E), E. reflexivity.
Qed.

Lemma base_names (S : sys) d :
  In d (map de_name (filter is_base_dimension (u_dimensions S))) <->
  exists e, In e (u_dimensions S) /\ de_name e = d /\ de_rhs e = DefBase tt.
Proof.
  rewrite in_map_iff. split.
  - intros (e & <- & He). apply filter_In in He as [He B]. exists e. repeat split; auto.
    unfold is_base_dimension in B. destruct (de_rhs e) as [[]|]; [reflexivity|discriminate].
  - intros (e & He & <- & B). exists e. split; auto. apply filter_In. split; auto.
    unfold is_base_dimension. now rewrite B.
Qed.

Lemma base_units_nil (S : sys) :
  generated_ok X S -> NoDup (map decl_name (decls S)) ->
  check_invalid_base_units (u_units S) (filter is_base_dimension (u_dimensions S)) = [] <->
  (forall u dim, In u (u_units S) -> base_unit_of u dim ->
     exists d, In d (u_dimensions S) /\ de_name d = dim /\ de_rhs d = DefBase tt) /\
  (forall u1 u2 dim, In u1 (u_units S) -> In u2 (u_units S) ->
     base_unit_of u1 dim -> base_unit_of u2 dim -> u1 = u2).
Proof.
  intros G N. set (bd := filter is_base_dimension (u_dimensions S)).
  split.
  - intros H.
    assert (No : forall x, ~ In x (check_invalid_base_units (u_units S) bd)) by (rewrite H; auto).
    assert (B : forall u dim, In u (u_units S) -> base_unit_of u dim -> In dim (map de_name bd)).
    { intros u dim Hu Hb. apply (base_of_base_unit S) in Hb; auto.
      destruct (in_dec String.string_dec dim (map de_name bd)) as [|Hn]; auto. exfalso.
      apply (No (BaseUnitForNonBase dim (ue_name u))). apply base_units_report.
      apply in_split in Hu as (a & b & E). exists a, u, b, dim. auto. }
    split.
    + intros u dim Hu Hb. apply base_names. eapply B; eauto.
    + intros u1 u2 dim H1 H2 B1 B2.
      destruct (in_two u1 u2 _ H1 H2) as [|[(a & b & E & Hin)|(a & b & E & Hin)]]; auto; exfalso.
      * apply (No (MultipleBaseUnits dim (ue_name u2))). apply base_units_report.
        exists a, u2, b, dim. split; auto. split; [now apply (base_of_base_unit S)|].
        right. split; [eapply B; eauto|]. split; auto. exists u1. split; auto.
        now apply (base_of_base_unit S).
      * apply (No (MultipleBaseUnits dim (ue_name u1))). apply base_units_report.
        exists a, u1, b, dim. split; auto. split; [now apply (base_of_base_unit S)|].
        right. split; [eapply B; eauto|]. split; auto. exists u2. split; auto.
        now apply (base_of_base_unit S).
  - intros [H1 H2]. destruct (check_invalid_base_units (u_units S) bd) as [|x l] eqn:E; auto. exfalso.
    assert (Hin : In x (check_invalid_base_units (u_units S) bd)) by (rewrite E; now left).
    apply base_units_report in Hin as (a & u & b & d & Eu & Hb & Hx).
    assert (Hu : In u (u_units S)) by (rewrite Eu; apply in_or_app; right; now left).
    pose proof Hb as Hb'. apply (base_of_base_unit S) in Hb; auto.
    destruct Hx as [[Hn _]|(_ & (v & Hv & Hbv) & _)].
    + apply Hn. apply base_names. eauto.
    + assert (Hv' : In v (u_units S)) by (rewrite Eu; apply in_or_app; now left).
      apply (base_of_base_unit S) in Hbv; auto.
      assert (v = u) by (eapply H2; eauto). subst v.
      apply units_nodup in N. rewrite Eu in N. apply NoDup_remove_2 in N. apply N.
      apply in_or_app. now left.
Qed.

Lemma symbols_unique (S : sys) :
  NoDup (map decl_name (decls S)) ->
  check_multiply_defined_symbols (u_units S) = [] <->
  forall u1 u2 s, In u1 (u_units S) -> In u2 (u_units S) ->
    ue_symbol u1 = Some s -> ue_symbol u2 = Some s -> u1 = u2.
Proof.
  intros N. rewrite symbols_nil. split.
  - intros H u1 u2 s H1 H2 S1 S2.
    destruct (in_two u1 u2 _ H1 H2) as [|[(a & b & E & Hin)|(a & b & E & Hin)]]; auto; exfalso;
      specialize (H s); apply Nat.le_ngt in H; apply H; apply users_length;
      apply in_split in Hin as (c & d & ->); rewrite <- app_assoc in E; simpl in E; eauto 10.
  - intros H s. apply Nat.le_ngt. intros Hl.
    apply users_length in Hl as (a & u & b & v & c & E & H1 & H2).
    assert (u = v).
    { eapply H; eauto; rewrite E; apply in_or_app; right; [now left|].
      right. apply in_or_app. right. now left. }
    subst v. apply units_nodup in N. rewrite E in N.
    apply nodup_app_r in N. apply NoDup_cons_iff in N as [N _]. apply N.
    apply in_or_app. right. now left.
Qed.

Theorem accept_iff (S : sys) o ds :
  generated_ok X S -> resolve X env S = Some (o, ds) ->
  ds = [] <-> well_formed S /\ (forall x, In x (decls S) -> annotation_accepted o x).
Proof.
  intros G R. apply resolve_some in R as (res & d8 & Hres & -> & ->). unfold diags_before.
  pose proof (resolved_wf X env _ _ _ Hres) as W.
  (* with every name defined and unique *)
  assert (Main : snd (filter_undefined X (items_of X S)) = [] -> NoDup (map decl_name (decls S)) ->
    (forall x, In x (decls S) -> grounded S (decl_name x)) ->
    (check_type_annotations X res = [] <->
       forall x, In x (decls S) -> annotation_accepted (out_of X S res) x) /\
    (check_for_base_units_without_symbol X (get_units X res) = [] <->
       forall u dim, In u (u_units S) -> base_unit_of u dim -> ue_symbol u <> None)).
  { intros HU N Gr. destruct (U_defined X S G HU) as (_ & _ & E4).
    assert (All : forall x, In x (decls S) -> exists r, sget (decl_name x) res = Some r /\
              ri_item r = item_of X x /\
              forall d, fields_of (out_of X S res) x d <-> d = dm_dims (ri_dims r)).
    { intros x Hx. pose proof (Gr x Hx) as Hg. apply (resolved_names X env S res d8 _ G Hres) in Hg.
      apply sget_keys in Hg as [r Hr]. exists r. split; auto.
      exact (fields_of_entry X env S res d8 x _ r N Hres Hx eq_refl Hr). }
    split.
    - unfold check_type_annotations. rewrite flat_map_nil. split.
      + intros H x Hx a Ha. destruct (All x Hx) as (r & Hr & Ei & Hf).
        assert (Hc : check_annotation X res r = []).
        { apply H. apply svalues_get; auto. eauto. }
        unfold check_annotation in Hc. rewrite Ei, annotation_of_item, Ha in Hc.
        destruct (sget a res) as [an|] eqn:Ea; [|discriminate].
        destruct (entry_decl X env _ _ _ _ _ Hres Ea) as (y & Hy & Ey & Ny).
        rewrite Ey, kind_of_item in Hc.
        destruct y as [D|u|c]; simpl in Hc.
        2: { destruct (ue_definition u); discriminate. }
        2: discriminate.
        destruct (bd_eq X (dm_dims (ri_dims an)) (dm_dims (ri_dims r))) eqn:Eb; [|discriminate].
        exists {| d_name := de_name D; d_dims := dm_dims (ri_dims an) |}, (dm_dims (ri_dims r)).
        split; [|split; [|split]].
        * apply get_dimensions_In; auto. exists a, an, D. rewrite Ey. auto.
        * exact Ny.
        * now apply Hf.
        * simpl. apply bd_eq_iff; auto.
          destruct (resolved_entry X env _ _ _ _ _ Hres Hr) as (_ & _ & De). rewrite E4 in De.
          eapply iden_wf; eauto.
      + intros H r Hr. apply svalues_get in Hr as [n Hn]; auto.
        destruct (entry_decl X env _ _ _ _ _ Hres Hn) as (x & Hx & Ei & Nx).
        unfold check_annotation. rewrite Ei, annotation_of_item.
        destruct (annotation x) as [a|] eqn:Ea; auto.
        destruct (H x Hx a Ea) as (D & dx & HD & ND & Hdx & Hsub).
        destruct (All x Hx) as (r' & Hr' & Ei' & Hf).
        assert (r' = r) by congruence. subst r'. apply Hf in Hdx. subst dx.
        apply get_dimensions_In in HD as (n' & an & D' & Ga & Et & ->); auto. simpl in *.
        destruct (entry_decl X env _ _ _ _ _ Hres Ga) as (y & Hy & Ey & Ny).
        rewrite Ey in Et. apply item_of_type_dim in Et. subst y. simpl in Ny.
        replace a with n' by congruence. rewrite Ga, Ey. cbn [it_kind item_of item_of_dimension it_type].
        assert (Eb : bd_eq X (dm_dims (ri_dims an)) (dm_dims (ri_dims r)) = true).
        { apply bd_eq_iff; auto.
          destruct (resolved_entry X env _ _ _ _ _ Hres Hn) as (_ & _ & De). rewrite E4 in De.
          eapply iden_wf; eauto. }
        now rewrite Eb.
    - unfold check_for_base_units_without_symbol. rewrite flat_map_nil. split.
      + intros H u dim Hu Hb Hs. apply unit_decl in Hu. destruct (All _ Hu) as (r & Hr & Ei & _).
        unfold base_unit_of in Hb.
        specialize (H {| un_name := ue_name u; un_dims := dm_dims (ri_dims r);
           un_mag := dm_mag (ri_dims r); un_symbol := ue_symbol u;
           un_is_base := match ue_definition u with DefBase _ => true | DefExpr _ => false end |}).
        simpl in H. rewrite Hb, Hs in H. discriminate H.
        apply get_units_In; auto. exists (ue_name u), r, u. rewrite Ei, Hb, Hs. auto.
      + intros H y Hy. apply get_units_In in Hy as (n & r & u & Hr & Et & ->); auto. simpl.
        destruct (entry_decl X env _ _ _ _ _ Hres Hr) as (x & Hx & Ei & Nx).
        rewrite Ei in Et. apply item_of_type_unit in Et. subst x.
        destruct (ue_definition u) as [dim|e] eqn:Ed; auto.
        destruct (ue_symbol u) as [s|] eqn:Es; auto. exfalso.
        apply (H u dim); auto. now apply unit_decl. }
  split.
  - intros H. repeat match goal with
      | H : _ ++ _ = [] |- _ => apply app_eq_nil in H as [? H]
    end.
    match goal with
    | Hq : snd (get_single_ident (u_quantity_types S) _ _) = [],
      Hd : snd (get_single_ident (u_dimension_types S) _ _) = [],
      Hb : check_invalid_base_units _ _ = [], Hs : check_multiply_defined_symbols _ = [],
      Hu : snd (filter_undefined _ _) = [], Hm : filter_multiply_defined _ _ = [],
      Hk : check_kinds_in_definitions _ _ = [], H8 : d8 = [],
      Ha : check_type_annotations _ _ = [] |- _ =>
        rename Hq into Dq, Hd into Dd, Hb into Db, Hs into Ds, Hu into Du, Hm into Dm, Hk into Dk,
               H8 into D8, Ha into Da
    end.
    destruct (U_defined X S G Du) as (E2 & E3 & E4).
    rewrite E2 in Dm. apply duplicates_nil in Dm. pose proof Dm as N. rewrite names_of_items in N.
    assert (Gr : forall x, In x (decls S) -> grounded S (decl_name x)).
    { intros x Hx. apply igrounded_iff. rewrite <- ident_of_item. rewrite E4 in Hres.
      eapply no_report_all_grounded; eauto. rewrite items_of_decls. now apply in_map. }
    destruct (Main Du N Gr) as [Ma Mb].
    apply base_units_nil in Db as [Db1 Db2]; auto.
    split; [|now apply Ma]. constructor; auto.
    + now apply get_single_ident_nil in Dq.
    + now apply get_single_ident_nil in Dd.
    + intros x n Hx Hm. rewrite <- names_of_items. rewrite undefined_nil in Du.
      apply (Du (item_of X x)); [rewrite items_of_decls; now apply in_map|]. now apply mentions_item.
    + intros x y Hx Hy Hm. rewrite E3 in Dk. rewrite kinds_nil in Dk by auto.
      apply kind_allowed_iff. rewrite <- !kind_of_item. apply Dk.
      * rewrite items_of_decls. now apply in_map.
      * rewrite items_of_decls. now apply in_map.
      * apply mentions_item. now rewrite ident_of_item.
    + now apply symbols_unique.
    + now apply Mb.
  - intros [WF HA]. destruct WF as [Wq Wd Wn Wdef Wg Wk Wb Wbu Ws Wbs].
    assert (Du : snd (filter_undefined X (items_of X S)) = []).
    { apply undefined_nil. intros i n Hi Hn. rewrite items_of_decls in Hi.
      apply in_map_iff in Hi as (x & <- & Hx). rewrite names_of_items.
      apply (Wdef x); auto. now apply mentions_item. }
    destruct (U_defined X S G Du) as (E2 & E3 & E4).
    destruct (Main Du Wn Wg) as [Ma Mb].
    assert (Nit : NoDup (map it_ident (items_of X S))) by now rewrite names_of_items.
    apply (get_single_ident_nil _ "quantity type" "Quantity") in Wq.
    apply (get_single_ident_nil _ "dimension type" "Dimension") in Wd.
    assert (Hb : check_invalid_base_units (u_units S) (filter is_base_dimension (u_dimensions S)) = [])
      by (apply base_units_nil; auto).
    assert (Hs : check_multiply_defined_symbols (u_units S) = []) by now apply symbols_unique.
    assert (Hm : filter_multiply_defined X (U2 X S) = []).
    { rewrite E2. now apply duplicates_nil. }
    assert (Hk : check_kinds_in_definitions X (U3 X S) = []).
    { rewrite E3. apply kinds_nil; auto. intros lhs rhs Hl Hr Ho.
      rewrite items_of_decls in Hl, Hr. apply in_map_iff in Hl as (x & <- & Hx).
      apply in_map_iff in Hr as (y & <- & Hy). rewrite !kind_of_item. apply kind_allowed_iff.
      apply Wk; auto. apply mentions_item. now rewrite <- ident_of_item. }
    assert (H8 : d8 = []).
    { rewrite E4 in Hres. eapply all_grounded_no_report; eauto. intros i Hi.
      rewrite items_of_decls in Hi. apply in_map_iff in Hi as (x & <- & Hx).
      apply igrounded_iff. rewrite ident_of_item. auto. }
    assert (Ha : check_type_annotations X res = []) by now apply Ma.
    assert (Hbs : check_for_base_units_without_symbol X (get_units X res) = []) by now apply Mb.
    rewrite Wq, Wd, Hb, Hs, Du, Hm, Hk, H8, Ha, Hbs. reflexivity.
Qed.
End Accept.
