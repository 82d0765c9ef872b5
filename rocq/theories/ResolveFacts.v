(** * The resolver meets the specification of unit systems *)
From Coq Require Import String List Bool ZArith QArith Qcanon Lia Permutation Sorted.
From Verif Require Import MachineInt Ratio F64 Magnitude Exponent ExponentFacts SMap Expression
  DimensionMath DimensionMathFacts Types Snake Resolve ResolveLoop ResolveChecks SystemSpec.
Import ListNotations.
Local Open Scope list_scope.

Section Facts.
Context (X : exp_ops) (env : fenv).
Notation sys := (unresolved X (unit_entry X)).
Notation dm := (dimmag X).

(** ** Declarations and items *)

Definition item_of (x : decl X) : item X :=
  match x with
  | DDimension d => item_of_dimension X d
  | DUnit u => item_of_unit X u
  | DConstant c => item_of_constant X c
  end.

Lemma items_of_decls (S : sys) : items_of X S = map item_of (decls S).
Proof. unfold items_of, decls. rewrite !map_app, !map_map. reflexivity. Qed.

Lemma ident_of_item x : it_ident (item_of x) = decl_name x.
Proof. now destruct x. Qed.
Lemma kind_of_item x : it_kind (item_of x) = decl_kind x.
Proof. now destruct x. Qed.
Lemma annotation_of_item x : it_annotation (item_of x) = annotation x.
Proof. now destruct x. Qed.

Lemma names_of_items (S : sys) : map it_ident (items_of X S) = map decl_name (decls S).
Proof. rewrite items_of_decls, map_map. apply map_ext. apply ident_of_item. Qed.

Lemma occurs_vals_mut {C} n :
  (forall e : expr (fac C) X, In (Other n) (expr_vals e) <-> occurs n e) /\
  (forall f : factor (fac C) X, In (Other n) (factor_vals f) <-> foccurs n f).
Proof.
  apply expr_factor_ind.
  - intros f IH. simpl. rewrite IH. split; [now constructor|]. intros H; now inversion H.
  - intros l IHl r IHr op. simpl. rewrite in_app_iff, IHl, IHr. split.
    + intros [H|H]; [now apply occ_lhs|now apply occ_rhs].
    + intros H; inversion H; auto.
  - intros t. simpl. split.
    + intros [->|[]]. constructor.
    + intros H; inversion H; auto.
  - intros t e. simpl. split.
    + intros [->|[]]. constructor.
    + intros H; inversion H; auto.
  - intros x IH. simpl. rewrite IH. split; [now constructor|]. intros H; now inversion H.
Qed.

Lemma others_occurs {C} n (e : expr (fac C) X) : In n (others e) <-> occurs n e.
Proof. rewrite others_vals. apply (proj1 (occurs_vals_mut n)). Qed.

Lemma vals_map_mut {T T2} (f : T -> T2) :
  (forall e : expr T X, expr_vals (expr_map f e) = map f (expr_vals e)) /\
  (forall v : factor T X, factor_vals (factor_map f v) = map f (factor_vals v)).
Proof.
  apply expr_factor_ind; simpl; intros; auto. rewrite map_app. congruence.
Qed.

Lemma others_map {C1 C2} (g : C1 -> C2) (e : expr (fac C1) X) n :
  In n (others (expr_map (map_concrete g) e)) <-> In n (others e).
Proof.
  rewrite !others_vals, (proj1 (vals_map_mut (map_concrete g))), in_map_iff. split.
  - intros ([c|i] & E & H); simpl in E; inversion E; now subst.
  - intros H. exists (Other n). auto.
Qed.

Lemma mentions_item x n : In n (others (it_expr (item_of x))) <-> mentions x n.
Proof.
  destruct x as [d|u|c]; simpl.
  - destruct (de_rhs d) as [[]|e]; [simpl; tauto|]. now rewrite others_map, others_occurs.
  - destruct (ue_definition u) as [dim|e]; [simpl; intuition|]. now rewrite others_map, others_occurs.
  - now rewrite others_map, others_occurs.
Qed.

Lemma igrounded_iff (S : sys) n : igrounded X (items_of X S) n <-> grounded S n.
Proof.
  rewrite items_of_decls. split.
  - intros H. induction H as [i Hi Hm IH]. apply in_map_iff in Hi as (x & <- & Hx).
    rewrite ident_of_item. constructor; auto. intros n Hn. apply IH. now apply mentions_item.
  - intros H. induction H as [x Hx Hm IH]. rewrite <- ident_of_item. constructor.
    + now apply in_map.
    + intros n Hn. apply IH. now apply mentions_item.
Qed.

Lemma kind_allowed_iff a b : kind_allowed a b = true <-> may_mention a b.
Proof. destruct a, b; simpl; split; intros; try congruence; try easy. Qed.

(** ** Automatically generated units *)

(** Facts about expanded systems: a generated unit mentions the unit it comes from, which is also
    present, and is not a base unit. *)
Record generated_ok (S : sys) : Prop := {
  gen_source : forall u s, In u (u_units S) -> ue_autogenerated_from u = Some s ->
                 In s (map ue_name (u_units S)) /\ mentions (DUnit u) s;
  gen_base : forall u dim, In u (u_units S) -> ue_definition u = DefBase dim ->
                 ue_autogenerated_from u = None
}.

Lemma expand_In (t : unit_template X) u :
  In u (expand t) <-> exists p a, (p = None \/ exists q, p = Some q /\ In q (ut_prefixes t)) /\
    (a = None \/ exists b, a = Some b /\ In b (ut_aliases t)) /\ u = expand_one t p a.
Proof.
  assert (O : forall {A} (l : list A) o,
    In o (map Some l ++ [None]) <-> o = None \/ exists q, o = Some q /\ In q l).
  { intros A l o. rewrite in_app_iff, in_map_iff. simpl. split.
    - intros [(q & <- & Hq)|[<-|[]]]; eauto.
    - intros [->|(q & -> & Hq)]; eauto. }
  unfold expand. rewrite in_flat_map. split.
  - intros (p & Hp & H). apply in_map_iff in H as (a & <- & Ha). exists p, a.
    rewrite <- !O. auto.
  - intros (p & a & Hp & Ha & ->). exists p. rewrite O. split; auto.
    apply in_map. now rewrite O.
Qed.

Lemma generated_ok_expand (T : unresolved X (unit_template X)) : generated_ok (expand_templates T).
Proof.
  constructor; simpl.
  - intros u s Hu Hs. apply in_flat_map in Hu as (t & Ht & Hu). apply expand_In in Hu as (p & a & Hp & Ha & ->).
    assert (Es : s = ut_name t) by (destruct p, a; simpl in Hs; congruence). subst s. split.
    + apply in_map_iff. exists (expand_one t None None). split; auto.
      apply in_flat_map. exists t. split; auto. apply expand_In. exists None, None. auto.
    + destruct p, a; simpl in *; try discriminate; apply occ_rhs; constructor.
  - intros u dim Hu Hd. apply in_flat_map in Hu as (t & Ht & Hu). apply expand_In in Hu as (p & a & Hp & Ha & ->).
    destruct p, a; simpl in *; try discriminate; auto.
Qed.

Lemma source_item x s : source (item_of x) = Some s ->
  exists u, x = DUnit u /\ ue_autogenerated_from u = Some s.
Proof. destruct x; simpl; try discriminate. unfold source; simpl. eauto. Qed.

Lemma unit_decl (S : sys) u : In u (u_units S) <-> In (DUnit u) (decls S).
Proof.
  unfold decls. rewrite !in_app_iff, !in_map_iff. split.
  - intros H. right; left. eauto.
  - intros [(y & E & _)|[(y & E & H)|(y & E & _)]]; inversion E; now subst.
Qed.
Lemma dimension_decl (S : sys) d : In d (u_dimensions S) <-> In (DDimension d) (decls S).
Proof.
  unfold decls. rewrite !in_app_iff, !in_map_iff. split.
  - intros H. left. eauto.
  - intros [(y & E & H)|[(y & E & H)|(y & E & _)]]; inversion E; now subst.
Qed.
Lemma constant_decl (S : sys) c : In c (u_constants S) <-> In (DConstant c) (decls S).
Proof.
  unfold decls. rewrite !in_app_iff, !in_map_iff. split.
  - intros H. right; right. eauto.
  - intros [(y & E & H)|[(y & E & H)|(y & E & H)]]; inversion E; now subst.
Qed.

Lemma sources_present (S : sys) :
  generated_ok S ->
  forall i s, In i (items_of X S) -> source i = Some s -> In s (map it_ident (items_of X S)).
Proof.
  intros G i s Hi Hs. rewrite items_of_decls in Hi. apply in_map_iff in Hi as (x & <- & Hx).
  apply source_item in Hs as (u & -> & Hs). apply unit_decl in Hx.
  destruct (gen_source _ G u s Hx Hs) as [H _]. rewrite names_of_items.
  apply in_map_iff in H as (v & <- & Hv). change (ue_name v) with (decl_name (DUnit v)).
  apply in_map. now apply unit_decl.
Qed.

(** ** The items that reach the resolution loop *)

Definition U1 (S : sys) := fst (filter_undefined X (items_of X S)).
Definition U2 (S : sys) := filter_autogenerated_invalid X (U1 S).
Definition U3 (S : sys) := filter_autogenerated_invalid X (U2 S).
Definition U4 (S : sys) := filter_autogenerated_invalid X (U3 S).

Definition diags_before (S : sys) : list diag :=
  snd (get_single_ident (u_quantity_types S) "quantity type" "Quantity")
  ++ snd (get_single_ident (u_dimension_types S) "dimension type" "Dimension")
  ++ check_invalid_base_units (u_units S) (filter is_base_dimension (u_dimensions S))
  ++ check_multiply_defined_symbols (u_units S)
  ++ snd (filter_undefined X (items_of X S))
  ++ filter_multiply_defined X (U2 S)
  ++ check_kinds_in_definitions X (U3 S).

Lemma resolve_unfold (S : sys) :
  resolve X env S =
  match resolve_items X env (U4 S) with
  | None => None
  | Some (res, d8) =>
      Some ({| df_dimension_type := fst (get_single_ident (u_dimension_types S) "dimension type" "Dimension");
               df_quantity_type := fst (get_single_ident (u_quantity_types S) "quantity type" "Quantity");
               df_dimensions := get_dimensions X res; df_units := get_units X res;
               df_constants := get_constants X res;
               df_base_dimensions := map (fun d => base_dimension_of (de_name d))
                                         (filter is_base_dimension (u_dimensions S)) |},
            diags_before S ++ d8 ++ check_type_annotations X res
              ++ check_for_base_units_without_symbol X (get_units X res))
  end.
Proof.
  unfold resolve, diags_before, U4, U3, U2, U1, get_base_dimensions.
  destruct (get_single_ident (u_quantity_types S) "quantity type" "Quantity") as [q d1].
  destruct (get_single_ident (u_dimension_types S) "dimension type" "Dimension") as [t d2].
  destruct (filter_undefined X (items_of X S)) as [u d5]. cbn [fst snd].
  destruct (resolve_items X env _) as [[res d8]|]; auto.
  rewrite <- !app_assoc. reflexivity.
Qed.

Lemma U1_sub S i : In i (U1 S) -> In i (items_of X S).
Proof. unfold U1, filter_undefined; simpl. intros H. now apply filter_In in H. Qed.
Lemma U4_sub S i : In i (U4 S) -> In i (items_of X S).
Proof.
  unfold U4, U3, U2. intros H. apply filter_auto_In in H as [H _].
  apply filter_auto_In in H as [H _]. apply filter_auto_In in H as [H _]. now apply U1_sub.
Qed.

Lemma nodup_filter {A} (f : A -> ident) (p : A -> bool) l :
  NoDup (map f l) -> NoDup (map f (filter p l)).
Proof.
  induction l as [|x l IH]; simpl; intros N; auto. inversion N as [|? ? H1 H2]; subst.
  destruct (p x); simpl; auto. constructor; auto.
  intros H. apply H1. apply in_map_iff in H as (y & E & Hy). apply filter_In in Hy as [Hy _].
  rewrite <- E. now apply in_map.
Qed.

Lemma U4_nodup S : NoDup (map decl_name (decls S)) -> NoDup (map it_ident (U4 S)).
Proof.
  intros N. unfold U4, U3, U2, U1, filter_autogenerated_invalid, filter_undefined; simpl.
  repeat apply nodup_filter. now rewrite names_of_items.
Qed.

(** Nothing is filtered when every name is defined. *)
Lemma U_defined S :
  generated_ok S -> snd (filter_undefined X (items_of X S)) = [] ->
  U2 S = items_of X S /\ U3 S = items_of X S /\ U4 S = items_of X S.
Proof.
  intros G H. pose proof (filter_undefined_id _ H) as H1.
  pose proof (filter_auto_id _ (sources_present S G)) as H2.
  assert (E2 : U2 S = items_of X S) by (unfold U2, U1; now rewrite H1).
  assert (E3 : U3 S = items_of X S) by (unfold U3; now rewrite E2).
  repeat split; auto. unfold U4. now rewrite E3.
Qed.

(** Filtering never removes a grounded name. *)
Lemma grounded_U4 S n :
  generated_ok S -> igrounded X (items_of X S) n -> igrounded X (U4 S) n.
Proof.
  intros G H. induction H as [i Hi Hm IH].
  assert (H1 : In i (U1 S)).
  { unfold U1, filter_undefined; simpl. apply filter_In. split; auto.
    destruct (first_undefined X (map it_ident (items_of X S)) i) as [m|] eqn:E; auto.
    exfalso. apply first_undefined_some in E as [Hn Hd]. apply Hm in Hn.
    inversion Hn; subst. apply Hd. now apply in_map. }
  assert (K : forall V, (forall j, In j (U4 S) -> In j V) -> In i V ->
              In i (filter_autogenerated_invalid X V)).
  { intros V HV HiV. apply filter_auto_In. split; auto.
    destruct (source i) as [s|] eqn:Es; auto.
    rewrite items_of_decls in Hi. apply in_map_iff in Hi as (x & <- & Hx).
    apply source_item in Es as (u & -> & Es). apply unit_decl in Hx.
    destruct (gen_source _ G u s Hx Es) as [_ Hmen]. apply mentions_item in Hmen.
    apply IH in Hmen. inversion Hmen as [j Hj _ E]; subst. apply in_map. now apply HV. }
  constructor; auto.
  assert (S21 : forall j, In j (U2 S) -> In j (U1 S)) by (intros j Hj; now apply filter_auto_In in Hj).
  assert (S32 : forall j, In j (U3 S) -> In j (U2 S)) by (intros j Hj; now apply filter_auto_In in Hj).
  assert (S43 : forall j, In j (U4 S) -> In j (U3 S)) by (intros j Hj; now apply filter_auto_In in Hj).
  apply K; auto. apply K; auto. apply K; auto.
Qed.

Lemma resolved_names S res ds n :
  generated_ok S -> resolve_items X env (U4 S) = Some (res, ds) ->
  In n (skeys res) <-> grounded S n.
Proof.
  intros G H. rewrite (resolved_keys X env _ _ _ n H), <- igrounded_iff. split.
  - apply igrounded_incl. apply U4_sub.
  - now apply grounded_U4.
Qed.

(** ** Reading the output *)

Lemma svalues_get (res : resolved_map X) r :
  wf res -> In r (svalues res) <-> exists n, sget n res = Some r.
Proof.
  intros W. unfold svalues. rewrite in_map_iff. split.
  - intros ([k v] & <- & H). exists k. now apply In_sget.
  - intros [n H]. exists (n, r). split; auto. now apply sget_In.
Qed.

Lemma get_dimensions_In res y :
  wf res -> In y (get_dimensions X res) <->
  exists n r d, sget n res = Some r /\ it_type (ri_item r) = ItDimension d /\
    y = {| d_name := de_name d; d_dims := dm_dims (ri_dims r) |}.
Proof.
  intros W. unfold get_dimensions. rewrite in_flat_map. split.
  - intros (r & Hr & Hy). apply svalues_get in Hr as [n Hn]; auto.
    destruct (it_type (ri_item r)) as [d|u|c] eqn:E; try easy. destruct Hy as [<-|[]]. eauto 6.
  - intros (n & r & d & Hn & E & ->). exists r. split; [apply svalues_get; eauto|].
    rewrite E. now left.
Qed.

Lemma get_units_In res y :
  wf res -> In y (get_units X res) <->
  exists n r u, sget n res = Some r /\ it_type (ri_item r) = ItUnit u /\
    y = {| un_name := ue_name u; un_dims := dm_dims (ri_dims r); un_mag := dm_mag (ri_dims r);
           un_symbol := ue_symbol u;
           un_is_base := match ue_definition u with DefBase _ => true | DefExpr _ => false end |}.
Proof.
  intros W. unfold get_units. rewrite in_flat_map. split.
  - intros (r & Hr & Hy). apply svalues_get in Hr as [n Hn]; auto.
    destruct (it_type (ri_item r)) as [d|u|c] eqn:E; try easy. destruct Hy as [<-|[]]. eauto 6.
  - intros (n & r & d & Hn & E & ->). exists r. split; [apply svalues_get; eauto|].
    rewrite E. now left.
Qed.

Lemma get_constants_In res y :
  wf res -> In y (get_constants X res) <->
  exists n r c, sget n res = Some r /\ it_type (ri_item r) = ItConstant c /\
    y = {| c_name := ce_name c; c_dims := dm_dims (ri_dims r); c_mag := dm_mag (ri_dims r) |}.
Proof.
  intros W. unfold get_constants. rewrite in_flat_map. split.
  - intros (r & Hr & Hy). apply svalues_get in Hr as [n Hn]; auto.
    destruct (it_type (ri_item r)) as [d|u|c] eqn:E; try easy. destruct Hy as [<-|[]]. eauto 6.
  - intros (n & r & d & Hn & E & ->). exists r. split; [apply svalues_get; eauto|].
    rewrite E. now left.
Qed.

Lemma item_of_type_dim x d : it_type (item_of x) = ItDimension d -> x = DDimension d.
Proof. destruct x; simpl; intros E; inversion E; now subst. Qed.
Lemma item_of_type_unit x d : it_type (item_of x) = ItUnit d -> x = DUnit d.
Proof. destruct x; simpl; intros E; inversion E; now subst. Qed.
Lemma item_of_type_const x d : it_type (item_of x) = ItConstant d -> x = DConstant d.
Proof. destruct x; simpl; intros E; inversion E; now subst. Qed.

(** A resolved entry, its declaration and its place in the output. *)
Lemma entry_decl S res ds n r :
  resolve_items X env (U4 S) = Some (res, ds) -> sget n res = Some r ->
  exists x, In x (decls S) /\ ri_item r = item_of x /\ decl_name x = n.
Proof.
  intros H Hr. destruct (resolved_entry X env _ _ _ _ _ H Hr) as (Hi & Hn & _).
  apply U4_sub in Hi. rewrite items_of_decls in Hi. apply in_map_iff in Hi as (x & E & Hx).
  exists x. repeat split; auto. rewrite <- Hn, <- E. now rewrite ident_of_item.
Qed.

Definition out_of (S : sys) (res : resolved_map X) : defs X :=
  {| df_dimension_type := fst (get_single_ident (u_dimension_types S) "dimension type" "Dimension");
     df_quantity_type := fst (get_single_ident (u_quantity_types S) "quantity type" "Quantity");
     df_dimensions := get_dimensions X res; df_units := get_units X res;
     df_constants := get_constants X res;
     df_base_dimensions := map (fun d => base_dimension_of (de_name d))
                               (filter is_base_dimension (u_dimensions S)) |}.

Lemma resolve_some S o ds :
  resolve X env S = Some (o, ds) ->
  exists res d8, resolve_items X env (U4 S) = Some (res, d8) /\ o = out_of S res /\
    ds = diags_before S ++ d8 ++ check_type_annotations X res
           ++ check_for_base_units_without_symbol X (get_units X res).
Proof.
  rewrite resolve_unfold. destruct (resolve_items X env (U4 S)) as [[res d8]|]; [|discriminate].
  intros H. inversion H; subst. exists res, d8. auto.
Qed.

Lemma fields_of_entry S res ds x n r :
  NoDup (map decl_name (decls S)) ->
  resolve_items X env (U4 S) = Some (res, ds) -> In x (decls S) -> decl_name x = n ->
  sget n res = Some r ->
  ri_item r = item_of x /\
  forall d, fields_of (out_of S res) x d <-> d = dm_dims (ri_dims r).
Proof.
  intros N H Hx Hn Hr. destruct (entry_decl _ _ _ _ _ H Hr) as (y & Hy & Ey & En).
  assert (y = x).
  { revert N Hx Hy. rewrite <- Hn in En. clear -En. generalize (decls S) as l.
    induction l as [|z l IH]; simpl; [easy|]. intros N. inversion N as [|? ? Hz N']; subst.
    intros [->|Hx] [->|Hy]; auto.
    - exfalso. apply Hz. rewrite <- En. now apply in_map.
    - exfalso. apply Hz. rewrite En. now apply in_map. }
  subst y. split; auto. intros d. pose proof (resolved_wf X env _ _ _ H) as W.
  assert (Uniq : forall n' r', sget n' res = Some r' -> ri_item r' = item_of x -> r' = r).
  { intros n' r' Hr' E'. destruct (resolved_entry X env _ _ _ _ _ H Hr') as (_ & Hi & _).
    rewrite E', ident_of_item in Hi. congruence. }
  destruct x as [e|e|e]; simpl.
  - split.
    + intros (y & Hin & Hna & <-). apply get_dimensions_In in Hin as (n' & r' & d' & G & Et & ->); auto.
      simpl in *. assert (Er : r' = r).
      { destruct (entry_decl _ _ _ _ _ H G) as (x' & Hx' & Ex' & En').
        rewrite Ex' in Et. apply item_of_type_dim in Et. subst x'. simpl in En'. congruence. }
      now rewrite Er.
    + intros ->. exists {| d_name := de_name e; d_dims := dm_dims (ri_dims r) |}. simpl.
      repeat split; auto. apply get_dimensions_In; auto. exists n, r, e. rewrite Ey. auto.
  - split.
    + intros (y & Hin & Hna & <-). apply get_units_In in Hin as (n' & r' & d' & G & Et & ->); auto.
      simpl in *. assert (Er : r' = r).
      { destruct (entry_decl _ _ _ _ _ H G) as (x' & Hx' & Ex' & En').
        rewrite Ex' in Et. apply item_of_type_unit in Et. subst x'. simpl in En'. congruence. }
      now rewrite Er.
    + intros ->. eexists. repeat split.
      * apply get_units_In; auto. exists n, r, e. rewrite Ey. simpl. auto.
      * reflexivity.
      * reflexivity.
  - split.
    + intros (y & Hin & Hna & <-). apply get_constants_In in Hin as (n' & r' & d' & G & Et & ->); auto.
      simpl in *. assert (Er : r' = r).
      { destruct (entry_decl _ _ _ _ _ H G) as (x' & Hx' & Ex' & En').
        rewrite Ex' in Et. apply item_of_type_const in Et. subst x'. simpl in En'. congruence. }
      now rewrite Er.
    + intros ->. eexists. repeat split.
      * apply get_constants_In; auto. exists n, r, e. rewrite Ey. simpl. auto.
      * reflexivity.
      * reflexivity.
Qed.
End Facts.
