(** * Which diagnostics are emitted, independence of declaration order, sortedness *)
From Coq Require Import String List Bool ZArith QArith Qcanon Lia Permutation Sorted.
From Verif Require Import MachineInt Ratio F64 Magnitude Exponent ExponentFacts SMap Expression
  DimensionMath DimensionMathFacts Types Snake Resolve ResolveLoop ResolveChecks SystemSpec
  ResolveFacts ResolveAccept.
Import ListNotations.
Local Open Scope list_scope.

Section Reports.
Context (X : exp_ops) (L : exp_laws X) (env : fenv).
Notation sys := (unresolved X (unit_entry X)).

(** All names the declarations mention are declared. *)
Definition all_defined (S : sys) : Prop :=
  forall x n, In x (decls S) -> mentions x n -> In n (map decl_name (decls S)).
Definition unique_names (S : sys) : Prop := NoDup (map decl_name (decls S)).

Lemma all_defined_nil (S : sys) :
  all_defined S <-> snd (filter_undefined X (items_of X S)) = [].
Proof.
  rewrite undefined_nil. split.
  - intros H i n Hi Hn. rewrite items_of_decls in Hi. apply in_map_iff in Hi as (x & <- & Hx).
    rewrite names_of_items. apply (H x); auto. now apply mentions_item.
  - intros H x n Hx Hm. rewrite <- names_of_items. apply (H (item_of X x)).
    + rewrite items_of_decls. now apply in_map.
    + now apply mentions_item.
Qed.

(** ** Which part of the pipeline emits which message *)

Lemma get_single_ident_emits l a b y :
  In y (snd (get_single_ident l a b)) -> y = TypeNone a \/ exists i, y = TypeMultiple a i.
Proof.
  destruct l as [|t [|t2 l]]; simpl; [intuition|easy|].
  intros [<-|[<-|H]]; eauto. apply in_map_iff in H as (i & <- & _). eauto.
Qed.

Lemma annotations_emit res y :
  In y (check_type_annotations X res) ->
  (exists a, y = UndefinedAnnotation a) \/ (exists a, y = ViolatedAnnotation a) \/
  (exists a k, y = WrongTypeInAnnotation a k).
Proof.
  unfold check_type_annotations, check_annotation. rewrite in_flat_map. intros (r & _ & H).
  destruct (it_annotation (ri_item r)) as [a|]; [|easy].
  destruct (sget a res) as [an|]; [|destruct H as [<-|[]]; eauto].
  destruct (it_kind (ri_item an)); try (destruct H as [<-|[]]; eauto; fail).
  destruct (bd_eq X _ _); [easy|]. destruct H as [<-|[]]; eauto.
Qed.

Lemma no_symbol_emits us y :
  In y (check_for_base_units_without_symbol X us) -> exists n, y = NoSymbol n.
Proof.
  unfold check_for_base_units_without_symbol. rewrite in_flat_map. intros (u & _ & H).
  destruct (un_is_base u); [|easy]. destruct (un_symbol u); [easy|]. destruct H as [<-|[]]; eauto.
Qed.

Lemma loop_emits U res ds y :
  resolve_items X env U = Some (res, ds) -> In y ds -> exists n, y = Unresolvable n.
Proof.
  intros H Hy. pose proof (resolve_items_spec X env U) as O. rewrite H in O.
  destruct O as (rest & _ & -> & _). apply in_map_iff in Hy as (i & <- & _). eauto.
Qed.

Ltac split_app H := repeat (apply in_app_or in H as [H|H]).
Ltac emitters H :=
  first [ apply get_single_ident_emits in H as [?|[? ?]]
        | apply annotations_emit in H as [[? ?]|[[? ?]|[? [? ?]]]]
        | apply no_symbol_emits in H as [? ?]
        | apply base_units_report in H as (? & ? & ? & ? & _ & _ & [[_ ?]|(_ & _ & ?)])
        | apply symbols_report in H as (? & ? & _)
        | apply undefined_report in H as (? & ? & _ & _ & ?)
        | apply duplicates_report in H as (? & ? & _)
        | apply kinds_report in H as (? & ? & ? & _ & _ & _ & _ & ?)
        | eapply loop_emits in H as [? ?]; [|eassumption] ].

Lemma in_part (S : sys) res d8 y :
  resolve_items X env (U4 X S) = Some (res, d8) ->
  In y (diags_before X S ++ d8 ++ check_type_annotations X res
          ++ check_for_base_units_without_symbol X (get_units X res)) ->
  match y with
  | TypeMultiple _ _ | TypeNone _ => True
  | MultipleBaseUnits _ _ | BaseUnitForNonBase _ _ =>
      In y (check_invalid_base_units (u_units S) (filter is_base_dimension (u_dimensions S)))
  | SymbolMultiple _ _ => In y (check_multiply_defined_symbols (u_units S))
  | Undefined _ => In y (snd (filter_undefined X (items_of X S)))
  | MultipleDefinitions _ => In y (filter_multiply_defined X (U2 X S))
  | KindNotAllowed _ _ _ _ => In y (check_kinds_in_definitions X (U3 X S))
  | Unresolvable _ => In y d8
  | WrongTypeInAnnotation _ _ | ViolatedAnnotation _ | UndefinedAnnotation _ =>
      In y (check_type_annotations X res)
  | NoSymbol _ => In y (check_for_base_units_without_symbol X (get_units X res))
  end.
Proof.
  intros Hres H. unfold diags_before in H. split_app H.
  all: destruct y; auto; exfalso; emitters H; discriminate.
Qed.

Lemma in_before (S : sys) (l y : list diag) z : In z (diags_before X S) -> In z (diags_before X S ++ l).
Proof. intros H. apply in_or_app. now left. Qed.

(** ** Undefined names (C28) *)

Theorem undefined_sound (S : sys) o ds n :
  resolve X env S = Some (o, ds) -> In (Undefined n) ds ->
  ~ In n (map decl_name (decls S)) /\ exists x, In x (decls S) /\ mentions x n.
Proof.
  intros R H. apply resolve_some in R as (res & d8 & Hres & -> & ->).
  apply (in_part S res d8) in H; auto; cbv beta iota in H.
  apply undefined_report in H as (i & m & Hi & E & Em). inversion Em; subst m.
  apply first_undefined_some in E as [H1 H2]. rewrite names_of_items in H2. split; auto.
  rewrite items_of_decls in Hi. apply in_map_iff in Hi as (x & <- & Hx).
  exists x. split; auto. now apply mentions_item.
Qed.

Theorem undefined_complete (S : sys) o ds x n :
  resolve X env S = Some (o, ds) -> In x (decls S) -> mentions x n ->
  ~ In n (map decl_name (decls S)) ->
  exists m, In (Undefined m) ds /\ mentions x m /\ ~ In m (map decl_name (decls S)).
Proof.
  intros R Hx Hm Hn. apply resolve_some in R as (res & d8 & Hres & -> & ->).
  destruct (first_undefined X (map it_ident (items_of X S)) (item_of X x)) as [m|] eqn:E.
  - exists m. pose proof E as E'. apply first_undefined_some in E as [H1 H2].
    rewrite names_of_items in H2. split; [|split; auto; now apply mentions_item].
    apply in_or_app. left. unfold diags_before.
    do 4 (apply in_or_app; right). apply in_or_app; left.
    apply undefined_report. exists (item_of X x), m. split; auto.
    rewrite items_of_decls. now apply in_map.
  - exfalso. apply Hn. rewrite <- names_of_items. rewrite first_undefined_none in E. apply E.
    now apply mentions_item.
Qed.

(** ** Duplicates (C29) *)

Lemma occurrences_repeat n (U : list (item X)) :
  occurrences n U = repeat n (length (occurrences n U)).
Proof.
  unfold occurrences. induction U as [|i U IH]; simpl; auto.
  destruct (String.eqb_spec (it_ident i) n) as [E|E]; simpl; auto. rewrite <- IH. now rewrite E.
Qed.

Lemma sub_count (S : sys) n : (length (occurrences n (U2 X S)) <=
  count_occ String.string_dec (map decl_name (decls S)) n)%nat.
Proof.
  rewrite <- names_of_items, <- occurrences_count.
  assert (G : forall p (U : list (item X)), (length (occurrences n (filter p U)) <= length (occurrences n U))%nat).
  { intros p U. unfold occurrences. rewrite !map_length. induction U as [|i U IH]; simpl; auto.
    destruct (p i); simpl; destruct (String.eqb (it_ident i) n); simpl; lia. }
  unfold U2, U1, filter_autogenerated_invalid, filter_undefined; simpl.
  etransitivity; [apply G|apply G].
Qed.

Theorem duplicates_sound (S : sys) o ds l :
  resolve X env S = Some (o, ds) -> In (MultipleDefinitions l) ds ->
  exists n k, l = repeat n k /\ (2 <= k <= count_occ String.string_dec (map decl_name (decls S)) n)%nat.
Proof.
  intros R H. apply resolve_some in R as (res & d8 & Hres & -> & ->).
  apply (in_part S res d8) in H; auto; cbv beta iota in H.
  apply duplicates_report in H as (n & E & Hl). inversion E; subst l.
  exists n, (length (occurrences n (U2 X S))). split; [apply occurrences_repeat|].
  pose proof (sub_count S n). lia.
Qed.

Theorem duplicates_complete (S : sys) o ds n :
  generated_ok X S -> all_defined S -> resolve X env S = Some (o, ds) ->
  (2 <= count_occ String.string_dec (map decl_name (decls S)) n)%nat ->
  In (MultipleDefinitions (repeat n (count_occ String.string_dec (map decl_name (decls S)) n))) ds.
Proof.
  intros G D R H. apply resolve_some in R as (res & d8 & Hres & -> & ->).
  apply all_defined_nil in D. destruct (U_defined X S G D) as (E2 & _ & _).
  apply in_or_app. left. unfold diags_before. do 5 (apply in_or_app; right). apply in_or_app; left.
  apply duplicates_report. exists n. rewrite E2.
  rewrite (occurrences_repeat n (items_of X S)), occurrences_count, names_of_items, repeat_length.
  split; [reflexivity|lia].
Qed.

(** ** Kinds (C30) *)

Theorem kinds_exact (S : sys) o ds l r kl kr :
  generated_ok X S -> all_defined S -> unique_names S -> resolve X env S = Some (o, ds) ->
  In (KindNotAllowed l r kl kr) ds <->
  exists x y, In x (decls S) /\ In y (decls S) /\ mentions x (decl_name y) /\
    ~ may_mention (decl_kind x) (decl_kind y) /\
    l = decl_name x /\ r = decl_name y /\ kl = decl_kind x /\ kr = decl_kind y.
Proof.
  intros G D N R. apply resolve_some in R as (res & d8 & Hres & -> & ->).
  apply all_defined_nil in D. destruct (U_defined X S G D) as (_ & E3 & _).
  assert (Ni : NoDup (map it_ident (items_of X S))) by now rewrite names_of_items.
  split.
  - intros H. apply (in_part S res d8) in H; auto; cbv beta iota in H. rewrite E3 in H.
    apply kinds_report in H as (lhs & rhs & k & Hl & Ho & Hk & A & E).
    rewrite items_of_decls in Hl. apply in_map_iff in Hl as (x & <- & Hx).
    apply kinds_of_some in Hk as (j & Hj & Ej & Kj).
    rewrite items_of_decls in Hj. apply in_map_iff in Hj as (y & <- & Hy).
    rewrite ident_of_item in Ej. rewrite kind_of_item in Kj. subst rhs k.
    rewrite ident_of_item, kind_of_item in E. rewrite kind_of_item in A.
    inversion E; subst. exists x, y. repeat split; auto.
    + now apply mentions_item.
    + intros M. apply kind_allowed_iff in M. congruence.
  - intros (x & y & Hx & Hy & Hm & HK & -> & -> & -> & ->).
    apply in_or_app. left. unfold diags_before. do 6 (apply in_or_app; right).
    apply kinds_report. exists (item_of X x), (decl_name y), (decl_kind y).
    rewrite E3. repeat split.
    + rewrite items_of_decls. now apply in_map.
    + now apply mentions_item.
    + rewrite <- ident_of_item, <- kind_of_item. apply kinds_of_unique; auto.
      rewrite items_of_decls. now apply in_map.
    + rewrite kind_of_item. destruct (kind_allowed (decl_kind x) (decl_kind y)) eqn:A; auto.
      apply kind_allowed_iff in A. contradiction.
    + now rewrite ident_of_item, kind_of_item.
Qed.

(** ** Base units (C33) *)

Theorem base_units_exact (S : sys) o ds d u :
  generated_ok X S -> resolve X env S = Some (o, ds) ->
  (In (BaseUnitForNonBase d u) ds <->
     exists e, In e (u_units S) /\ ue_name e = u /\ base_unit_of e d /\
       ~ exists b, In b (u_dimensions S) /\ de_name b = d /\ de_rhs b = DefBase tt) /\
  (In (MultipleBaseUnits d u) ds <->
     exists before e after e', u_units S = before ++ e :: after /\ ue_name e = u /\
       base_unit_of e d /\ In e' before /\ base_unit_of e' d /\
       exists b, In b (u_dimensions S) /\ de_name b = d /\ de_rhs b = DefBase tt).
Proof.
  intros G R. apply resolve_some in R as (res & d8 & Hres & -> & ->).
  assert (Up : forall y, In y (check_invalid_base_units (u_units S) (filter is_base_dimension (u_dimensions S))) ->
    In y (diags_before X S ++ d8 ++ check_type_annotations X res
          ++ check_for_base_units_without_symbol X (get_units X res))).
  { intros y Hy. apply in_or_app. left. unfold diags_before. do 2 (apply in_or_app; right).
    apply in_or_app. now left. }
  split; split.
  - intros H. apply (in_part S res d8) in H; auto; cbv beta iota in H.
    apply base_units_report in H as (a & e & b & d' & Eu & Hb & [[Hn E]|(_ & _ & E)]); [|discriminate].
    inversion E; subst d' u. exists e.
    assert (He : In e (u_units S)) by (rewrite Eu; apply in_or_app; right; now left).
    repeat split; auto; [now apply (base_of_base_unit X S)|]. intros Hx. apply Hn. now apply base_names.
  - intros (e & He & <- & Hb & Hn). apply Up. apply base_units_report.
    apply (base_of_base_unit X S) in Hb; auto. apply in_split in He as (a & b & E).
    exists a, e, b, d. repeat split; auto. left. split; auto. intros Hx. apply Hn. now apply base_names.
  - intros H. apply (in_part S res d8) in H; auto; cbv beta iota in H.
    apply base_units_report in H as (a & e & b & d' & Eu & Hb & [[_ E]|(Hd & (v & Hv & Hbv) & E)]); [discriminate|].
    inversion E; subst d' u. exists a, e, b, v.
    assert (He : In e (u_units S)) by (rewrite Eu; apply in_or_app; right; now left).
    assert (Hv' : In v (u_units S)) by (rewrite Eu; apply in_or_app; now left).
    repeat split; auto; try (now apply (base_of_base_unit X S)). now apply base_names.
  - intros (a & e & b & v & Eu & <- & Hb & Hv & Hbv & Hd). apply Up. apply base_units_report.
    assert (He : In e (u_units S)) by (rewrite Eu; apply in_or_app; right; now left).
    assert (Hv' : In v (u_units S)) by (rewrite Eu; apply in_or_app; now left).
    exists a, e, b, d. split; auto. split; [now apply (base_of_base_unit X S)|].
    right. split; [now apply base_names|]. split; auto. exists v. split; auto.
    now apply (base_of_base_unit X S).
Qed.

(** ** Symbols (C34, C35) *)

Definition users_of (S : sys) (s : ident) : list ident :=
  flat_map (fun u => match ue_symbol u with
                     | Some t => if String.eqb t s then [ue_name u] else []
                     | None => []
                     end) (u_units S).

Lemma users_of_eq (S : sys) s : users_of S s = users (u_units S) s.
Proof.
  unfold users_of, users. induction (u_units S) as [|u l IH]; simpl; auto. rewrite IH.
  unfold has_symbol. destruct (ue_symbol u) as [t|]; simpl; auto.
  rewrite (String.eqb_sym t s). now destruct (String.eqb s t).
Qed.

Theorem symbols_exact (S : sys) o ds s us :
  resolve X env S = Some (o, ds) ->
  In (SymbolMultiple s us) ds <-> us = users_of S s /\ (2 <= length us)%nat.
Proof.
  intros R. apply resolve_some in R as (res & d8 & Hres & -> & ->). rewrite users_of_eq. split.
  - intros H. apply (in_part S res d8) in H; auto; cbv beta iota in H.
    apply symbols_report in H as (s' & E & Hl). inversion E; subst. split; auto; lia.
  - intros [-> Hl]. apply in_or_app. left. unfold diags_before. do 3 (apply in_or_app; right).
    apply in_or_app. left. apply symbols_report. eauto.
Qed.

Theorem no_symbol_exact (S : sys) o ds n :
  generated_ok X S -> unique_names S -> resolve X env S = Some (o, ds) ->
  In (NoSymbol n) ds <->
  exists u d, In u (u_units S) /\ ue_name u = n /\ base_unit_of u d /\ ue_symbol u = None /\
              grounded S n.
Proof.
  intros G N R. apply resolve_some in R as (res & d8 & Hres & -> & ->).
  pose proof (resolved_wf X env _ _ _ Hres) as W. split.
  - intros H. apply (in_part S res d8) in H; auto; cbv beta iota in H.
    unfold check_for_base_units_without_symbol in H. apply in_flat_map in H as (y & Hy & H).
    apply get_units_In in Hy as (m & r & u & Hr & Et & ->); auto. simpl in H.
    destruct (ue_definition u) as [d|e] eqn:Ed; [|easy].
    destruct (ue_symbol u) as [s|] eqn:Es; [easy|]. destruct H as [E|[]]. inversion E; subst n.
    destruct (entry_decl X env _ _ _ _ _ Hres Hr) as (x & Hx & Ei & Nx).
    rewrite Ei in Et. apply item_of_type_unit in Et. subst x. simpl in Nx.
    exists u, d. repeat split; auto; [now apply unit_decl|].
    apply (resolved_names X env S res d8 _ G Hres). rewrite Nx. apply sget_keys. eauto.
  - intros (u & d & Hu & <- & Hb & Hs & Hg). unfold base_unit_of in Hb.
    apply (resolved_names X env S res d8 _ G Hres) in Hg. apply sget_keys in Hg as [r Hr].
    apply unit_decl in Hu.
    destruct (fields_of_entry X env S res d8 (DUnit u) _ r N Hres Hu eq_refl Hr) as [Ei _].
    do 3 (apply in_or_app; right). unfold check_for_base_units_without_symbol.
    apply in_flat_map. eexists. split.
    + apply get_units_In; auto. exists (ue_name u), r, u. rewrite Ei. simpl. auto.
    + simpl. rewrite Hb, Hs. now left.
Qed.

(** ** Unresolvable names and results (C26) *)

Theorem results_grounded (S : sys) o ds n :
  generated_ok X S -> resolve X env S = Some (o, ds) ->
  In n (result_names o) <-> grounded S n.
Proof.
  intros G R. apply resolve_some in R as (res & d8 & Hres & -> & ->).
  pose proof (resolved_wf X env _ _ _ Hres) as W.
  rewrite <- (resolved_names X env S res d8 n G Hres). unfold result_names. simpl.
  rewrite !in_app_iff, !in_map_iff. split.
  - intros [(y & <- & Hy)|[(y & <- & Hy)|(y & <- & Hy)]].
    + apply get_dimensions_In in Hy as (m & r & d & Hr & Et & ->); auto. simpl.
      destruct (entry_decl X env _ _ _ _ _ Hres Hr) as (x & Hx & Ex & Nx).
      rewrite Ex in Et. apply item_of_type_dim in Et. subst x. simpl in Nx. rewrite Nx.
      apply sget_keys; eauto.
    + apply get_units_In in Hy as (m & r & d & Hr & Et & ->); auto. simpl.
      destruct (entry_decl X env _ _ _ _ _ Hres Hr) as (x & Hx & Ex & Nx).
      rewrite Ex in Et. apply item_of_type_unit in Et. subst x. simpl in Nx. rewrite Nx.
      apply sget_keys; eauto.
    + apply get_constants_In in Hy as (m & r & d & Hr & Et & ->); auto. simpl.
      destruct (entry_decl X env _ _ _ _ _ Hres Hr) as (x & Hx & Ex & Nx).
      rewrite Ex in Et. apply item_of_type_const in Et. subst x. simpl in Nx. rewrite Nx.
      apply sget_keys; eauto.
  - intros Hk. apply sget_keys in Hk as [r Hr].
    destruct (entry_decl X env _ _ _ _ _ Hres Hr) as (x & Hx & Ex & Nx).
    destruct x as [d|u|c]; simpl in Nx.
    + left. exists {| d_name := de_name d; d_dims := dm_dims (ri_dims r) |}. split; auto.
      apply get_dimensions_In; auto. exists n, r, d. rewrite Ex. auto.
    + right; left. eexists. split; [|apply get_units_In; auto; exists n, r, u; rewrite Ex; simpl; auto].
      exact Nx.
    + right; right. eexists. split; [|apply get_constants_In; auto; exists n, r, c; rewrite Ex; simpl; auto].
      exact Nx.
Qed.

Theorem unresolvable_sound (S : sys) o ds n :
  generated_ok X S -> unique_names S -> resolve X env S = Some (o, ds) ->
  In (Unresolvable n) ds -> In n (map decl_name (decls S)) /\ ~ grounded S n.
Proof.
  intros G N R H. apply resolve_some in R as (res & d8 & Hres & -> & ->).
  apply (in_part S res d8) in H; auto; cbv beta iota in H.
  apply (reported_unresolvable X env _ _ _ (U4_nodup X S N) Hres) in H as (i & Hi & Hn & E).
  inversion E; subst n. apply U4_sub in Hi. split.
  - rewrite <- names_of_items. now apply in_map.
  - intros Hg. apply igrounded_iff in Hg. apply Hn. now apply grounded_U4.
Qed.

Theorem unresolvable_complete (S : sys) o ds n :
  generated_ok X S -> unique_names S -> all_defined S -> resolve X env S = Some (o, ds) ->
  In n (map decl_name (decls S)) -> ~ grounded S n -> In (Unresolvable n) ds.
Proof.
  intros G N D R Hn Hg. apply resolve_some in R as (res & d8 & Hres & -> & ->).
  apply all_defined_nil in D. destruct (U_defined X S G D) as (_ & _ & E4).
  apply in_or_app; right. apply in_or_app; left.
  apply (reported_unresolvable X env _ _ _ (U4_nodup X S N) Hres).
  rewrite <- names_of_items in Hn. apply in_map_iff in Hn as (i & <- & Hi). exists i.
  rewrite E4. split; auto. split; auto. intros H. apply Hg. now apply igrounded_iff.
Qed.

(** ** Sortedness (C36) *)

Lemma sorted_pick {V} (m : smap V) (f : V -> option ident) :
  wf m -> (forall k v n, In (k, v) m -> f v = Some n -> n = k) ->
  StronglySorted slt (flat_map (fun kv => match f (snd kv) with Some n => [n] | None => [] end) m).
Proof.
  intros W. induction m as [|[k v] m IH]; intros H; simpl; [constructor|].
  apply wf_cons_inv in W as [W' A].
  assert (IHm : StronglySorted slt (flat_map (fun kv => match f (snd kv) with Some n => [n] | None => [] end) m)).
  { apply IH; auto. intros k' v' n Hin. apply H. now right. }
  destruct (f v) as [n|] eqn:E; simpl; auto. constructor; auto.
  assert (n = k) by (eapply H; [now left|exact E]). subst n.
  apply Forall_forall. intros y Hy. apply in_flat_map in Hy as ([k' v'] & Hin & Hy). simpl in Hy.
  destruct (f v') as [n|] eqn:E'; [|easy]. destruct Hy as [<-|[]].
  assert (n = k') by (eapply H; [right; exact Hin|exact E']). subst n.
  rewrite Forall_forall in A. exact (A _ Hin).
Qed.

Theorem results_sorted (S : sys) o ds :
  resolve X env S = Some (o, ds) ->
  StronglySorted slt (map d_name (df_dimensions o)) /\
  StronglySorted slt (map un_name (df_units o)) /\
  StronglySorted slt (map c_name (df_constants o)).
Proof.
  intros R. apply resolve_some in R as (res & d8 & Hres & -> & ->). simpl.
  pose proof (resolved_wf X env _ _ _ Hres) as W.
  assert (K : forall k r, In (k, r) res -> it_ident (ri_item r) = k).
  { intros k r Hin. apply In_sget in Hin; auto.
    destruct (resolved_entry X env _ _ _ _ _ Hres Hin) as (_ & E & _). exact E. }
  split; [|split].
  - replace (map d_name (get_dimensions X res)) with
      (flat_map (fun kv => match (match it_type (ri_item (snd kv)) with ItDimension d => Some (de_name d) | _ => None end)
                           with Some n => [n] | None => [] end) res).
    + apply (sorted_pick res (fun r => match it_type (ri_item r) with ItDimension d => Some (de_name d) | _ => None end)); auto.
      intros k v n Hin E. apply K in Hin. unfold it_ident in Hin.
      destruct (it_type (ri_item v)); congruence.
    + clear. unfold get_dimensions, svalues. induction res as [|[k v] m IH]; simpl; auto.
      rewrite map_app, IH. destruct (it_type (ri_item v)); reflexivity.
  - replace (map un_name (get_units X res)) with
      (flat_map (fun kv => match (match it_type (ri_item (snd kv)) with ItUnit d => Some (ue_name d) | _ => None end)
                           with Some n => [n] | None => [] end) res).
    + apply (sorted_pick res (fun r => match it_type (ri_item r) with ItUnit d => Some (ue_name d) | _ => None end)); auto.
      intros k v n Hin E. apply K in Hin. unfold it_ident in Hin.
      destruct (it_type (ri_item v)); congruence.
    + clear. unfold get_units, svalues. induction res as [|[k v] m IH]; simpl; auto.
      rewrite map_app, IH. destruct (it_type (ri_item v)); reflexivity.
  - replace (map c_name (get_constants X res)) with
      (flat_map (fun kv => match (match it_type (ri_item (snd kv)) with ItConstant d => Some (ce_name d) | _ => None end)
                           with Some n => [n] | None => [] end) res).
    + apply (sorted_pick res (fun r => match it_type (ri_item r) with ItConstant d => Some (ce_name d) | _ => None end)); auto.
      intros k v n Hin E. apply K in Hin. unfold it_ident in Hin.
      destruct (it_type (ri_item v)); congruence.
    + clear. unfold get_constants, svalues. induction res as [|[k v] m IH]; simpl; auto.
      rewrite map_app, IH. destruct (it_type (ri_item v)); reflexivity.
Qed.

(** ** Declaration order (C25) *)

Definition permuted {U} (S1 S2 : unresolved X U) : Prop :=
  Permutation (u_dimension_types S1) (u_dimension_types S2) /\
  Permutation (u_quantity_types S1) (u_quantity_types S2) /\
  Permutation (u_dimensions S1) (u_dimensions S2) /\
  Permutation (u_units S1) (u_units S2) /\
  Permutation (u_constants S1) (u_constants S2).

Lemma permuted_sym {U} (S1 S2 : unresolved X U) : permuted S1 S2 -> permuted S2 S1.
Proof. unfold permuted. intuition; now apply Permutation_sym. Qed.

Lemma permuted_decls (S1 S2 : sys) : permuted S1 S2 -> Permutation (decls S1) (decls S2).
Proof.
  intros (_ & _ & Hd & Hu & Hc). unfold decls.
  repeat apply Permutation_app; now apply Permutation_map.
Qed.

Lemma filter_perm {A} (p q : A -> bool) l1 l2 :
  Permutation l1 l2 -> (forall x, In x l1 -> p x = q x) -> Permutation (filter p l1) (filter q l2).
Proof.
  intros P. revert p q. induction P as [|x l l' P IH|x y l|l l' l'' P1 IH1 P2 IH2]; intros p q H; simpl.
  - constructor.
  - rewrite (H x) by now left. destruct (q x); [apply perm_skip|]; apply IH; intros; apply H; now right.
  - rewrite (H x), (H y) by (simpl; auto).
    assert (E : filter p l = filter q l) by (apply filter_ext_in; intros; apply H; simpl; auto).
    rewrite E. destruct (q x), (q y); auto using perm_swap.
  - etransitivity; [apply IH1; exact H|]. apply IH2. intros; reflexivity.
Qed.

Lemma auto_perm (U1 U2 : list (item X)) :
  Permutation U1 U2 ->
  Permutation (filter_autogenerated_invalid X U1) (filter_autogenerated_invalid X U2).
Proof.
  intros P. unfold filter_autogenerated_invalid. apply filter_perm; auto. intros i Hi.
  destruct (it_type i) as [|u|]; auto. destruct (ue_autogenerated_from u) as [s|]; auto.
  apply eq_true_iff_eq. rewrite !memb_iff. split; apply Permutation_in;
    [|apply Permutation_sym]; now apply Permutation_map.
Qed.

Lemma undefined_perm (U1 U2 : list (item X)) :
  Permutation U1 U2 -> Permutation (fst (filter_undefined X U1)) (fst (filter_undefined X U2)).
Proof.
  intros P. unfold filter_undefined; simpl. apply filter_perm; auto. intros i Hi.
  assert (E : first_undefined X (map it_ident U1) i = first_undefined X (map it_ident U2) i).
  { unfold first_undefined. assert (E : forall n, memb n (map it_ident U1) = memb n (map it_ident U2)).
    { intros n. apply eq_true_iff_eq. rewrite !memb_iff. split; apply Permutation_in;
      [|apply Permutation_sym]; now apply Permutation_map. }
    clear Hi. induction (others (it_expr i)) as [|n l IH]; simpl; auto. rewrite E, IH. reflexivity. }
  now rewrite E.
Qed.

Lemma items_perm (S1 S2 : sys) : permuted S1 S2 -> Permutation (items_of X S1) (items_of X S2).
Proof. intros P. rewrite !items_of_decls. apply Permutation_map. now apply permuted_decls. Qed.

Lemma U4_perm (S1 S2 : sys) : permuted S1 S2 -> Permutation (U4 X S1) (U4 X S2).
Proof.
  intros P. unfold U4, U3, U2, U1. repeat apply auto_perm. apply undefined_perm. now apply items_perm.
Qed.

Lemma grounded_perm (S1 S2 : sys) n : permuted S1 S2 -> grounded S1 n -> grounded S2 n.
Proof.
  intros P H. induction H as [x Hx Hm IH]. constructor; auto.
  exact (Permutation_in _ (permuted_decls S1 S2 P) Hx).
Qed.

Lemma single_perm {A} (l1 l2 : list A) : Permutation l1 l2 -> (exists q, l1 = [q]) -> exists q, l2 = [q].
Proof. intros P [q ->]. apply Permutation_length_1_inv in P. eauto. Qed.

Lemma well_formed_perm (S1 S2 : sys) : permuted S1 S2 -> well_formed S1 -> well_formed S2.
Proof.
  intros P WF. pose proof (permuted_decls _ _ P) as PD. destruct P as (Pt & Pq & Pd & Pu & Pc).
  assert (D : forall x, In x (decls S2) -> In x (decls S1))
    by (intros x; apply Permutation_in; now apply Permutation_sym).
  assert (U : forall x, In x (u_units S2) -> In x (u_units S1))
    by (intros x; apply Permutation_in; now apply Permutation_sym).
  destruct WF as [Wq Wd Wn Wdef Wg Wk Wb Wbu Ws Wbs]. constructor; eauto using single_perm.
  - eapply Permutation_NoDup; [apply Permutation_map; exact PD|exact Wn].
  - intros x n Hx Hm. eapply Permutation_in; [apply Permutation_map; exact PD|]. eauto.
  - intros x Hx. eapply (grounded_perm S1 S2); [repeat split; assumption|]. auto.
  - intros u dim Hu Hb. destruct (Wb u dim) as (d & Hd & E1 & E2); auto.
    exists d. repeat split; auto. eapply Permutation_in; eauto.
Qed.

Theorem order_independent (S1 S2 : sys) :
  generated_ok X S1 -> generated_ok X S2 -> permuted S1 S2 -> unique_names S1 ->
  match resolve X env S1, resolve X env S2 with
  | Some (o1, ds1), Some (o2, ds2) =>
      df_dimensions o1 = df_dimensions o2 /\ df_units o1 = df_units o2 /\
      df_constants o1 = df_constants o2 /\
      Permutation (df_base_dimensions o1) (df_base_dimensions o2) /\
      (ds1 = [] <-> ds2 = []) /\
      (ds1 = [] -> df_quantity_type o1 = df_quantity_type o2 /\
                   df_dimension_type o1 = df_dimension_type o2)
  | None, None => True
  | _, _ => False
  end.
Proof.
  intros G1 G2 P N.
  pose proof (resolve_items_perm X env _ _ (U4_nodup X S1 N) (U4_perm S1 S2 P)) as Q.
  destruct (resolve X env S1) as [[o1 ds1]|] eqn:R1, (resolve X env S2) as [[o2 ds2]|] eqn:R2; auto.
  - pose proof (accept_iff X L env S1 o1 ds1 G1 R1) as A1.
    pose proof (accept_iff X L env S2 o2 ds2 G2 R2) as A2.
    apply resolve_some in R1 as (res1 & d1 & H1 & -> & _).
    apply resolve_some in R2 as (res2 & d2 & H2 & -> & _).
    rewrite H1, H2 in Q. destruct Q as [<- _].
    split; [reflexivity|]. split; [reflexivity|]. split; [reflexivity|].
    split; [|split].
    + simpl. apply Permutation_map. apply filter_perm; auto. apply P.
    + rewrite A1, A2. pose proof (permuted_decls _ _ P) as PD.
      assert (F : forall x d, fields_of (out_of X S1 res1) x d <-> fields_of (out_of X S2 res1) x d)
        by (intros [e|e|e] d; reflexivity).
      split; intros [WF HA]; split.
      * now apply (well_formed_perm S1 S2).
      * intros x Hx a Ha. apply (Permutation_in _ (Permutation_sym PD)) in Hx.
        destruct (HA x Hx a Ha) as (D & dx & K1 & K2 & K3 & K4). exists D, dx.
        repeat split; auto.
      * apply (well_formed_perm S2 S1); auto. now apply permuted_sym.
      * intros x Hx a Ha. apply (Permutation_in _ PD) in Hx.
        destruct (HA x Hx a Ha) as (D & dx & K1 & K2 & K3 & K4). exists D, dx.
        repeat split; auto.
    + intros E. apply A1 in E as [WF _]. destruct P as (Pt & Pq & _).
      destruct (wf_quantity _ _ WF) as [q Eq]. destruct (wf_dimension _ _ WF) as [t Et].
      simpl. rewrite Eq in Pq |- *. rewrite Et in Pt |- *.
      apply Permutation_length_1_inv in Pq. apply Permutation_length_1_inv in Pt.
      rewrite Pq, Pt. auto.
  - apply resolve_some in R1 as (res1 & d1 & H1 & _ & _). rewrite H1 in Q.
    destruct (resolve_items X env (U4 X S2)) as [[res2 d2]|] eqn:H2; [|easy].
    rewrite resolve_unfold, H2 in R2. discriminate.
  - apply resolve_some in R2 as (res2 & d2 & H2 & _ & _). rewrite H2 in Q.
    destruct (resolve_items X env (U4 X S1)) as [[res1 d1]|] eqn:H1; [|easy].
    rewrite resolve_unfold, H1 in R1. discriminate.
Qed.

Lemma expand_permuted (T1 T2 : unresolved X (unit_template X)) :
  permuted T1 T2 -> permuted (expand_templates T1) (expand_templates T2).
Proof.
  intros (Pt & Pq & Pd & Pu & Pc). repeat split; simpl; auto. now apply Permutation_flat_map.
Qed.

End Reports.
