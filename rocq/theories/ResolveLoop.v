(** * The resolution loop computes the least solution of the definitions *)
From Coq Require Import String List Bool ZArith Lia Permutation.
From Verif Require Import MachineInt Ratio F64 Magnitude Exponent SMap Expression DimensionMath
  Types Snake Resolve.
Import ListNotations.
Local Open Scope list_scope.

Section Loop.
Context (X : exp_ops) (env : fenv).
Notation item := (item X).
Notation dm := (dimmag X).

Definition look (lk : ident -> dm) (f : fac dm) : option dm :=
  match f with Concrete c => Some c | Other n => Some (lk n) end.

(** [n] has the value [d] in the system of items [U]. *)
Inductive iden (U : list item) : ident -> dm -> Prop :=
| iden_by i lk d :
    In i U -> (forall n, In n (others (it_expr i)) -> iden U n (lk n)) ->
    eval_with X env (look lk) (it_expr i) = Some d -> iden U (it_ident i) d.

Inductive igrounded (U : list item) : ident -> Prop :=
| igrounded_by i :
    In i U -> (forall n, In n (others (it_expr i)) -> igrounded U n) -> igrounded U (it_ident i).

(** Some definition has the values of all the names it mentions, but evaluating it panics. *)
Definition overflows (U : list item) : Prop :=
  exists i lk, In i U /\ (forall n, In n (others (it_expr i)) -> iden U n (lk n)) /\
    eval_with X env (look lk) (it_expr i) = None.

(** ** Evaluation depends only on the mentioned names *)

Lemma others_val {C} (f : factor (fac C) X) n :
  In n (others (EVal f)) <-> In (Other n) (factor_vals f).
Proof.
  unfold others; simpl. rewrite in_flat_map. split.
  - intros [[c|i] [H1 H2]]; simpl in H2; [easy|]. destruct H2 as [->|[]]. exact H1.
  - intros H. exists (Other n). simpl; auto.
Qed.

Lemma others_vals {C} (e : expr (fac C) X) n : In n (others e) <-> In (Other n) (expr_vals e).
Proof.
  unfold others. rewrite in_flat_map. split.
  - intros [[c|i] [H1 H2]]; simpl in H2; [easy|]. destruct H2 as [->|[]]. exact H1.
  - intros H. exists (Other n). simpl; auto.
Qed.

Lemma eval_bin lk (l : expr (fac dm) X) r op :
  eval_with X env lk (EBin l r op) =
  match eval_with X env lk l, feval_with X env lk r with
  | Some a, Some b => match op with OMul => dm_mul X env a b | ODiv => dm_div X env a b end
  | _, _ => None
  end.
Proof.
  change (eval_with X env lk (EBin l r op)) with
    (let? a := eval_with X env lk l in let? b := feval_with X env lk r in
     match op with OMul => dm_mul X env a b | ODiv => dm_div X env a b end).
  destruct (eval_with X env lk l); auto.
Qed.

Lemma eval_ext_mut lk1 lk2 :
  (forall e : expr (fac dm) X, (forall f, In f (expr_vals e) -> lk1 f = lk2 f) ->
     eval_with X env lk1 e = eval_with X env lk2 e) /\
  (forall v : factor (fac dm) X, (forall f, In f (factor_vals v) -> lk1 f = lk2 f) ->
     feval_with X env lk1 v = feval_with X env lk2 v).
Proof.
  apply expr_factor_ind.
  - intros f IH H. cbn [eval_with]. apply IH. exact H.
  - intros l IHl r IHr op H. cbn [expr_vals] in H. rewrite !eval_bin.
    rewrite IHl by (intros f Hf; apply H; apply in_or_app; now left).
    rewrite IHr by (intros f Hf; apply H; apply in_or_app; now right). reflexivity.
  - intros t H. apply H. now left.
  - intros t e H. cbn [feval_with]. now rewrite (H t) by now left.
  - intros x IH H. cbn [feval_with]. now apply IH.
Qed.

Lemma eval_ext lk1 lk2 e :
  (forall f, In f (expr_vals e) -> lk1 f = lk2 f) ->
  eval_with X env lk1 e = eval_with X env lk2 e.
Proof. apply (proj1 (eval_ext_mut lk1 lk2)). Qed.

Lemma eval_look_ext lk1 lk2 (e : expr (fac dm) X) :
  (forall n, In n (others e) -> lk1 n = lk2 n) ->
  eval_with X env (look lk1) e = eval_with X env (look lk2) e.
Proof.
  intros H. apply eval_ext. intros [c|n] Hf; simpl; auto. f_equal. apply H.
  now apply others_vals.
Qed.

(** ** Uniqueness *)

Lemma same_item U (i j : item) :
  NoDup (map it_ident U) -> In i U -> In j U -> it_ident i = it_ident j -> i = j.
Proof.
  induction U as [|x U IH]; simpl; [easy|]. intros N Hi Hj E. inversion N as [|? ? Hx N']; subst.
  destruct Hi as [->|Hi], Hj as [->|Hj]; auto.
  - exfalso. apply Hx. rewrite E. now apply in_map.
  - exfalso. apply Hx. rewrite <- E. now apply in_map.
Qed.

Lemma iden_functional U n d1 d2 :
  NoDup (map it_ident U) -> iden U n d1 -> iden U n d2 -> d1 = d2.
Proof.
  intros N H1. revert d2. induction H1 as [i lk d Hi Hlk IH He].
  intros d2 H2. inversion H2 as [j lk' d' Hj Hlk' He' E]; subst.
  assert (j = i) by (eapply same_item; eauto). subst j.
  rewrite (eval_look_ext lk' lk) in He' by (intros n Hn; symmetry; apply IH; auto).
  congruence.
Qed.

Lemma iden_grounded U n d : iden U n d -> igrounded U n.
Proof. induction 1 as [i lk d Hi Hlk IH He]. now constructor. Qed.

(** ** The loop *)

Lemma take_first_some p (l : list item) i rest :
  take_first X p l = Some (i, rest) ->
  p i = true /\ exists a b, l = a ++ i :: b /\ rest = a ++ b /\ forallb (fun x => negb (p x)) a = true.
Proof.
  revert i rest. induction l as [|x l IH]; simpl; intros i rest H; [discriminate|].
  destruct (p x) eqn:E.
  - inversion H; subst. split; auto. exists [], rest. auto.
  - destruct (take_first X p l) as [[j r]|] eqn:Et; [|discriminate]. inversion H; subst.
    destruct (IH _ _ eq_refl) as [Hp (a & b & -> & -> & Ha)]. split; auto.
    exists (x :: a), b. simpl. now rewrite E.
Qed.

Lemma take_first_none p (l : list item) :
  take_first X p l = None -> forall i, In i l -> p i = false.
Proof.
  induction l as [|x l IH]; simpl; intros H i Hi; [easy|].
  destruct (p x) eqn:E; [discriminate|].
  destruct (take_first X p l) as [[j r]|] eqn:Et; [discriminate|].
  destruct Hi as [->|Hi]; auto.
Qed.

Lemma is_resolvable_iff res i :
  is_resolvable X res i = true <-> forall n, In n (others (it_expr i)) -> In n (skeys res).
Proof.
  unfold is_resolvable. rewrite forallb_forall. split.
  - intros H n Hn. apply others_vals in Hn. specialize (H _ Hn). simpl in H. now apply smem_iff.
  - intros H [c|n] Hf; auto. apply smem_iff. apply H. now apply others_vals.
Qed.

Record loop_inv (U unres : list item) (res : resolved_map X) : Prop := {
  inv_wf : wf res;
  inv_sub : forall i, In i unres -> In i U;
  inv_entry : forall n ri, sget n res = Some ri ->
     In (ri_item ri) U /\ it_ident (ri_item ri) = n /\ iden U n (ri_dims ri);
  inv_cover : forall i, In i U -> In i unres \/ In (it_ident i) (skeys res)
}.

(** The default value is only used for names that are not mentioned. *)
Definition dm_default : dm := dm_of_dimensions X (bd_none X).
Definition lk_of (res : resolved_map X) (n : ident) : dm :=
  match sget n res with Some r => ri_dims r | None => dm_default end.

Lemma resolve_dimensions_look res i :
  is_resolvable X res i = true ->
  resolve_dimensions X env res i = eval_with X env (look (lk_of res)) (it_expr i).
Proof.
  intros H. rewrite is_resolvable_iff in H. unfold resolve_dimensions. apply eval_ext.
  intros [c|n] Hf; simpl; auto. apply others_vals in Hf. apply H in Hf.
  apply sget_keys in Hf as [r Hr]. unfold lk_of. now rewrite Hr.
Qed.

Lemma inv_mentions U unres res i :
  loop_inv U unres res -> is_resolvable X res i = true ->
  forall n, In n (others (it_expr i)) -> iden U n (lk_of res n).
Proof.
  intros I H n Hn. rewrite is_resolvable_iff in H. apply H in Hn.
  apply sget_keys in Hn as [r Hr]. unfold lk_of. rewrite Hr. now apply (inv_entry _ _ _ I).
Qed.

Lemma inv_step U unres res i rest d :
  loop_inv U unres res ->
  take_first X (is_resolvable X res) unres = Some (i, rest) ->
  resolve_dimensions X env res i = Some d ->
  loop_inv U rest (sinsert (it_ident i) {| ri_item := i; ri_dims := d |} res).
Proof.
  intros I T E. apply take_first_some in T as [Hp (a & b & -> & -> & _)].
  assert (Hi : In i U) by (apply (inv_sub _ _ _ I); apply in_or_app; right; now left).
  constructor.
  - apply sinsert_wf, I.
  - intros j Hj. apply (inv_sub _ _ _ I). apply in_app_or in Hj. apply in_or_app.
    destruct Hj; [now left|right; now right].
  - intros n ri H. destruct (String.eqb_spec n (it_ident i)) as [->|Hne].
    + rewrite sget_insert_eq in H. inversion H; subst; simpl. repeat split; auto.
      apply (iden_by U i (lk_of res)); auto.
      * eapply inv_mentions; eauto.
      * now rewrite <- resolve_dimensions_look.
    + rewrite sget_insert_neq in H by auto. now apply (inv_entry _ _ _ I).
  - assert (K : forall n, In n (skeys res) ->
       In n (skeys (sinsert (it_ident i) {| ri_item := i; ri_dims := d |} res))).
    { intros n Hn. apply sget_keys in Hn as [r Hr]. apply sget_keys.
      destruct (String.eqb_spec n (it_ident i)) as [->|Hne].
      - rewrite sget_insert_eq. eauto.
      - rewrite sget_insert_neq by auto. eauto. }
    intros j Hj. destruct (inv_cover _ _ _ I j Hj) as [Hc|Hc]; auto.
    apply in_app_or in Hc. destruct Hc as [Hc|[<-|Hc]].
    + left. apply in_or_app. now left.
    + right. apply sget_keys. rewrite sget_insert_eq. eauto.
    + left. apply in_or_app. now right.
Qed.

(** Outcome of the loop. *)
Definition outcome (U : list item) (r : option (resolved_map X * list diag)) : Prop :=
  match r with
  | None => overflows U
  | Some (res, ds) =>
      exists rest, loop_inv U rest res /\
        ds = map (fun x => Unresolvable (it_ident x)) rest /\
        (forall i, In i rest -> is_resolvable X res i = false)
  end.

Lemma resolve_loop_spec U fuel unres res :
  loop_inv U unres res -> (length unres <= fuel)%nat ->
  outcome U (resolve_loop X env fuel unres res).
Proof.
  revert unres res. induction fuel as [|fuel IH]; intros unres res I Hf.
  - destruct unres as [|x l]; simpl in Hf; [|lia]. simpl. exists []. split; [exact I|]. split; [reflexivity|]. intros i [].
  - destruct unres as [|x l].
    + simpl. exists []. split; [exact I|]. split; [reflexivity|]. intros i [].
    + cbn [resolve_loop].
      destruct (take_first X (is_resolvable X res) (x :: l)) as [[i rest]|] eqn:T.
      * destruct (resolve_dimensions X env res i) as [d|] eqn:E.
        -- apply IH; [eapply inv_step; eauto|].
           apply take_first_some in T as [_ (a & b & Hab & -> & _)].
           apply (f_equal (@length _)) in Hab. rewrite app_length in Hab. simpl in Hab, Hf.
           rewrite app_length. lia.
        -- simpl. pose proof T as T'. apply take_first_some in T' as [Hp (a & b & Hab & _)].
           exists i, (lk_of res). split; [|split].
           ++ apply (inv_sub _ _ _ I). rewrite Hab. apply in_or_app. right; now left.
           ++ eapply inv_mentions; eauto.
           ++ now rewrite <- resolve_dimensions_look.
      * simpl. exists (x :: l). split; [exact I|]. split; [reflexivity|].
        intros i Hi. now apply (take_first_none _ _ T).
Qed.

Lemma inv_init U : loop_inv U U [].
Proof. constructor; auto; [constructor|discriminate]. Qed.

Lemma resolve_items_spec U : outcome U (resolve_items X env U).
Proof. apply resolve_loop_spec; [apply inv_init|auto]. Qed.

(** ** Consequences *)

Lemma grounded_resolved U res rest n :
  loop_inv U rest res -> (forall i, In i rest -> is_resolvable X res i = false) ->
  igrounded U n -> In n (skeys res).
Proof.
  intros I Hr G. induction G as [i Hi Hm IH].
  destruct (inv_cover _ _ _ I i Hi) as [H|H]; auto.
  specialize (Hr _ H). assert (is_resolvable X res i = true); [|congruence].
  apply is_resolvable_iff. exact IH.
Qed.

Lemma resolved_keys U res ds n :
  resolve_items X env U = Some (res, ds) -> In n (skeys res) <-> igrounded U n.
Proof.
  intros H. pose proof (resolve_items_spec U) as O. rewrite H in O.
  destruct O as (rest & I & -> & Hr). split.
  - intros Hn. apply sget_keys in Hn as [r Hr']. apply (inv_entry _ _ _ I) in Hr' as (_ & _ & D).
    eapply iden_grounded; eauto.
  - eapply grounded_resolved; eauto.
Qed.

Lemma resolved_entry U res ds n ri :
  resolve_items X env U = Some (res, ds) -> sget n res = Some ri ->
  In (ri_item ri) U /\ it_ident (ri_item ri) = n /\ iden U n (ri_dims ri).
Proof.
  intros H. pose proof (resolve_items_spec U) as O. rewrite H in O.
  destruct O as (rest & I & -> & Hr). apply (inv_entry _ _ _ I).
Qed.

Lemma resolved_wf U res ds : resolve_items X env U = Some (res, ds) -> wf res.
Proof.
  intros H. pose proof (resolve_items_spec U) as O. rewrite H in O.
  destruct O as (rest & I & -> & Hr). apply I.
Qed.

(** The resolved map satisfies every definition as an equation. *)
Lemma resolved_equation U res ds i ri :
  NoDup (map it_ident U) -> resolve_items X env U = Some (res, ds) ->
  In i U -> sget (it_ident i) res = Some ri ->
  ri_item ri = i /\
  eval_with X env (look (lk_of res)) (it_expr i) = Some (ri_dims ri) /\
  (forall n, In n (others (it_expr i)) -> exists r, sget n res = Some r).
Proof.
  intros N H Hi Hr. destruct (resolved_entry _ _ _ _ _ H Hr) as (Hin & Hid & Hden).
  assert (Ei : ri_item ri = i) by (eapply same_item; eauto). split; auto.
  assert (Hall : forall n, In n (others (it_expr i)) -> exists r, sget n res = Some r).
  { intros n Hn. apply sget_keys. apply (resolved_keys U res ds n H).
    inversion Hden as [j lk d Hj Hlk He E]; subst.
    assert (j = ri_item ri) by (eapply same_item; eauto). subst j.
    eapply iden_grounded. now apply Hlk. }
  split; auto. inversion Hden as [j lk d Hj Hlk He E]; subst.
  assert (j = ri_item ri) by (eapply same_item; eauto). subst j.
  rewrite <- He. apply eval_look_ext. intros n Hn.
  destruct (Hall n Hn) as [r Hr']. unfold lk_of. rewrite Hr'.
  eapply iden_functional; [exact N| |now apply Hlk].
  now apply (resolved_entry _ _ _ _ _ H Hr').
Qed.

(** Names that are not resolved are reported, and only those (duplicate-free systems). *)
Lemma reported_unresolvable U res ds :
  NoDup (map it_ident U) -> resolve_items X env U = Some (res, ds) ->
  forall x, In x ds <-> exists i, In i U /\ ~ igrounded U (it_ident i) /\ x = Unresolvable (it_ident i).
Proof.
  intros N H x. pose proof (resolve_items_spec U) as O. rewrite H in O.
  destruct O as (rest & I & Hds & Hr). subst ds. rewrite in_map_iff. split.
  - intros (i & <- & Hi). exists i. split; [now apply (inv_sub _ _ _ I)|]. split; auto.
    intros G. inversion G as [j Hj Hm E].
    assert (j = i) by (eapply same_item; eauto; now apply (inv_sub _ _ _ I)). subst j.
    specialize (Hr _ Hi). assert (is_resolvable X res i = true); [|congruence].
    apply is_resolvable_iff. intros n Hn. apply (resolved_keys _ _ _ n H). auto.
  - intros (i & Hi & Hg & ->). exists i. split; auto.
    destruct (inv_cover _ _ _ I i Hi) as [Hc|Hc]; auto. exfalso. apply Hg.
    now apply (resolved_keys _ _ _ _ H).
Qed.

Lemma no_report_all_grounded U res ds :
  resolve_items X env U = Some (res, ds) ->
  ds = [] -> forall i, In i U -> igrounded U (it_ident i).
Proof.
  intros H E i Hi. pose proof (resolve_items_spec U) as O. rewrite H in O.
  destruct O as (rest & I & Hds & Hr). subst ds.
  destruct rest as [|y l]; [|discriminate].
  destruct (inv_cover _ _ _ I i Hi) as [[]|Hc]. now apply (resolved_keys _ _ _ _ H).
Qed.

Lemma all_grounded_no_report U res ds :
  resolve_items X env U = Some (res, ds) ->
  NoDup (map it_ident U) -> (forall i, In i U -> igrounded U (it_ident i)) -> ds = [].
Proof.
  intros H N G. destruct ds as [|x ds]; auto. exfalso.
  assert (Hx : In x (x :: ds)) by now left.
  apply (reported_unresolvable _ _ _ N H) in Hx as (i & Hi & Hn & _). auto.
Qed.

(** A panic happens exactly when some definition overflows. *)
Lemma resolve_items_none U :
  NoDup (map it_ident U) -> resolve_items X env U = None <-> overflows U.
Proof.
  intros N. pose proof (resolve_items_spec U) as O.
  destruct (resolve_items X env U) as [[res ds]|] eqn:E; [|split; auto].
  split; [discriminate|]. intros (i & lk & Hi & Hlk & He). exfalso.
  assert (G : igrounded U (it_ident i)).
  { constructor; auto. intros n Hn. eapply iden_grounded; eauto. }
  apply (resolved_keys _ _ _ _ E) in G. apply sget_keys in G as [ri Hri].
  destruct (resolved_equation _ _ _ _ _ N E Hi Hri) as (_ & He' & Hall).
  rewrite (eval_look_ext (lk_of res) lk) in He'; [congruence|].
  intros n Hn. destruct (Hall n Hn) as [r Hr]. unfold lk_of. rewrite Hr.
  eapply iden_functional; [exact N| |now apply Hlk].
  now apply (resolved_entry _ _ _ _ _ E Hr).
Qed.

(** ** Order of the items *)

Lemma iden_incl U U' n d : (forall i, In i U -> In i U') -> iden U n d -> iden U' n d.
Proof. intros S H. induction H as [i lk d Hi Hlk IH He]. apply (iden_by U' i lk); auto. Qed.

Lemma igrounded_incl U U' n : (forall i, In i U -> In i U') -> igrounded U n -> igrounded U' n.
Proof. intros S H. induction H as [i Hi Hm IH]. apply (igrounded_by U' i); auto. Qed.

Lemma overflows_incl U U' : (forall i, In i U -> In i U') -> overflows U -> overflows U'.
Proof.
  intros S (i & lk & Hi & Hlk & He). exists i, lk. repeat split; auto.
  intros n Hn. eapply iden_incl; eauto.
Qed.

Lemma resolve_items_perm U U' :
  NoDup (map it_ident U) -> Permutation U U' ->
  match resolve_items X env U, resolve_items X env U' with
  | Some (res, ds), Some (res', ds') => res = res' /\ (forall x, In x ds <-> In x ds')
  | None, None => True
  | _, _ => False
  end.
Proof.
  intros N P. assert (N' : NoDup (map it_ident U'))
    by (eapply Permutation_NoDup; [apply Permutation_map, P|exact N]).
  assert (S1 : forall i, In i U -> In i U') by (intros; eapply Permutation_in; eauto).
  assert (S2 : forall i, In i U' -> In i U)
    by (intros; eapply Permutation_in; [symmetry|]; eauto).
  destruct (resolve_items X env U) as [[res ds]|] eqn:E,
           (resolve_items X env U') as [[res' ds']|] eqn:E'; auto.
  - assert (res = res').
    { apply smap_ext; try (eapply resolved_wf; eauto).
      intros n. destruct (sget n res) as [r|] eqn:G.
      - destruct (resolved_entry _ _ _ _ _ E G) as (H1 & H2 & H3).
        assert (In n (skeys res')).
        { apply (resolved_keys _ _ _ _ E'). eapply igrounded_incl; [exact S1|].
          eapply iden_grounded; eauto. }
        apply sget_keys in H as [r' G']. rewrite G'.
        destruct (resolved_entry _ _ _ _ _ E' G') as (H1' & H2' & H3').
        f_equal. destruct r as [i d], r' as [i' d']; simpl in *. f_equal.
        + eapply same_item; [exact N| | |]; auto. congruence.
        + eapply iden_functional; [exact N'| |exact H3']. eapply iden_incl; eauto.
      - symmetry. apply sget_None. intros Hk. apply sget_None in G. apply G.
        apply (resolved_keys _ _ _ _ E). eapply igrounded_incl; [exact S2|].
        now apply (resolved_keys _ _ _ _ E'). }
    split; auto. subst res'.
    intros x. pose proof (reported_unresolvable _ _ _ N E x) as R1.
      pose proof (reported_unresolvable _ _ _ N' E' x) as R2. rewrite R1, R2.
      split; intros (i & H1 & H2 & H3); exists i; repeat split; auto;
        intros G; apply H2; [apply (igrounded_incl U' U)|apply (igrounded_incl U U')]; auto.
  - apply (resolve_items_none _ N') in E'. apply (overflows_incl _ U) in E'; auto.
    apply (resolve_items_none _ N) in E'. congruence.
  - apply (resolve_items_none _ N) in E. apply (overflows_incl _ U') in E; auto.
    apply (resolve_items_none _ N') in E. congruence.
Qed.
End Loop.
