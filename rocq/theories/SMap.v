(** * Finite maps keyed by identifiers

    Used for [BTreeMap<Ident, _>] (resolve/ident_storage.rs:118; iteration in key order) and for
    [HashMap<BaseDimension, Exponent>] (dimension_math.rs:13; the canonical sorted list stands
    for the map, results are shown independent of iteration order where code iterates).
    Identifiers are byte strings; [proc_macro2::Ident]'s [Ord] compares the strings bytewise. *)
From Coq Require Import String Ascii List Bool Sorted Permutation NArith Lia.
Import ListNotations.
Local Open Scope string_scope.

(** ** The order on strings *)

Definition slt (a b : string) : Prop := String.compare a b = Lt.

Lemma compare_refl a : String.compare a a = Eq.
Proof.
  induction a as [|c a IH]; simpl; auto. unfold Ascii.compare. now rewrite N.compare_refl.
Qed.

Lemma compare_eq a b : String.compare a b = Eq -> a = b.
Proof.
  revert b. induction a as [|c a IH]; intros [|d b]; simpl; try discriminate; auto.
  unfold Ascii.compare. destruct (N.compare_spec (N_of_ascii c) (N_of_ascii d)) as [E|E|E];
    try discriminate. intros H. f_equal; auto.
  rewrite <- (ascii_N_embedding c), <- (ascii_N_embedding d). now f_equal.
Qed.

Lemma compare_anti a b : String.compare b a = CompOpp (String.compare a b).
Proof.
  revert b. induction a as [|c a IH]; intros [|d b]; simpl; auto.
  unfold Ascii.compare. rewrite N.compare_antisym.
  destruct (N.compare (N_of_ascii c) (N_of_ascii d)); simpl; auto.
Qed.

Lemma slt_trans a b c : slt a b -> slt b c -> slt a c.
Proof.
  unfold slt. revert b c. induction a as [|x a IH]; intros [|y b] [|z c]; simpl; try discriminate; auto.
  unfold Ascii.compare.
  destruct (N.compare_spec (N_of_ascii x) (N_of_ascii y)) as [E1|E1|E1];
  destruct (N.compare_spec (N_of_ascii y) (N_of_ascii z)) as [E2|E2|E2]; try discriminate;
  intros H1 H2.
  - rewrite E1, E2, N.compare_refl. eauto.
  - rewrite E1. apply N.compare_lt_iff in E2. now rewrite E2.
  - rewrite <- E2. apply N.compare_lt_iff in E1. now rewrite E1.
  - assert (E3 : (N_of_ascii x < N_of_ascii z)%N) by lia.
    apply N.compare_lt_iff in E3. now rewrite E3.
Qed.

Lemma slt_irrefl a : ~ slt a a.
Proof. unfold slt. now rewrite compare_refl. Qed.

Lemma slt_neq a b : slt a b -> a <> b.
Proof. intros H ->. now apply slt_irrefl in H. Qed.

(** ** Maps *)

Section Map.
Context {V : Type}.

Definition smap := list (string * V).

Fixpoint sget (k : string) (m : smap) : option V :=
  match m with
  | [] => None
  | (k', v) :: m' => if String.eqb k k' then Some v else sget k m'
  end.

Fixpoint sinsert (k : string) (v : V) (m : smap) : smap :=
  match m with
  | [] => [(k, v)]
  | (k', v') :: m' =>
      match String.compare k k' with
      | Lt => (k, v) :: m
      | Eq => (k, v) :: m'
      | Gt => (k', v') :: sinsert k v m'
      end
  end.

Definition skeys (m : smap) : list string := map fst m.
Definition svalues (m : smap) : list V := map snd m.
Definition smem (k : string) (m : smap) : bool := match sget k m with Some _ => true | None => false end.

Definition wf (m : smap) : Prop := StronglySorted (fun a b => slt (fst a) (fst b)) m.

Lemma wf_nil : wf [].
Proof. constructor. Qed.

Lemma wf_cons_inv kv m : wf (kv :: m) -> wf m /\ Forall (fun b => slt (fst kv) (fst b)) m.
Proof. intros H. now inversion H. Qed.

Lemma sinsert_keys k v m x : In x (sinsert k v m) -> x = (k, v) \/ In x m.
Proof.
  induction m as [|[k' v'] m IH]; simpl; [intuition|].
  destruct (String.compare k k'); simpl; intuition.
Qed.

Lemma sinsert_wf k v m : wf m -> wf (sinsert k v m).
Proof.
  induction m as [|[k' v'] m IH]; intros H; simpl.
  - repeat constructor.
  - apply wf_cons_inv in H as [Hm Hall]. simpl in Hall.
    destruct (String.compare k k') eqn:E.
    + apply compare_eq in E. subst. constructor; auto.
    + constructor.
      * constructor; auto.
      * constructor; auto. simpl.
        eapply Forall_impl; [|exact Hall]. intros a Ha. eapply slt_trans; eauto.
    + constructor; [exact (IH Hm)|].
      apply Forall_forall. intros x Hx. apply sinsert_keys in Hx as [->|Hx].
      * simpl. unfold slt. rewrite compare_anti, E. reflexivity.
      * rewrite Forall_forall in Hall. auto.
Qed.

Lemma sget_insert_eq k v m : sget k (sinsert k v m) = Some v.
Proof.
  induction m as [|[k' v'] m IH]; simpl.
  - now rewrite String.eqb_refl.
  - destruct (String.compare k k') eqn:E; simpl; rewrite ?String.eqb_refl; auto.
    destruct (String.eqb_spec k k') as [->|]; auto. now rewrite compare_refl in E.
Qed.

Lemma sget_insert_neq k k' v m : k <> k' -> sget k (sinsert k' v m) = sget k m.
Proof.
  intros Hne. induction m as [|[k2 v2] m IH]; simpl.
  - destruct (String.eqb_spec k k'); congruence.
  - destruct (String.compare k' k2) eqn:E; simpl.
    + apply compare_eq in E. subst. destruct (String.eqb_spec k k2); congruence.
    + destruct (String.eqb_spec k k'); congruence.
    + now rewrite IH.
Qed.

Lemma sget_In k v m : sget k m = Some v -> In (k, v) m.
Proof.
  induction m as [|[k' v'] m IH]; simpl; [discriminate|].
  destruct (String.eqb_spec k k') as [->|]; intros H; [inversion H; auto|auto].
Qed.

Lemma In_sget k v m : wf m -> In (k, v) m -> sget k m = Some v.
Proof.
  induction m as [|[k' v'] m IH]; intros Hwf Hin; [easy|].
  apply wf_cons_inv in Hwf as [Hm Hall]. simpl in *. destruct Hin as [E|Hin].
  - inversion E; subst. now rewrite String.eqb_refl.
  - destruct (String.eqb_spec k k') as [->|]; auto.
    rewrite Forall_forall in Hall. specialize (Hall _ Hin). simpl in Hall.
    now apply slt_irrefl in Hall.
Qed.

Lemma sget_None k m : sget k m = None <-> ~ In k (skeys m).
Proof.
  induction m as [|[k' v'] m IH]; simpl; [intuition|].
  destruct (String.eqb_spec k k') as [->|]; [intuition; congruence|].
  rewrite IH. intuition.
Qed.

Lemma sget_keys k m : In k (skeys m) <-> exists v, sget k m = Some v.
Proof.
  destruct (sget k m) eqn:E.
  - split; [eauto|]. intros _. apply sget_In in E. apply in_map_iff. now exists (k, v).
  - apply sget_None in E. split; [easy|]. now intros [v Hv].
Qed.

Lemma smem_iff k m : smem k m = true <-> In k (skeys m).
Proof.
  unfold smem. rewrite sget_keys. destruct (sget k m); split; eauto; try easy.
  now intros [v Hv].
Qed.

Lemma wf_NoDup m : wf m -> NoDup (skeys m).
Proof.
  induction m as [|[k v] m IH]; simpl; intros H; [constructor|].
  apply wf_cons_inv in H as [Hm Hall]. constructor; auto.
  intros Hin. apply in_map_iff in Hin as [[k' v'] [E Hin]]. simpl in E. subst.
  rewrite Forall_forall in Hall. specialize (Hall _ Hin). simpl in Hall.
  now apply slt_irrefl in Hall.
Qed.

Lemma wf_sorted m : wf m -> StronglySorted slt (skeys m).
Proof.
  induction m as [|[k v] m IH]; simpl; intros H; [constructor|].
  apply wf_cons_inv in H as [Hm Hall]. constructor; auto.
  apply Forall_map. exact Hall.
Qed.

Lemma smap_ext m1 m2 : wf m1 -> wf m2 -> (forall k, sget k m1 = sget k m2) -> m1 = m2.
Proof.
  revert m2. induction m1 as [|[k1 v1] m1 IH]; intros m2 W1 W2 H.
  - destruct m2 as [|[k2 v2] m2]; auto. specialize (H k2). simpl in H.
    rewrite String.eqb_refl in H. discriminate.
  - destruct m2 as [|[k2 v2] m2].
    + specialize (H k1). simpl in H. rewrite String.eqb_refl in H. discriminate.
    + pose proof (wf_cons_inv _ _ W1) as [W1' A1]. pose proof (wf_cons_inv _ _ W2) as [W2' A2].
      simpl in A1, A2.
      assert (k1 = k2 /\ v1 = v2) as [-> ->].
      { destruct (String.compare k1 k2) eqn:E.
        - apply compare_eq in E. subst. specialize (H k2). simpl in H.
          rewrite String.eqb_refl in H. inversion H. auto.
        - exfalso. specialize (H k1). simpl in H. rewrite String.eqb_refl in H.
          destruct (String.eqb_spec k1 k2) as [->|]; [now rewrite compare_refl in E|].
          symmetry in H. apply sget_In in H. rewrite Forall_forall in A2.
          specialize (A2 _ H). simpl in A2.
          apply (slt_irrefl k1). eapply slt_trans; eauto.
        - exfalso. assert (E' : slt k2 k1) by (unfold slt; now rewrite compare_anti, E).
          specialize (H k2). simpl in H. rewrite String.eqb_refl in H.
          destruct (String.eqb_spec k2 k1) as [->|]; [now rewrite compare_refl in E|].
          apply sget_In in H. rewrite Forall_forall in A1.
          specialize (A1 _ H). simpl in A1.
          apply (slt_irrefl k2). eapply slt_trans; eauto. }
      f_equal. apply IH; auto. intros k.
      destruct (String.eqb_spec k k2) as [->|Hne].
      * assert (N : forall m, Forall (fun b => slt k2 (fst b)) m -> sget k2 m = None).
        { intros m Hm. apply sget_None. intros Hin. apply in_map_iff in Hin as [[k' v'] [E Hin]].
          simpl in E. subst. rewrite Forall_forall in Hm. specialize (Hm _ Hin). simpl in Hm.
          now apply slt_irrefl in Hm. }
        now rewrite !N.
      * specialize (H k). simpl in H. destruct (String.eqb_spec k k2); congruence.
Qed.
End Map.
Arguments smap : clear implicits.

(** [iter_mut]/[into_iter().map(..).collect()] over the values. *)
Fixpoint smap_opt {V W} (f : V -> option W) (m : smap V) : option (smap W) :=
  match m with
  | [] => Some []
  | (k, v) :: m' =>
      match f v with
      | Some w => match smap_opt f m' with Some r => Some ((k, w) :: r) | None => None end
      | None => None
      end
  end.

Lemma smap_opt_keys {V W} (f : V -> option W) m r :
  smap_opt f m = Some r -> skeys r = skeys m.
Proof.
  revert r. induction m as [|[k v] m IH]; simpl; intros r H; [now inversion H|].
  destruct (f v); [|discriminate]. destruct (smap_opt f m); [|discriminate].
  inversion H; subst. simpl. f_equal. auto.
Qed.

Lemma smap_opt_get {V W} (f : V -> option W) m r k :
  smap_opt f m = Some r ->
  match sget k m with Some v => sget k r = f v | None => sget k r = None end.
Proof.
  revert r. induction m as [|[k' v'] m IH]; simpl; intros r H; [now inversion H|].
  destruct (f v') as [w|] eqn:Ef; [|discriminate]. destruct (smap_opt f m) as [r'|]; [|discriminate].
  inversion H; subst. simpl. destruct (String.eqb_spec k k'); [now symmetry|]. now apply IH.
Qed.

Lemma smap_opt_wf {V W} (f : V -> option W) m r : smap_opt f m = Some r -> wf m -> wf r.
Proof.
  revert r. induction m as [|[k' v'] m IH]; intros r H Hwf; simpl in H;
    [inversion H; constructor|].
  destruct (f v') as [w|] eqn:Ef; [|discriminate]. destruct (smap_opt f m) as [r'|] eqn:Em; [|discriminate].
  inversion H; subst. apply wf_cons_inv in Hwf as [Hm Hall].
  constructor; [exact (IH r' eq_refl Hm)|]. simpl in *.
  rewrite Forall_forall in *. intros [k2 w2] Hin. simpl.
  apply (in_map fst) in Hin. fold (skeys r') in Hin. rewrite (smap_opt_keys _ _ _ Em) in Hin.
  apply in_map_iff in Hin as [[k3 v3] [E Hin]]. simpl in E. subst. apply (Hall _ Hin).
Qed.
