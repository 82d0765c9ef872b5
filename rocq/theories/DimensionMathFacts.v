(** * Dimension arithmetic of the macro computes exponent vectors over the rationals *)
From Coq Require Import String List Bool ZArith QArith Qcanon Permutation Lia.
From Verif Require Import MachineInt Ratio F64 Magnitude Exponent ExponentFacts SMap Expression
  DimensionMath.
Import ListNotations.
Local Open Scope Qc_scope.

Section Laws.
Context (X : exp_ops) (L : exp_laws X) (env : fenv).

(** A dimension as the user sees it: an exponent for every base dimension. *)
Definition dvec := string -> Qc.

(** The exponent vector of a map of fields: absent fields are zero. *)
Definition vec_of (d : bdims X) : dvec :=
  fun b => match sget b d with Some e => l_val X L e | None => ZQc 0 end.

Definition bd_ok (d : bdims X) : Prop :=
  wf d /\ Forall (fun kv => l_valid X L (snd kv)) d.

Lemma bd_ok_get d b e : bd_ok d -> sget b d = Some e -> l_valid X L e.
Proof.
  intros [_ H] E. apply sget_In in E. rewrite Forall_forall in H. apply (H _ E).
Qed.

Lemma bd_ok_insert d b e : bd_ok d -> l_valid X L e -> bd_ok (sinsert b e d).
Proof.
  intros [W V] He. split; [now apply sinsert_wf|].
  apply Forall_forall. intros x Hx. apply sinsert_keys in Hx as [->|Hx]; auto.
  rewrite Forall_forall in V. auto.
Qed.

Lemma bd_ok_none : bd_ok (bd_none X).
Proof. split; constructor. Qed.

Lemma bd_ok_for_base b : bd_ok (bd_for_base X b).
Proof. apply (bd_ok_insert []); [apply bd_ok_none|]. apply l_one. Qed.

Lemma vec_none b : vec_of (bd_none X) b = ZQc 0.
Proof. reflexivity. Qed.

Lemma vec_for_base d b : vec_of (bd_for_base X d) b = if String.eqb b d then ZQc 1 else ZQc 0.
Proof.
  unfold vec_of, bd_for_base. simpl. destruct (String.eqb b d); auto. apply l_one.
Qed.

Lemma ZQc0_l x : ZQc 0 + x = x.
Proof. replace (ZQc 0) with (0%Qc); [ring|]. now apply Qc_is_canon. Qed.
Lemma ZQc0_r x : x + ZQc 0 = x.
Proof. replace (ZQc 0) with (0%Qc); [ring|]. now apply Qc_is_canon. Qed.

Lemma bd_mul_step_spec f kv f' :
  bd_ok f -> l_valid X L (snd kv) -> bd_mul_step X f kv = Some f' ->
  bd_ok f' /\ (forall b, vec_of f' b = if String.eqb b (fst kv)
                                       then vec_of f b + l_val X L (snd kv) else vec_of f b).
Proof.
  destruct kv as [k v]. intros Hf Hv H. unfold bd_mul_step in H. simpl in *.
  destruct (sget k f) as [w|] eqn:E.
  - destruct (e_add X w v) as [w'|] eqn:Ea; [|discriminate]. inversion H; subst.
    assert (Hw : l_valid X L w) by (eapply bd_ok_get; eauto).
    destruct (l_add X L _ _ _ Hw Hv Ea) as [V1 V2]. split; [now apply bd_ok_insert|].
    intros b. unfold vec_of. destruct (String.eqb_spec b k) as [->|Hne].
    + now rewrite sget_insert_eq, E.
    + now rewrite sget_insert_neq.
  - inversion H; subst. split; [now apply bd_ok_insert|].
    intros b. unfold vec_of. destruct (String.eqb_spec b k) as [->|Hne].
    + rewrite sget_insert_eq, E. now rewrite ZQc0_l.
    + now rewrite sget_insert_neq.
Qed.

Definition entries_vec (l : list (string * X)) : dvec :=
  fun b => fold_right (fun kv acc => if String.eqb b (fst kv) then l_val X L (snd kv) + acc else acc)
                      (ZQc 0) l.

Lemma bd_mul_entries_spec l f f' :
  bd_ok f -> Forall (fun kv => l_valid X L (snd kv)) l -> bd_mul_entries X f l = Some f' ->
  bd_ok f' /\ (forall b, vec_of f' b = vec_of f b + entries_vec l b).
Proof.
  revert f. induction l as [|kv l IH]; intros f Hf Hl H; simpl in H.
  - inversion H; subst. split; auto. intros b. unfold entries_vec; simpl. now rewrite ZQc0_r.
  - destruct (bd_mul_step X f kv) as [f1|] eqn:E; [|discriminate].
    inversion Hl as [|? ? Hv Hl']; subst.
    destruct (bd_mul_step_spec _ _ _ Hf Hv E) as [O1 V1].
    destruct (IH _ O1 Hl' H) as [O2 V2]. split; auto.
    intros b. rewrite V2, V1. unfold entries_vec; simpl.
    destruct (String.eqb b (fst kv)); auto. ring.
Qed.

Lemma entries_vec_wf d b : bd_ok d -> entries_vec d b = vec_of d b.
Proof.
  intros [W _]. unfold vec_of. induction d as [|[k v] d IH]; simpl; auto.
  apply wf_cons_inv in W as [W' A]. destruct (String.eqb_spec b k) as [->|].
  - rewrite IH by auto. replace (sget k d) with (@None X); [now rewrite ZQc0_r|].
    symmetry. apply sget_None. intros Hin. apply in_map_iff in Hin as [[k' v'] [E Hin]].
    simpl in E; subst. rewrite Forall_forall in A. specialize (A _ Hin). simpl in A.
    now apply slt_irrefl in A.
  - auto.
Qed.

Lemma bd_mul_spec a b c :
  bd_ok a -> bd_ok b -> bd_mul X a b = Some c ->
  bd_ok c /\ (forall k, vec_of c k = vec_of a k + vec_of b k).
Proof.
  intros Ha Hb H. destruct (bd_mul_entries_spec b a c Ha (proj2 Hb) H) as [O V].
  split; auto. intros k. rewrite V. now rewrite entries_vec_wf.
Qed.

Lemma smap_opt_ok (f : X -> option X) (g : Qc -> Qc) a c :
  (forall v w, l_valid X L v -> f v = Some w -> l_valid X L w /\ l_val X L w = g (l_val X L v)) ->
  g (ZQc 0) = ZQc 0 ->
  bd_ok a -> smap_opt f a = Some c ->
  bd_ok c /\ (forall k, vec_of c k = g (vec_of a k)).
Proof.
  intros Hf Hg Ha H.
  assert (Hget : forall k, match sget k a with Some v => sget k c = f v | None => sget k c = None end)
    by (intros k; now apply smap_opt_get).
  destruct Ha as [W V].
  assert (W' : wf c) by (eapply smap_opt_wf; eauto).
  assert (V' : Forall (fun kv => l_valid X L (snd kv)) c).
  { apply Forall_forall. intros [k w] Hin. simpl. apply In_sget in Hin; auto.
    specialize (Hget k). destruct (sget k a) as [v|] eqn:E; [|congruence].
    rewrite Hin in Hget. symmetry in Hget. eapply Hf; [|exact Hget].
    apply sget_In in E. rewrite Forall_forall in V. apply (V _ E). }
  split; [split; auto|].
  intros k. unfold vec_of. specialize (Hget k). destruct (sget k a) as [v|] eqn:E.
  - destruct (f v) as [w|] eqn:Ef.
    + rewrite Hget. eapply Hf; [|exact Ef]. apply sget_In in E.
      rewrite Forall_forall in V. apply (V _ E).
    + exfalso. apply sget_None in Hget. apply Hget.
      rewrite (smap_opt_keys _ _ _ H). apply sget_keys. eauto.
  - rewrite Hget. now rewrite Hg.
Qed.

Lemma ZQc_0 : ZQc 0 = 0%Qc.
Proof. now apply Qc_is_canon. Qed.

Lemma bd_inv_spec a c :
  bd_ok a -> bd_inv X a = Some c -> bd_ok c /\ (forall k, vec_of c k = - vec_of a k).
Proof.
  intros Ha H.
  assert (Hf : forall v w, l_valid X L v -> e_neg X v = Some w ->
                           l_valid X L w /\ l_val X L w = - l_val X L v)
    by (intros v w Hv E; now apply (l_neg X L)).
  assert (Hg : - ZQc 0 = ZQc 0) by (rewrite ZQc_0; ring).
  exact (smap_opt_ok (e_neg X) (fun x => - x) a c Hf Hg Ha H).
Qed.

Lemma bd_div_spec a b c :
  bd_ok a -> bd_ok b -> bd_div X a b = Some c ->
  bd_ok c /\ (forall k, vec_of c k = vec_of a k - vec_of b k).
Proof.
  intros Ha Hb H. unfold bd_div in H. destruct (bd_inv X b) as [i|] eqn:E; [|discriminate].
  destruct (bd_inv_spec _ _ Hb E) as [Oi Vi].
  destruct (bd_mul_spec _ _ _ Ha Oi H) as [O V]. split; auto.
  intros k. rewrite V, Vi. ring.
Qed.

Lemma bd_pow_spec a p c :
  bd_ok a -> l_valid X L p -> bd_pow X a p = Some c ->
  bd_ok c /\ (forall k, vec_of c k = vec_of a k * l_val X L p).
Proof.
  intros Ha Hp H.
  assert (Hf : forall v w, l_valid X L v -> e_mul X v p = Some w ->
                           l_valid X L w /\ l_val X L w = l_val X L v * l_val X L p)
    by (intros v w Hv E; now apply (l_mul X L)).
  assert (Hg : ZQc 0 * l_val X L p = ZQc 0) by (rewrite ZQc_0; ring).
  exact (smap_opt_ok (fun v => e_mul X v p) (fun x => x * l_val X L p) a c Hf Hg Ha H).
Qed.

(** ** The iteration order of the hash map is irrelevant *)

Lemma bd_mul_step_swap f k1 v1 k2 v2 :
  wf f -> k1 <> k2 ->
  match bd_mul_step X f (k1, v1) with Some g => bd_mul_step X g (k2, v2) | None => None end =
  match bd_mul_step X f (k2, v2) with Some g => bd_mul_step X g (k1, v1) | None => None end.
Proof.
  intros W Hne. unfold bd_mul_step; simpl.
  assert (Hins : forall x y, sinsert k2 y (sinsert k1 x f) = sinsert k1 x (sinsert k2 y f)).
  { intros x y. apply smap_ext; try (repeat apply sinsert_wf; auto).
    intros k. destruct (String.eqb_spec k k2) as [->|N2].
    - rewrite sget_insert_eq, sget_insert_neq, sget_insert_eq by auto. reflexivity.
    - rewrite sget_insert_neq by auto. destruct (String.eqb_spec k k1) as [->|N1].
      + now rewrite !sget_insert_eq.
      + rewrite !sget_insert_neq by auto. reflexivity. }
  destruct (sget k1 f) as [w1|] eqn:E1; [destruct (e_add X w1 v1) as [s1|] eqn:A1|];
    (destruct (sget k2 f) as [w2|] eqn:E2; [destruct (e_add X w2 v2) as [s2|] eqn:A2|]);
    rewrite ?sget_insert_neq, ?E1, ?E2, ?A1, ?A2 by auto; rewrite ?Hins; reflexivity.
Qed.

Lemma bd_mul_step_wf f kv f' : wf f -> bd_mul_step X f kv = Some f' -> wf f'.
Proof.
  intros W H. unfold bd_mul_step in H.
  destruct (sget (fst kv) f); [destruct (e_add X _ _); [|discriminate]|];
    inversion H; now apply sinsert_wf.
Qed.

Lemma bd_mul_order f l1 l2 :
  wf f -> NoDup (map fst l1) -> Permutation l1 l2 ->
  bd_mul_entries X f l1 = bd_mul_entries X f l2.
Proof.
  intros W N P. revert f W N. induction P as [|[k v] l l' P IH|[k1 v1] [k2 v2] l|l l' l'' P1 IH1 P2 IH2];
    intros f W N; auto.
  - simpl. destruct (bd_mul_step X f (k, v)) as [g|] eqn:E; auto.
    apply IH; [eapply bd_mul_step_wf; eauto|]. simpl in N. now inversion N.
  - cbn [bd_mul_entries].
    assert (Hne : k2 <> k1) by (simpl in N; inversion N; subst; simpl in *; intuition).
    pose proof (bd_mul_step_swap f k2 v2 k1 v1 W Hne) as S.
    destruct (bd_mul_step X f (k2, v2)) as [g2|], (bd_mul_step X f (k1, v1)) as [g1|]; auto.
    + destruct (bd_mul_step X g2 (k1, v1)), (bd_mul_step X g1 (k2, v2)); try discriminate; auto.
      now inversion S.
    + destruct (bd_mul_step X g2 (k1, v1)); try discriminate; auto.
    + destruct (bd_mul_step X g1 (k2, v2)); try discriminate; auto.
  - rewrite IH1 by auto. apply IH2; auto.
    eapply Permutation_NoDup; [|exact N]. now apply Permutation_map.
Qed.
End Laws.
