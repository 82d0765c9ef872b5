(** * Both exponent types compute in the rationals *)
From Coq Require Import ZArith Lia Bool QArith Qcanon.
From Verif Require Import MachineInt Ratio RatioFacts F64 Magnitude Exponent.
Local Open Scope Z_scope.

Definition ZQc (z : Z) : Qc := Q2Qc (inject_Z z).

(** What the rest of the development needs to know about exponents: a rational value,
    unique for valid exponents, and operations that (when they do not abort) compute with it. *)
Record exp_laws (X : exp_ops) := {
  l_valid : X -> Prop;
  l_val : X -> Qc;
  l_eqb : forall a b, e_eqb X a b = true <-> a = b;
  l_inj : forall a b, l_valid a -> l_valid b -> l_val a = l_val b -> a = b;
  l_one : l_valid (e_one X) /\ l_val (e_one X) = ZQc 1;
  l_zero : l_valid (e_zero X) /\ l_val (e_zero X) = ZQc 0;
  l_of_i32 : forall i, l_valid (e_of_i32 X i) /\ l_val (e_of_i32 X i) = ZQc i;
  l_add : forall a b c, l_valid a -> l_valid b -> e_add X a b = Some c ->
            l_valid c /\ l_val c = (l_val a + l_val b)%Qc;
  l_sub : forall a b c, l_valid a -> l_valid b -> e_sub X a b = Some c ->
            l_valid c /\ l_val c = (l_val a - l_val b)%Qc;
  l_neg : forall a c, l_valid a -> e_neg X a = Some c ->
            l_valid c /\ l_val c = (- l_val a)%Qc;
  l_mul : forall a b c, l_valid a -> l_valid b -> e_mul X a b = Some c ->
            l_valid c /\ l_val c = (l_val a * l_val b)%Qc;
  l_mul_int : forall a k c, l_valid a -> e_mul_int X a k = Some c ->
            l_valid c /\ l_val c = (l_val a * ZQc k)%Qc;
  l_div2 : forall a c, l_valid a -> e_div2 X a = Some c ->
            l_valid c /\ (l_val c * ZQc 2)%Qc = l_val a;
  l_div3 : forall a c, l_valid a -> e_div3 X a = Some c ->
            l_valid c /\ (l_val c * ZQc 3)%Qc = l_val a
}.

(** ** Integers *)

Lemma ZQc_add a b : ZQc (a + b) = (ZQc a + ZQc b)%Qc.
Proof.
  unfold ZQc. apply Qc_is_canon. cbn [this Q2Qc Qcplus Qcminus Qcopp Qcmult].
  rewrite ?Qred_correct. unfold inject_Z, Qeq; cbn [Qnum Qden Qplus Qminus Qopp Qmult]. lia.
Qed.
Lemma ZQc_sub a b : ZQc (a - b) = (ZQc a - ZQc b)%Qc.
Proof.
  unfold ZQc. apply Qc_is_canon. cbn [this Q2Qc Qcplus Qcminus Qcopp Qcmult].
  rewrite ?Qred_correct. unfold inject_Z, Qeq; cbn [Qnum Qden Qplus Qminus Qopp Qmult]. lia.
Qed.
Lemma ZQc_neg a : ZQc (- a) = (- ZQc a)%Qc.
Proof.
  unfold ZQc. apply Qc_is_canon. cbn [this Q2Qc Qcplus Qcminus Qcopp Qcmult].
  rewrite ?Qred_correct. unfold inject_Z, Qeq; cbn [Qnum Qden Qplus Qminus Qopp Qmult]. lia.
Qed.
Lemma ZQc_mul a b : ZQc (a * b) = (ZQc a * ZQc b)%Qc.
Proof.
  unfold ZQc. apply Qc_is_canon. cbn [this Q2Qc Qcplus Qcminus Qcopp Qcmult].
  rewrite ?Qred_correct. unfold inject_Z, Qeq; cbn [Qnum Qden Qplus Qminus Qopp Qmult]. lia.
Qed.
Lemma ZQc_inj a b : ZQc a = ZQc b -> a = b.
Proof.
  unfold ZQc. intros H. apply (f_equal this) in H.
  change (Qred (inject_Z a) = Qred (inject_Z b)) in H.
  assert (E : (inject_Z a == inject_Z b)%Q).
  { rewrite <- (Qred_correct (inject_Z a)), H. apply Qred_correct. }
  unfold Qeq in E. simpl in E. lia.
Qed.

Lemma i64_exact_div_Some k a c :
  0 < k -> i64_exact_div k a = Some c -> a = c * k.
Proof.
  intros Hk. unfold i64_exact_div.
  destruct (i64_rem a k) as [r|] eqn:Er; [|discriminate].
  apply i64_rem_Some in Er as [_ ->].
  destruct (Z.eqb_spec (Z.rem a k) 0) as [E|]; [|discriminate]. intros H.
  apply i64_div_Some in H as (_ & -> & _).
  pose proof (Z.quot_rem a k ltac:(lia)). lia.
Qed.

(** In the integer build the exact division is defined exactly on multiples. *)
Lemma i64_exact_div_iff k a :
  0 < k -> in_i64 a = true -> ((exists c, i64_exact_div k a = Some c) <-> (k | a)).
Proof.
  intros Hk Ha. split.
  - intros [c Hc]. exists c. eapply i64_exact_div_Some; eauto.
  - intros [c ->]. unfold i64_exact_div.
    assert (Hq : Z.quot (c * k) k = c) by (apply Z.quot_mul; lia).
    assert (Hr : in_i64 c = true).
    { apply in_i64_iff in Ha. apply in_i64_iff. nia. }
    assert (Er : i64_rem (c * k) k = Some 0).
    { unfold i64_rem. destruct (Z.eqb_spec k 0); [lia|]. rewrite Hq, Hr.
      f_equal. apply Z.rem_mul. lia. }
    rewrite Er. simpl. unfold i64_div. destruct (Z.eqb_spec k 0); [lia|].
    rewrite Hq, Hr. eauto.
Qed.

Definition int_laws : exp_laws (int_exp Checked).
Proof.
  refine {| l_valid := fun _ : int_exp Checked => True; l_val := ZQc |}; simpl; intros.
  - apply Z.eqb_eq.
  - now apply ZQc_inj.
  - auto.
  - auto.
  - auto.
  - apply fit_checked_Some in H1 as [-> _]. split; auto. apply ZQc_add.
  - apply fit_checked_Some in H1 as [-> _]. split; auto. apply ZQc_sub.
  - apply fit_checked_Some in H0 as [-> _]. split; auto. apply ZQc_neg.
  - apply fit_checked_Some in H1 as [-> _]. split; auto. apply ZQc_mul.
  - apply fit_checked_Some in H0 as [-> _]. split; auto. apply ZQc_mul.
  - split; auto. apply i64_exact_div_Some in H0; [|lia]. subst. symmetry. apply ZQc_mul.
  - split; auto. apply i64_exact_div_Some in H0; [|lia]. subst. symmetry. apply ZQc_mul.
Defined.

(** ** Ratios *)

Definition rval (r : ratio) : Qc := Q2Qc (inject_Z (num r) / inject_Z (denom r)).

Lemma represents_rval r : canonical r -> represents r (rval r).
Proof.
  intros [Hd _]. unfold rval.
  apply (represents_proper r (inject_Z (num r) / inject_Z (denom r))).
  - symmetry. apply Qred_correct.
  - split; [lia|]. destruct (denom r) as [|d|d]; try lia.
    unfold Qdiv, Qmult, Qinv, inject_Z; cbn [Qnum Qden]. rewrite ?Pos2Z.inj_mul. ring.
Qed.

Lemma rval_of_represents r (q : Qc) : canonical r -> represents r q -> rval r = q.
Proof.
  intros Hc Hr. apply Qc_is_canon. eapply represents_Qeq; [|exact Hr]. now apply represents_rval.
Qed.

Lemma represents_Qc r q : represents r q -> represents r (Q2Qc q).
Proof. apply represents_proper. symmetry. apply Qred_correct. Qed.

Lemma rint_rval k : canonical (rint k) /\ rval (rint k) = ZQc k.
Proof.
  destruct (rint_represents k) as [R C]. split; auto.
  apply rval_of_represents; auto. now apply represents_Qc.
Qed.

Definition rat_laws : exp_laws (rat_exp Checked).
Proof.
  refine {| l_valid := canonical : rat_exp Checked -> Prop; l_val := rval |}; simpl.
  - apply ratio_eqb_eq.
  - intros a b Ha Hb E. apply (represents_canonical_unique a b (rval a)); auto.
    + now apply represents_rval.
    + rewrite E. now apply represents_rval.
  - apply (rint_rval 1).
  - apply (rint_rval 0).
  - intros i. apply rint_rval.
  - intros a b c Ha Hb H.
    destruct (radd_represents a b c (rval a) (rval b)) as [R C];
      auto using represents_rval. split; auto.
    apply rval_of_represents; auto. now apply represents_Qc in R.
  - intros a b c Ha Hb H.
    destruct (rsub_represents a b c (rval a) (rval b)) as [R C];
      auto using represents_rval. split; auto.
    apply rval_of_represents; auto. apply represents_Qc in R.
    eapply represents_proper; [|exact R]. unfold Qcminus, Qcdiv, Qcplus, Qcmult, Qcopp, Qcinv, Q2Qc; cbn [this]. rewrite !Qred_correct. reflexivity.
  - intros a c Ha H.
    destruct (rneg_represents a c (rval a)) as [R C]; auto using represents_rval.
    split; auto. apply rval_of_represents; auto. now apply represents_Qc in R.
  - intros a b c Ha Hb H.
    destruct (rmul_represents a b c (rval a) (rval b)) as [R C];
      auto using represents_rval. split; auto.
    apply rval_of_represents; auto. now apply represents_Qc in R.
  - intros a k c Ha H. destruct (rint_rval k) as [Ck Vk].
    destruct (rmul_represents a (rint k) c (rval a) (rval (rint k))) as [R C];
      auto using represents_rval. split; auto. rewrite <- Vk.
    apply rval_of_represents; auto. now apply represents_Qc in R.
  - intros a c Ha H. destruct (rint_rval 2) as [Ck Vk].
    destruct (rdiv_represents a (rint 2) c (rval a) (rval (rint 2))) as [R C];
      auto using represents_rval; [simpl; lia|]. split; auto. rewrite <- Vk.
    assert (E : rval c = (rval a / rval (rint 2))%Qc).
    { apply rval_of_represents; auto. apply represents_Qc in R.
      eapply represents_proper; [|exact R]. unfold Qcminus, Qcdiv, Qcplus, Qcmult, Qcopp, Qcinv, Q2Qc; cbn [this]. rewrite !Qred_correct. reflexivity. }
    rewrite E. field. rewrite Vk. intros Hz. now apply (ZQc_inj 2 0) in Hz.
  - intros a c Ha H. destruct (rint_rval 3) as [Ck Vk].
    destruct (rdiv_represents a (rint 3) c (rval a) (rval (rint 3))) as [R C];
      auto using represents_rval; [simpl; lia|]. split; auto. rewrite <- Vk.
    assert (E : rval c = (rval a / rval (rint 3))%Qc).
    { apply rval_of_represents; auto. apply represents_Qc in R.
      eapply represents_proper; [|exact R]. unfold Qcminus, Qcdiv, Qcplus, Qcmult, Qcopp, Qcinv, Q2Qc; cbn [this]. rewrite !Qred_correct. reflexivity. }
    rewrite E. field. rewrite Vk. intros Hz. now apply (ZQc_inj 3 0) in Hz.
Defined.
