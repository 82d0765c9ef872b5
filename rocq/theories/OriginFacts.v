(** * Facts for C82: spans of exponent vectors, and which units a program names *)
From Coq Require Import String List Bool ZArith QArith Qcanon Qreals Reals Lra Lia.
From Verif Require Import MachineInt Ratio F64 Magnitude Exponent ExponentFacts SMap Types CodegenDimension
  Setting Storage Operators OperatorSpec OperatorFacts FloatMethods Vector CodegenDimensionFacts Programs
  Equivariance EquivarianceFacts OriginSpec.
Import ListNotations.
Local Close Scope R_scope. Local Close Scope Q_scope.
Local Open Scope Qc_scope.
Local Open Scope list_scope.

(** ** Linear algebra *)
Section Span.
Context (fields : list string) (N : NoDup fields).
Notation vec := (string -> Qc).
Definition dot (w v : vec) : Qc := fold_right (fun f acc => w f * v f + acc) 0 fields.
Lemma dot_ext w v v' : (forall f, In f fields -> v f = v' f) -> dot w v = dot w v'.
Proof.
  unfold dot. induction fields as [|f l IH]; intros H; [reflexivity|]. cbn [fold_right].
  rewrite (H f (or_introl eq_refl)). rewrite IH; [reflexivity| |intros; apply H; now right]. now inversion N.
Qed.
Lemma dot_minus w v c v' : dot w (fun f => v f - c * v' f) = dot w v - c * dot w v'.
Proof. unfold dot. clear N. induction fields as [|f l IH]; cbn [fold_right]; [ring|]. rewrite IH. ring. Qed.
Lemma dot_minus_l w c w' v : dot (fun f => w f - c * w' f) v = dot w v - c * dot w' v.
Proof. unfold dot. clear N. induction fields as [|f l IH]; cbn [fold_right]; [ring|]. rewrite IH. ring. Qed.
Definition unit_vec (b : string) : vec := fun f => if String.eqb f b then 1 else 0.
Lemma dot_unit b v : In b fields -> dot (unit_vec b) v = v b.
Proof.
  unfold dot, unit_vec. induction fields as [|f l IH]; intros H; [destruct H|]. cbn [fold_right]. inversion N as [|f' l' Hn Nl]; subst.
  destruct H as [->|H].
  - rewrite String.eqb_refl.
    assert (Z : fold_right (fun f acc => (if String.eqb f b then 1 else 0) * v f + acc) 0 l = 0).
    { clear -Hn. induction l as [|f l IH]; [reflexivity|]. cbn [fold_right]. rewrite IH by (intros H; apply Hn; now right).
      destruct (String.eqb_spec f b) as [->|]; [exfalso; apply Hn; now left|ring]. }
    rewrite Z. ring.
  - rewrite IH by assumption. destruct (String.eqb_spec f b) as [->|]; [contradiction|ring].
Qed.

(** A vector is a combination of others, or something tells it apart from all of them. *)
Lemma span_or_separated vs : forall d : vec,
  (exists cs, length cs = length vs /\ forall f, In f fields -> d f = combined (List.combine cs vs) f) \/
  (exists w, Forall (fun v => dot w v = 0) vs /\ dot w d <> 0).
Proof.
  induction vs as [|v vs IH]; intros d.
  - destruct (existsb (fun f => negb (Qc_eq_bool (d f) 0)) fields) eqn:E.
    + right. apply existsb_exists in E as (f & Hf & Hd). exists (unit_vec f). split; [constructor|]. rewrite dot_unit by exact Hf.
      intros Z. rewrite Z in Hd. discriminate Hd.
    + left. exists []. split; [reflexivity|]. intros f Hf. cbn [List.combine combined]. 
      destruct (Qc_eq_dec (d f) 0) as [Z|Z]; [exact Z|]. exfalso.
      assert (K : existsb (fun f => negb (Qc_eq_bool (d f) 0)) fields = true).
      { apply existsb_exists. exists f. split; [exact Hf|]. unfold Qc_eq_bool. destruct (Qc_eq_dec (d f) 0); [contradiction|reflexivity]. }
      congruence.
  - destruct (IH d) as [(cs & L & H)|(w & Hw & Hd)].
    { left. exists (0 :: cs). split; [cbn [length]; lia|]. intros f Hf. cbn [List.combine combined fst snd]. rewrite H by exact Hf. ring. }
    destruct (Qc_eq_dec (dot w v) 0) as [Z|Z]; [right; exists w; split; [now constructor|exact Hd]|].
    set (c := dot w d / dot w v). destruct (IH (fun f => d f - c * v f)) as [(cs & L & H)|(w' & Hw' & Hd')].
    + left. exists (c :: cs). split; [cbn [length]; lia|]. intros f Hf. cbn [List.combine combined fst snd]. rewrite <- H by exact Hf. ring.
    + right. exists (fun f => w' f - (dot w' v / dot w v) * w f). rewrite dot_minus in Hd'. split.
      * constructor; [rewrite dot_minus_l; now field|]. apply Forall_forall. intros u Hu. rewrite dot_minus_l.
        rewrite Forall_forall in Hw, Hw'. rewrite (Hw u Hu), (Hw' u Hu). ring.
      * rewrite dot_minus_l. intros E. apply Hd'. rewrite <- E. unfold c. now field.
Qed.
End Span.

(** ** Only the units and constants that are named matter to the types *)
Section Named.
Context (k : mode) (fields : list string) (ft : features) (math : bool) (units constants units' constants' : list (dimval (ops k))) (strict : bool).
Lemma unit_typed_named u d : (forall i, In i (expr_units u) -> nth_error units i = nth_error units' i) ->
  unit_typed k fields units u d -> unit_typed k fields units' u d.
Proof.
  intros H T. destruct T; [apply UT_U|eapply UT_Times|eapply UT_Over]; try eassumption; rewrite <- H; cbn; auto.
Qed.
Notation ty us cs := (typed k fields ft math us cs strict).
Definition kept (p : prog k) : Prop := (forall i, In i (units_in p) -> nth_error units i = nth_error units' i) /\
  (forall i, In i (constants_in p) -> nth_error constants i = nth_error constants' i).
Definition kept_all (p : progs k) : Prop := (forall i, In i (units_in_all p) -> nth_error units i = nth_error units' i) /\
  (forall i, In i (constants_in_all p) -> nth_error constants i = nth_error constants' i).
Ltac part := match goal with H : kept _ |- _ => destruct H as [?K1 ?K2] | H : kept_all _ |- _ => destruct H as [?K1 ?K2] end;
  cbn [units_in constants_in units_in_all constants_in_all] in *;
  split; intros ? ?; match goal with K : forall i, In i _ -> nth_error _ i = nth_error ?y i |- nth_error _ _ = nth_error ?y _ => apply K end;
  rewrite ?in_app_iff; auto.
Lemma typed_named G :
  (forall p t, ty units constants G p t -> kept p -> ty units' constants' G p t) /\
  (forall ps t, typed_all k fields ft math units constants strict G ps t -> kept_all ps -> typed_all k fields ft math units' constants' strict G ps t) /\
  (forall ps ts, typed_each k fields ft math units constants strict G ps ts -> kept_all ps -> typed_each k fields ft math units' constants' strict G ps ts).
Proof.
  revert G. apply (typed_mutind k fields ft math units constants strict
    (fun G p t => kept p -> ty units' constants' G p t)
    (fun G ps t => kept_all ps -> typed_all k fields ft math units' constants' strict G ps t)
    (fun G ps ts => kept_all ps -> typed_each k fields ft math units' constants' strict G ps ts)).
  all: try (intros; econstructor; eauto; fail).
  all: intros; try (econstructor; eauto; try (match goal with H : kept _ -> _ |- _ => apply H; part end); try (eapply unit_typed_named; [|eassumption]; part)).
  all: try (match goal with K : kept _ |- unit_typed _ _ _ _ _ => destruct K as [K _]; eapply unit_typed_named; [|eassumption];
    intros i Hi; apply K; cbn [units_in]; rewrite in_app_iff; now left end).
  - match goal with K : kept (Constant _) |- _ => destruct K as [_ K]; rewrite <- K; [assumption|now left] end.
  - match goal with K : kept_all _ -> _ |- _ => apply K; part end.
  - match goal with K : kept_all _ -> _ |- _ => apply K; part end.
Qed.
End Named.

(** A table with everything that is not named replaced. *)
Section Keep.
Context {A : Type} (none : A) (named : list nat).
Fixpoint keep (i : nat) (l : list A) : list A :=
  match l with [] => [] | x :: r => (if existsb (Nat.eqb i) named then x else none) :: keep (S i) r end.
Lemma keep_length l : forall i, length (keep i l) = length l.
Proof. induction l as [|x l IH]; intros i; [reflexivity|]. cbn [keep length]. now rewrite IH. Qed.
Lemma keep_nth l : forall i j, In (i + j)%nat named -> nth_error (keep i l) j = nth_error l j.
Proof.
  induction l as [|x l IH]; intros i [|j] H; cbn [keep nth_error]; try reflexivity.
  - rewrite Nat.add_0_r in H. assert (E : existsb (Nat.eqb i) named = true).
    { apply existsb_exists. exists i. split; [exact H|apply Nat.eqb_refl]. }
    now rewrite E.
  - apply IH. now replace (S i + j)%nat with (i + S j)%nat by lia.
Qed.
Lemma keep_in l : forall i x, In x (keep i l) -> x = none \/ exists j, In (i + j)%nat named /\ nth_error l j = Some x.
Proof.
  induction l as [|y l IH]; intros i x H; [destruct H|]. cbn [keep] in H. destruct H as [<-|H].
  - destruct (existsb (Nat.eqb i) named) eqn:E; [right|now left]. apply existsb_exists in E as (i' & Hi & E).
    apply Nat.eqb_eq in E. subst i'. exists 0%nat. rewrite Nat.add_0_r. auto.
  - destruct (IH _ _ H) as [E|(j & Hj & E)]; [now left|right]. exists (S j). split; [|exact E]. now replace (i + S j)%nat with (S i + j)%nat by lia.
Qed.
End Keep.
