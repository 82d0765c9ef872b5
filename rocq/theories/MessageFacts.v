(** * What is printed for each error *)
From Coq Require Import String Ascii List Bool ZArith Sorted Lia.
From Verif Require Import MachineInt Ratio F64 Magnitude Exponent SMap Expression DimensionMath Types
  Resolve ResolveLoop ResolveChecks SystemSpec ResolveFacts ResolveReports CodegenDimension Text TextFacts Messages.
Import ListNotations.
Local Open Scope string_scope.
Local Open Scope list_scope.

Lemma mapM_iff {A B} (f : A -> option B) l ms : mapM f l = Some ms <-> Forall2 (fun a b => f a = Some b) l ms.
Proof.
  revert ms. induction l as [|a l IH]; intros ms; cbn [mapM].
  - split; intros H; [injection H as <-; constructor|inversion H; reflexivity].
  - split.
    + destruct (f a) as [b|] eqn:E; [|discriminate]. destruct (mapM f l) as [r|] eqn:F; [|discriminate].
      intros H. injection H as <-. constructor; [exact E|now apply IH].
    + intros H. inversion H as [|? b ? r E F]; subst. rewrite E. apply IH in F. rewrite F. reflexivity.
Qed.

Lemma mapM_total {A B} (f : A -> option B) l : (forall a, In a l -> f a <> None) -> exists ms, mapM f l = Some ms.
Proof.
  induction l as [|a l IH]; intros H; [exists []; reflexivity|].
  destruct (f a) as [b|] eqn:E; [|exfalso; apply (H a); [now left|exact E]].
  destruct IH as [r F]; [intros x Hx; apply H; now right|]. exists (b :: r). cbn. now rewrite E, F.
Qed.

Lemma Forall2_app_intro {A B} (P : A -> B -> Prop) l1 m1 l2 m2 : Forall2 P l1 m1 -> Forall2 P l2 m2 -> Forall2 P (l1 ++ l2) (m1 ++ m2).
Proof. intros H H2. induction H; cbn; [exact H2|constructor; auto]. Qed.

Lemma Forall2_weaken {A B} (P Q : A -> B -> Prop) l m : (forall a b, P a b -> Q a b) -> Forall2 P l m -> Forall2 Q l m.
Proof. intros H F. induction F; constructor; auto. Qed.

Section Facts.
Context (X : exp_ops) (env : fenv) (show : X -> text).

(** The message [m] is printed for the error [d] about the resolved entry [r]. *)
Inductive prints (res : resolved_map X) : diag -> message -> Prop :=
| prints_plain d m : message_of d = Some m -> prints res d m
| prints_violated r a an : In r (svalues res) -> it_annotation (ri_item r) = Some a -> sget a res = Some an ->
    it_kind (ri_item an) = KDimension -> bd_eq X (dm_dims (ri_dims an)) (dm_dims (ri_dims r)) = false ->
    prints res (ViolatedAnnotation a) (violated_message X show a (dm_dims (ri_dims an)) (dm_dims (ri_dims r))).

Lemma annotation_prints res r : In r (svalues res) -> exists ms, annotation_messages X show res r = Some ms /\
  Forall2 (prints res) (check_annotation X res r) ms.
Proof.
  intros Hr. unfold annotation_messages, check_annotation.
  destruct (it_annotation (ri_item r)) as [a|] eqn:Ha; [|exists []; split; [reflexivity|constructor]].
  destruct (sget a res) as [an|] eqn:Ea.
  2: { eexists. split; [reflexivity|]. constructor; [constructor; reflexivity|constructor]. }
  destruct (it_kind (ri_item an)) eqn:K.
  2-4: eexists; (split; [reflexivity|]); constructor; [constructor; reflexivity|constructor].
  destruct (bd_eq X (dm_dims (ri_dims an)) (dm_dims (ri_dims r))) eqn:B.
  - exists []. split; [reflexivity|constructor].
  - eexists. split; [reflexivity|]. constructor; [|constructor]. now apply prints_violated.
Qed.

Lemma annotations_print res l : (forall r, In r l -> In r (svalues res)) -> exists mss,
  mapM (annotation_messages X show res) l = Some mss /\
  Forall2 (prints res) (flat_map (check_annotation X res) l) (concat mss).
Proof.
  induction l as [|r l IH]; intros H; [exists []; split; [reflexivity|constructor]|].
  destruct (annotation_prints res r (H r (or_introl eq_refl))) as (ms & E & F).
  destruct IH as (mss & E2 & F2); [intros x Hx; apply H; now right|].
  exists (ms :: mss). cbn [mapM flat_map concat]. rewrite E, E2. split; [reflexivity|]. now apply Forall2_app_intro.
Qed.

Lemma resolve_messages_unfold (S : unresolved X (unit_entry X)) :
  resolve_messages X env show S =
  match resolve_items X env (U4 X S) with
  | Some (res, d8) =>
      let? before := mapM message_of (diags_before X S ++ d8) in
      let? annotations := mapM (annotation_messages X show res) (svalues res) in
      let? after := mapM message_of (check_for_base_units_without_symbol X (get_units X res)) in
      Some (before ++ concat annotations ++ after)
  | None => None
  end.
Proof.
  unfold resolve_messages, diags_before, U4, U3, U2, U1, get_base_dimensions.
  destruct (filter_undefined X (items_of X S)) as [u d5]. cbn [fst snd].
  destruct (resolve_items X env _) as [[res d8]|]; auto.
  rewrite <- !app_assoc. reflexivity.
Qed.

Lemma before_printable S res d8 d : resolve_items X env (U4 X S) = Some (res, d8) ->
  In d (diags_before X S ++ d8) -> message_of d <> None.
Proof.
  intros Hres H. unfold diags_before in H.
  repeat (apply in_app_or in H as [H|H]).
  - apply get_single_ident_emits in H as [->|[? ->]]; discriminate.
  - apply get_single_ident_emits in H as [->|[? ->]]; discriminate.
  - apply base_units_report in H as (? & ? & ? & ? & _ & _ & [[_ ->]|(_ & _ & ->)]); discriminate.
  - apply symbols_report in H as (? & -> & _); discriminate.
  - apply undefined_report in H as (? & ? & _ & _ & ->); discriminate.
  - apply duplicates_report in H as (n & -> & Hl). cbn [message_of]. destruct (occurrences n (U2 X S)); [cbn in Hl; lia|discriminate].
  - apply kinds_report in H as (? & ? & ? & _ & _ & _ & _ & ->); discriminate.
  - eapply loop_emits in H as [? ->]; [discriminate|exact Hres].
Qed.

(** Every error is printed, in order, and nothing else. *)
Theorem all_printed S o ds : resolve X env S = Some (o, ds) ->
  exists res d8 ms, resolve_items X env (U4 X S) = Some (res, d8) /\ o = out_of X S res /\
    resolve_messages X env show S = Some ms /\ Forall2 (prints res) ds ms.
Proof.
  intros R. apply resolve_some in R as (res & d8 & Hres & Ho & ->).
  destruct (mapM_total message_of (diags_before X S ++ d8)) as [before Eb].
  { intros d Hd. exact (before_printable S res d8 d Hres Hd). }
  destruct (annotations_print res (svalues res) (fun r H => H)) as (mss & Ea & Fa).
  destruct (mapM_total message_of (check_for_base_units_without_symbol X (get_units X res))) as [after Ef].
  { intros d Hd. apply no_symbol_emits in Hd as [? ->]. discriminate. }
  exists res, d8, (before ++ concat mss ++ after). split; [exact Hres|]. split; [exact Ho|]. split.
  - rewrite resolve_messages_unfold, Hres, Eb, Ea, Ef. reflexivity.
  - rewrite app_assoc. apply Forall2_app_intro; [|apply Forall2_app_intro; [exact Fa|]].
    + apply mapM_iff in Eb. revert Eb. apply Forall2_weaken. intros d m E. now constructor.
    + apply mapM_iff in Ef. revert Ef. apply Forall2_weaken. intros d m E. now constructor.
Qed.
End Facts.
