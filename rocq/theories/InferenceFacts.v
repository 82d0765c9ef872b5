(** * The type checker agrees with the typing rules *)
From Coq Require Import String List Bool ZArith QArith Qcanon Lia.
From Verif Require Import MachineInt Ratio RatioFacts F64 Magnitude Exponent ExponentFacts SMap Types CodegenDimension
  Setting Storage Operators OperatorSpec OperatorFacts FloatMethods Vector CodegenDimensionFacts PropertiesDebug PropertiesDimension PropertiesOperators Programs Inference.
Import ListNotations.
Local Close Scope Q_scope.
Local Close Scope Qc_scope.
Local Close Scope Z_scope.
Local Open Scope list_scope.

Scheme prog_mind := Induction for prog Sort Prop
with progs_mind := Induction for progs Sort Prop.
Combined Scheme prog_mutind from prog_mind, progs_mind.

Lemma float_eqb_iff a b : float_eqb a b = true <-> a = b.
Proof. destruct a, b; simpl; split; congruence. Qed.
Lemma vector_eqb_iff a b : vector_eqb a b = true <-> a = b.
Proof. destruct a, b; simpl; split; congruence. Qed.
Lemma storage_eqb_iff a b : storage_eqb a b = true <-> a = b.
Proof.
  destruct a, b; simpl; rewrite ?float_eqb_iff, ?vector_eqb_iff; split; congruence.
Qed.
Lemma sty_eqb_iff a b : sty_eqb a b = true <-> a = b.
Proof.
  destruct a, b; simpl; rewrite ?storage_eqb_iff, ?PeanoNat.Nat.eqb_eq; split; congruence.
Qed.
Lemma sty_eqb_refl a : sty_eqb a a = true.
Proof. now apply sty_eqb_iff. Qed.
Lemma existsb_is {A} (eqb : A -> A -> bool) (H : forall a b, eqb a b = true <-> a = b) x l :
  existsb (eqb x) l = true <-> In x l.
Proof.
  rewrite existsb_exists. split.
  - intros (y & Hy & E). apply H in E as ->. exact Hy.
  - intros Hx. exists x. split; [exact Hx|]. now apply H.
Qed.
Lemma valid_exponent_iff k (e : ops k) : valid_exponent k e = true <-> l_valid (ops k) (laws k) e.
Proof.
  destruct k; simpl.
  - split; auto.
  - rewrite andb_true_iff, Z.ltb_lt, Z.eqb_eq. reflexivity.
Qed.

Lemma sget_nodup {A} (d : list (string * A)) f e : NoDup (map fst d) -> In (f, e) d -> sget f d = Some e.
Proof.
  induction d as [|[g x] d IH]; simpl; [easy|]. intros N [E|I].
  - injection E as -> ->. now rewrite String.eqb_refl.
  - inversion N as [|y l Hn N' Ey]; subst. destruct (String.eqb f g) eqn:E; [|auto].
    apply String.eqb_eq in E as ->. destruct Hn. apply (in_map fst) in I. exact I.
Qed.

Ltac parts := repeat match goal with
  | H : _ /\ _ |- _ => destruct H
  | H : exists _, _ |- _ => destruct H
  end.

Section Facts.
Context (k : mode) (fields : list string) (ft : features) (math : bool) (N : NoDup fields).
Notation X := (ops k).
Notation dimval := (dimval X).
Notation base_ty := (base_ty X).
Context (units constants : list dimval) (strict : bool).

Lemma none_b_iff d : none_b k fields d = true <-> dim_none X fields = Some d.
Proof.
  unfold none_b. destruct (dim_none X fields) as [n|]; [|split; discriminate].
  rewrite dim_eqb_eq. split; congruence.
Qed.
Lemma dimension_b_iff d : dimension_b k fields d = true <-> is_dimension k fields d.
Proof.
  unfold dimension_b, names_b, is_dimension, stands_for, shaped. rewrite andb_true_iff, forallb_forall. split.
  - intros [A B]. destruct (list_eq_dec string_dec (map fst d) fields) as [E|]; [|discriminate].
    exists (fun f => match sget f d with Some e => l_val X (laws k) e | None => ZQc 0 end). split; [exact E|].
    intros f e I. split; [apply valid_exponent_iff; exact (B _ I)|].
    rewrite (sget_nodup d f e); [reflexivity|congruence|exact I].
  - intros (v & E & V). split.
    + destruct (list_eq_dec string_dec (map fst d) fields); [reflexivity|contradiction].
    + intros [f e] I. apply valid_exponent_iff. now destruct (V f e I).
Qed.
Lemma supported_b_iff s : supported_b ft s = true <-> supported (storage_types ft) s.
Proof.
  unfold supported, supported_b. destruct s as [c|n]; [|split; [discriminate|intros (c & E & _); discriminate]].
  rewrite (existsb_is _ storage_eqb_iff). split; [eauto|]. intros (c' & E & I). injection E as ->. exact I.
Qed.
Lemma float_b_iff s : float_b ft s = true <-> is_float ft s.
Proof.
  unfold is_float, float_b. destruct s as [[f|v]|n];
    [|split; [discriminate|intros (c & E & _); discriminate]|split; [discriminate|intros (c & E & _); discriminate]].
  rewrite (existsb_is _ float_eqb_iff). split; [eauto|]. intros (c' & E & I). injection E as ->. exact I.
Qed.
Lemma base_eqb_iff (a b : base_ty) : base_eqb k a b = true <-> a = b.
Proof.
  destruct a, b; simpl; rewrite ?andb_true_iff, ?sty_eqb_iff, ?dim_eqb_eq; try (split; congruence).
  split; [intros [-> ->]; reflexivity|intros E; injection E as -> ->; auto].
Qed.
Lemma base_eqb_refl (a : base_ty) : base_eqb k a a = true.
Proof. now apply base_eqb_iff. Qed.
Lemma type_eqb_iff (a b : type k) : type_eqb k a b = true <-> a = b.
Proof. destruct a, b; simpl; rewrite ?base_eqb_iff; split; congruence. Qed.
Lemma type_eqb_refl (a : type k) : type_eqb k a a = true.
Proof. now apply type_eqb_iff. Qed.

Lemma unit_dim_iff u d : unit_typed k fields units u d <-> unit_dim k fields units u = Some d.
Proof.
  split.
  - intros H. destruct H as [i d H|i j d1 d2 d H1 H2 H|i j d1 d2 d H1 H2 H]; simpl; [exact H| |]; now rewrite H1, H2.
  - destruct u as [i|i j|i j]; simpl; [now constructor| |];
      (destruct (nth_error units i) as [d1|] eqn:E1; [|discriminate]);
      (destruct (nth_error units j) as [d2|] eqn:E2; [|discriminate]); intros H; econstructor; eauto.
Qed.

Lemma when_some {A} b (r : option A) x : when b r = Some x <-> b = true /\ r = Some x.
Proof. destruct b; simpl; split; [auto|now intros []|discriminate|now intros []]. Qed.

Lemma operator_iff op a b out :
  compiles X fields std_raw_op std_raw_copy ft op (Value, a) (Value, b) out <-> operator k fields ft op a b = Some out.
Proof.
  rewrite (compiles_iff_spec _ _ _ _ _ _ _ _ _ (std_storages_ok ft)).
  assert (RV : readable Value) by now left. assert (WV : writable Value) by now left.
  assert (NR : ~ (Value = Reference /\ Value = Reference)) by (intros [E _]; discriminate).
  assert (NV : Value <> Value -> std_raw_copy (Foreign 0) = true) by congruence.
  assert (RS : forall s s' o, raw_supports std_raw_op std_raw_copy op Value s Value s' o <-> std_raw_op op s s' = Some o).
  { intros s s' o. unfold raw_supports. split; [now intros [E _]|]. intros E. split; [exact E|]. split; congruence. }
  unfold spec, operator, dimensionless. destruct a as [s d|s], b as [s' d'|s']; [| | |split; [intros []|discriminate]].
  - split.
    + intros (o & Ho & H). apply RS in Ho. rewrite Ho. destruct op; parts; subst;
        try (apply when_some; split; [first [apply dim_eqb_eq; reflexivity|apply none_b_iff; assumption]|reflexivity]).
      * match goal with H : dim_add _ _ _ _ = Some _ |- _ => now rewrite H end.
      * match goal with H : dim_sub _ _ _ _ = Some _ |- _ => now rewrite H end.
    + intros H. destruct (std_raw_op op s s') as [o|] eqn:Ho; [|discriminate].
      exists o. split; [now apply RS|].
      destruct op; try (apply when_some in H as [B H]; injection H as <-; try apply dim_eqb_eq in B; try apply none_b_iff in B; auto 10).
      * destruct (dim_add X fields d d') as [e|] eqn:E; [|discriminate]. injection H as <-. eauto 10.
      * destruct (dim_sub X fields d d') as [e|] eqn:E; [|discriminate]. injection H as <-. eauto 10.
  - split.
    + intros (o & Ho & H). apply RS in Ho. rewrite Ho.
      destruct op; apply when_some; rewrite ?andb_true_iff, ?sty_eqb_iff, ?none_b_iff, ?supported_b_iff;
        parts; match goal with H : out = _ |- _ => rewrite H end; auto.
    + intros H. destruct (std_raw_op op s s') as [o|] eqn:Ho; [|discriminate].
      exists o. split; [now apply RS|].
      destruct op; apply when_some in H as [B H]; injection H as <-;
        rewrite ?andb_true_iff, ?sty_eqb_iff, ?none_b_iff, ?supported_b_iff in B; intuition auto.
  - split.
    + intros (o & Ho & Hs & H). apply RS in Ho. rewrite Ho. apply when_some. split; [now apply supported_b_iff|].
      destruct op; try apply when_some; rewrite ?andb_true_iff, ?sty_eqb_iff, ?none_b_iff;
        parts; match goal with H : out = _ |- _ => rewrite H end; auto.
      match goal with H : dim_neg _ _ _ = Some _ |- _ => now rewrite H end.
    + intros H. destruct (std_raw_op op s s') as [o|] eqn:Ho; [|discriminate].
      apply when_some in H as [Hs H]. apply supported_b_iff in Hs.
      exists o. split; [now apply RS|]. split; [exact Hs|].
      destruct op; try (apply when_some in H as [B H]; injection H as <-;
        rewrite ?andb_true_iff, ?sty_eqb_iff, ?none_b_iff in B; intuition auto; fail).
      * injection H as <-. auto.
      * destruct (dim_neg X fields d') as [e|] eqn:E; [|discriminate]. injection H as <-. eauto 10.
Qed.

Lemma compares_iff op a b :
  compares X fields std_raw_op std_raw_copy ft op (Value, a) (Value, b) <-> operator k fields ft op a b = Some None.
Proof.
  unfold compares. rewrite operator_iff. split; [|auto]. intros [H|[E _]]; [exact H|discriminate].
Qed.

Definition allowed (m : method) : Prop := strict = true -> m <> MValueUnchecked /\ m <> MValueUncheckedRef.
Lemma method_iff m s d r :
  method_ok X fields ft math m s d r /\ (forall s', r = ResRaw s' ->
     strict = true -> m <> MValueUnchecked /\ m <> MValueUncheckedRef) <->
  method_type k fields ft math strict m s d = Some r.
Proof.
  split.
  - intros [H A]. destruct m; cbn [method_ok method_type] in *; parts; subst; rewrite ?when_some, ?andb_true_iff;
      try (split; [rewrite ?none_b_iff, ?float_b_iff, ?supported_b_iff, ?Z.leb_le, ?Z.ltb_lt; auto|]);
      try reflexivity;
      try (match goal with H : dim_mul _ _ _ _ = Some _ |- _ => rewrite H
           | H : dim_div2 _ _ _ = Some _ |- _ => rewrite H | H : dim_div3 _ _ _ = Some _ |- _ => rewrite H end; reflexivity);
      try (destruct strict; [|reflexivity]; destruct (A _ eq_refl eq_refl); congruence).
  - intros H. destruct m; cbn [method_ok method_type] in *; apply when_some in H as [B H];
      rewrite ?andb_true_iff, ?none_b_iff, ?float_b_iff, ?supported_b_iff, ?Z.leb_le, ?Z.ltb_lt in B;
      try (match type of H with context [dim_mul ?a ?b ?c ?d] => destruct (dim_mul a b c d) as [e|] eqn:E; [|discriminate]
           | context [dim_div2 ?a ?b ?c] => destruct (dim_div2 a b c) as [e|] eqn:E; [|discriminate]
           | context [dim_div3 ?a ?b ?c] => destruct (dim_div3 a b c) as [e|] eqn:E; [|discriminate] end);
      injection H as <-; (split; [|intros s' Er Hs; try discriminate Er; try (split; discriminate)]);
      try (parts; eauto 10; fail); destruct strict; discriminate.
Qed.

Lemma into_b_iff q s d : into_b k fields q s d = true <-> into_quantity X fields q s d.
Proof.
  unfold into_quantity, from_number_compiles. destruct q as [s' d'|s']; cbn [into_b];
    rewrite andb_true_iff, sty_eqb_iff, ?dim_eqb_eq, ?none_b_iff; split.
  - intros [-> ->]. now left.
  - intros [H|(src & H & _)]; [injection H as -> ->; auto|discriminate].
  - intros [-> H]. right. exists s. eauto.
  - intros [H|(src & H & n & H1 & H2)]; [discriminate|]. injection H as <-. injection H2 as -> ->. auto.
Qed.

Lemma args_b_iff (a b : list base_ty) : args_b k a b = true <-> a = b.
Proof.
  unfold args_b. rewrite andb_true_iff, PeanoNat.Nat.eqb_eq. revert b.
  induction a as [|x a IH]; intros [|y b]; simpl; try (split; [intros []|]; congruence); [now split|].
  rewrite andb_true_iff, base_eqb_iff. split.
  - intros [E [-> F]]. f_equal. apply IH. split; [lia|exact F].
  - intros E. injection E as -> ->. destruct (proj2 (IH b) eq_refl). auto.
Qed.
Lemma vec_iff v o args r : o <> VZero ->
  vec_call X fields ft v o args r <-> vec_type k fields ft v o args = Some r.
Proof.
  intros Hz. unfold vec_call, vec_type. rewrite when_some, (existsb_is _ vector_eqb_iff). split.
  - intros [Hv (d & H)]. split; [exact Hv|].
    destruct o; try congruence; cbv zeta in H; parts; subst args; subst;
      try (match goal with |- context [hd_error (repeat ?x ?n)] =>
             replace (hd_error (repeat x n)) with (Some x) by (destruct v; reflexivity) end; cbv beta iota zeta; cbn [dim_of];
           apply when_some; rewrite args_b_iff; split; reflexivity).
    all: cbn [hd_error dim_of]; try (apply when_some; split; [|reflexivity]); rewrite ?andb_true_iff, ?args_b_iff;
      try (split; [apply PeanoNat.Nat.ltb_lt; assumption|reflexivity]); try reflexivity.
    all: apply when_some; rewrite args_b_iff; split; [reflexivity|];
      match goal with H : dim_mul _ _ _ _ = Some _ |- _ => rewrite H | H : dim_none _ _ = Some _ |- _ => rewrite H
        | H : dim_add _ _ _ _ = Some _ |- _ => rewrite H end; reflexivity.
  - intros [Hv H]. split; [exact Hv|].
    destruct (hd_error args) as [b|] eqn:Eh; [|discriminate].
    destruct (dim_of k b) as [d|] eqn:Ed; [|discriminate]. exists d. cbv zeta in H |- *.
    destruct o; try congruence;
      try (apply when_some in H as [B H]; rewrite ?andb_true_iff, ?args_b_iff, ?PeanoNat.Nat.ltb_lt in B; parts; subst args);
      try (injection H as <-; auto; fail).
    + destruct (dim_mul X fields d 2) as [e|] eqn:E; [|discriminate]. injection H as <-. eauto.
    + destruct (dim_none X fields) as [e|] eqn:E; [|discriminate]. injection H as <-. eauto.
    + destruct args as [|x [|c [|]]]; try discriminate. destruct (dim_of k c) as [dr|] eqn:Ec; [|discriminate].
      apply when_some in H as [B H]. apply args_b_iff in B. rewrite B.
      destruct (dim_add X fields d dr) as [e|] eqn:E; [|discriminate]. injection H as <-. exists dr, e. auto.
Qed.
Lemma type_b_iff (t : type k) : type_b k fields t = true <-> type_ok k fields t.
Proof.
  destruct t as [[s d|s]|]; simpl; try (split; auto; fail). apply dimension_b_iff.
Qed.

Notation typed := (typed k fields ft math units constants strict).
Notation typed_all := (typed_all k fields ft math units constants strict).
Notation typed_each := (typed_each k fields ft math units constants strict).
Notation infer := (infer k fields ft math units strict).
Notation infer_each := (infer_each k fields ft math units strict).
Notation determined := (determined k).
Notation determined_all := (determined_all k).

Lemma typed_all_each G items b bs :
  typed_each G items bs -> Forall (eq b) bs -> typed_all G items (T b).
Proof.
  intros H. induction H as [|a rest c cs Ha H IH]; intros F; [constructor|].
  inversion F as [|x l E F' Ex]; subst. constructor; auto.
Qed.

Lemma infer_Sum G s d items : infer G (Sum s d items) =
  let? bs := infer_each G items in
  when (dimension_b k fields d && forallb (base_eqb k (TyQ (Known s) d)) bs) (Some (quantity s d)).
Proof. reflexivity. Qed.
Lemma infer_CallVec G v o args : infer G (CallVec v o args) =
  let? bs := infer_each G args in let? r := vec_type k fields ft v o bs in when (type_b k fields (T r)) (Some (T r)).
Proof. reflexivity. Qed.
Lemma infer_Cons G a rest : infer_each G (Cons a rest) =
  let? t := infer G a in let? b := a_base k t in let? bs := infer_each G rest in Some (b :: bs).
Proof. reflexivity. Qed.

(** The checker accepts nothing else. *)
Lemma infer_sound :
  (forall p G t, infer G p = Some t -> typed G p t) /\
  (forall ps G bs, infer_each G ps = Some bs -> typed_each G ps bs).
Proof.
  assert (NumS : forall t s, a_number k t = Some s -> t = number s) by (intros [[? ?|[?|?]]|] x E; try discriminate; injection E as ->; reflexivity).
  assert (NumF : forall t f, a_float k t = Some f -> t = number (Float f)) by (intros [[? ?|[[?|?]|?]]|] x E; try discriminate; injection E as ->; reflexivity).
  assert (Qu : forall t s d, a_quantity k t = Some (s, d) -> t = quantity s d) by (intros [[[?|?] ?|?]|] x y E; try discriminate; injection E as -> ->; reflexivity).
  assert (QuF : forall t f d, a_float_quantity k t = Some (f, d) -> t = quantity (Float f) d) by (intros [[[[?|?]|?] ?|?]|] x y E; try discriminate; injection E as -> ->; reflexivity).
  assert (Ba : forall t b, a_base k t = Some b -> t = T b) by (intros [?|] x E; try discriminate; injection E as ->; reflexivity).
  assert (St : negb strict = true -> strict = false) by (destruct strict; easy).
  apply prog_mutind; intros; rewrite ?infer_Sum, ?infer_CallVec, ?infer_Cons in *; cbn [Inference.infer Inference.infer_each] in *;
    repeat match goal with
    | H : (match ?o with Some _ => _ | None => None end) = Some _ |- _ => destruct o eqn:?; [|discriminate H]
    | H : (let (_, _) := ?p in _) = Some _ |- _ => destruct p eqn:?
    | H : when _ _ = Some _ |- _ => apply when_some in H as [? H]
    end;
    repeat match goal with
    | H : a_number k _ = Some _ |- _ => apply NumS in H; subst
    | H : a_float k _ = Some _ |- _ => apply NumF in H; subst
    | H : a_quantity k _ = Some (_, _) |- _ => apply Qu in H; subst
    | H : a_float_quantity k _ = Some (_, _) |- _ => apply QuF in H; subst
    | H : a_base k _ = Some _ |- _ => apply Ba in H; subst
    | H : unit_dim k fields units _ = Some _ |- _ => apply unit_dim_iff in H
    | IH : forall G t, infer G ?p = Some t -> _, H : infer ?G ?p = Some _ |- _ => apply IH in H
    | IH : forall G bs, infer_each G ?p = Some bs -> _, H : infer_each ?G ?p = Some _ |- _ => apply IH in H
    end; rewrite ?andb_true_iff in *.
  - now constructor.
  - injection H as <-. constructor.
  - injection H0 as <-. eapply T_Convert; [eassumption|]. eexists. split; [eassumption|reflexivity].
  - injection H as <-. constructor. now apply dimension_b_iff.
  - injection H0 as <-. constructor; assumption.
  - injection H0 as <-. constructor; assumption.
  - injection H0 as <-. constructor; auto.
  - injection H0 as <-. constructor; assumption.
  - injection H0 as <-. econstructor; eassumption.
  - injection H0 as <-. econstructor; eassumption.
  - injection H0 as <-. econstructor; eassumption.
  - injection H0 as <-. econstructor; eauto.
  - injection H0 as <-. econstructor; [eassumption|eassumption|]. intros Es. rewrite Es in *. cbn [negb orb] in *.
    now apply dim_eqb_eq.
  - discriminate.
  - match goal with H : operator _ _ _ _ _ _ = Some _ |- _ => apply operator_iff in H end.
    destruct o as [[s d]|].
    + injection H1 as <-. eapply T_Bin; eassumption.
    + apply when_some in H1 as [Hop H1]. injection H1 as <-. eapply T_Assign; [|eassumption|eassumption|eassumption].
      destruct op; try discriminate Hop; simpl; auto.
  - injection H0 as <-. now constructor.
  - injection H0 as <-. destruct H1 as [Hd Hb]. constructor; [now apply dimension_b_iff|].
    eapply typed_all_each; [eassumption|]. rewrite forallb_forall in Hb. apply Forall_forall. intros x Hx.
    now apply base_eqb_iff, Hb.
  - injection H0 as <-. match goal with H : method_type _ _ _ _ _ _ _ _ = Some _ |- _ => apply method_iff in H as [Hm Hs] end.
    destruct r as [s' d'|s'|].
    + eapply T_Call_quantity; eassumption.
    + eapply T_Call_number; [eassumption|eassumption|]. exact (Hs s' eq_refl).
    + eapply T_Call_test; eassumption.
  - injection H2 as <-. match goal with H : (_ /\ _) /\ _ |- _ => destruct H as [[Hq Hf] Hi] end.
    apply base_eqb_iff in Hq as ->. eapply T_Call2; [eassumption|eassumption|eassumption|].
    split; [now apply float_b_iff|]. split; [now apply into_b_iff|reflexivity].
  - injection H0 as <-. econstructor; [eassumption| |now apply type_b_iff]. apply vec_iff; [|assumption].
    intros ->. match goal with H : vec_type _ _ _ _ _ _ = Some _ |- _ => apply when_some in H as [_ H] end.
    repeat match goal with H : (match ?o with Some _ => _ | None => None end) = Some _ |- _ => destruct o; [|discriminate H] end.
    discriminate.
  - match goal with H : operator _ _ _ _ _ _ = Some _ |- _ => apply operator_iff in H end.
    destruct o as [[s d]|]; [discriminate|]. injection H1 as <-. eapply T_Compare; [eassumption|eassumption|]. now left.
  - injection H2 as <-. match goal with H : _ /\ _ |- _ => destruct H as [Hb Ht] end.
    apply type_eqb_iff in Hb as ->. apply type_eqb_iff in Ht as ->. now constructor.
  - econstructor; [eassumption|]. auto.
  - injection H1 as <-. match goal with H : type_eqb _ _ _ = true |- _ => apply type_eqb_iff in H as <- end. now constructor.
  - injection H as <-. constructor.
  - injection H1 as <-. now constructor.
Qed.

(** The checker accepts everything else. *)
Lemma determined_vec v o args : determined (CallVec v o args) = true -> o <> VZero /\ determined_all args = true.
Proof. intros H. destruct o; try discriminate H; (split; [discriminate|exact H]). Qed.
Lemma infer_complete : forall G,
  (forall p t, typed G p t -> determined p = true -> infer G p = Some t) /\
  (forall ps t, typed_all G ps t -> determined_all ps = true -> t <> Bool ->
     exists bs, infer_each G ps = Some bs /\ Forall (fun b => t = T b) bs) /\
  (forall ps bs, typed_each G ps bs -> determined_all ps = true -> infer_each G ps = Some bs).
Proof.
  apply (typed_mutind k fields ft math units constants strict
    (fun G p t => determined p = true -> infer G p = Some t)
    (fun G ps t => determined_all ps = true -> t <> Bool ->
       exists bs, infer_each G ps = Some bs /\ Forall (fun b => t = T b) bs)
    (fun G ps bs => determined_all ps = true -> infer_each G ps = Some bs)); intros.
  all: try match goal with H : determined (CallVec _ ?o _) = true |- _ => pose proof (determined_vec _ _ _ H); clear H end.
  all: try match goal with H : determined _ = true |- _ => cbn [Inference.determined] in H end.
  all: try match goal with H : determined_all (Cons _ _) = true |- _ => cbn [Inference.determined_all] in H end.
  all: rewrite ?andb_true_iff in *; parts.
  all: rewrite ?infer_Sum, ?infer_CallVec, ?infer_Cons; cbn [Inference.infer Inference.infer_each].
  all: repeat match goal with
    | IH : _ -> infer _ ?p = Some _ |- context [infer _ ?p] => rewrite IH by assumption
    | IH : _ -> infer_each _ ?p = Some _ |- context [infer_each _ ?p] => rewrite IH by assumption
    | H : unit_typed _ _ _ _ _ |- _ => apply unit_dim_iff in H; rewrite H
    end; cbn [a_number a_float a_quantity a_float_quantity a_base number quantity].
  all: try assumption; try reflexivity.
  all: try (match goal with H : _ = Some _ |- _ => rewrite H end; try reflexivity; apply when_some; split; [|reflexivity]).
  all: try (match goal with |- when _ _ = _ => apply when_some; split; [|reflexivity] end).
  all: try (match goal with H : strict = false |- negb strict = true => now rewrite H end).
  - match goal with H : from_number_compiles _ _ _ _ |- _ => destruct H as (n & Hn & ->) end. now rewrite Hn.
  - now apply dimension_b_iff.
  - match goal with H : dim_add _ _ _ _ = Some _ |- _ => now rewrite H end.
  - match goal with H : dim_add _ _ _ _ = Some _ |- _ => now rewrite H end.
  - match goal with H : dim_sub _ _ _ _ = Some _ |- _ => now rewrite H end.
  - destruct strict; [|reflexivity]. cbn [negb orb]. apply dim_eqb_eq. auto.
  - discriminate.
  - match goal with H : compiles _ _ _ _ _ _ _ _ _ |- _ => apply operator_iff in H; now rewrite H end.
  - match goal with H : compiles _ _ _ _ _ _ _ _ _ |- _ => apply operator_iff in H; rewrite H end.
    match goal with H : In op _ |- _ => simpl in H; decompose [or] H; subst; try reflexivity; contradiction end.
  - match goal with H : determined_all items = true -> _ |- _ => destruct H as (bs & Hbs & F); [assumption|discriminate|] end.
    rewrite Hbs. apply when_some. split; [|reflexivity]. apply andb_true_iff. split; [now apply dimension_b_iff|].
    apply forallb_forall. intros x Hx. apply base_eqb_iff. rewrite Forall_forall in F. specialize (F x Hx).
    unfold quantity in F. congruence.
  - match goal with H : method_ok _ _ _ _ _ _ _ _ |- _ => rename H into Hm end.
    assert (A : forall s0, ResQ s' d' = ResRaw s0 -> strict = true -> m <> MValueUnchecked /\ m <> MValueUncheckedRef) by (intros; discriminate).
    rewrite (proj1 (method_iff m _ d (ResQ s' d')) (conj Hm (fun s0 E => A s0 E))). reflexivity.
  - match goal with H : method_ok _ _ _ _ _ _ _ _ |- _ => rename H into Hm end.
    match goal with H : strict = true -> _ |- _ => rename H into Hs end.
    rewrite (proj1 (method_iff m _ d (ResRaw s')) (conj Hm (fun s0 _ => Hs))). reflexivity.
  - match goal with H : method_ok _ _ _ _ _ _ _ _ |- _ => rename H into Hm end.
    assert (A : forall s0, @ResBool X = ResRaw s0 -> strict = true -> m <> MValueUnchecked /\ m <> MValueUncheckedRef) by (intros; discriminate).
    rewrite (proj1 (method_iff m _ d ResBool) (conj Hm (fun s0 E => A s0 E))). reflexivity.
  - match goal with H : arg_method_ok _ _ _ _ _ _ _ _ |- _ => destruct H as (Hf & Hi & E) end. injection E as -> ->.
    apply when_some. split; [|reflexivity]. rewrite base_eqb_refl, !andb_true_iff. split; [split; [reflexivity|now apply float_b_iff]|].
    now apply into_b_iff.
  - match goal with H : vec_call _ _ _ _ _ _ _ |- _ => apply vec_iff in H; [rewrite H|assumption] end.
    apply when_some. split; [now apply type_b_iff|reflexivity].
  - match goal with H : compares _ _ _ _ _ _ _ _ |- _ => apply compares_iff in H; now rewrite H end.
  - rewrite !type_eqb_refl. reflexivity.
  - apply type_eqb_refl.
  - exists []. auto.
  - match goal with H : determined_all rest = true -> _ |- _ => destruct H as (bs & Hbs & F); [assumption|assumption|] end.
    rewrite Hbs. destruct t as [b|]; [|congruence]. exists (b :: bs). split; [reflexivity|]. constructor; auto.
Qed.

Theorem infer_iff G p t : determined p = true -> typed G p t <-> infer G p = Some t.
Proof.
  intros D. split; [intros H; now apply (proj1 (infer_complete G))|]. apply (proj1 infer_sound).
Qed.
End Facts.
