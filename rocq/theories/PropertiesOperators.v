(** * Properties of the operators on quantities: C01-C06

    Vocabulary.  An operand type is [(r, b)]: [r] says owned, [&] or [&mut]; [b] is [TyQ s d], a
    quantity with raw type [s] and dimension [d], or [TyS s], a bare number.  [compiles ... op tl tr
    out]: the generated impls make [a op b] compile for operands of these types, with the output
    type [out] (none for in-place operators and comparisons).  [exponents b v]: the operand has
    exponent [v f] for base dimension [f], where a bare number counts as dimensionless. *)
From Coq Require Import String List Bool ZArith QArith Qcanon Lia.
From Verif Require Import MachineInt Ratio RatioFacts F64 Magnitude Exponent ExponentFacts SMap Types
  CodegenDimension CodegenDimensionFacts CodegenLiteral Storage Operators OperatorSpec OperatorFacts
  Setting PropertiesDimension.
Import ListNotations.
Local Close Scope Q_scope.
Local Close Scope Qc_scope.
Local Open Scope list_scope.

Section Operators.
Context (k : mode) (fields : list string) (N : NoDup fields).
Context (raw_op : trait -> sty -> sty -> option sty) (raw_copy : sty -> bool) (ft : features).
Context (OK : storages_ok raw_op raw_copy (storage_types ft)).
Notation compiles := (compiles (ops k) fields raw_op raw_copy ft).
Notation compares := (compares (ops k) fields raw_op raw_copy ft).
Notation raw_supports := (raw_supports raw_op raw_copy).
Notation supported := (supported (storage_types ft)).
Notation base_ty := (base_ty (ops k)).
Notation ty := (ty (ops k)).

Definition exponents (b : base_ty) (v : string -> Qc) : Prop :=
  match b with
  | TyQ _ d => denotes k fields d v
  | TyS _ => forall f, v f = ZQc 0
  end.
Definition same (v w : string -> Qc) : Prop := forall f, In f fields -> v f = w f.
Definition zero : string -> Qc := fun _ => ZQc 0.

Lemma eq_same d d' v v' : denotes k fields d v -> denotes k fields d' v' -> (d = d' <-> same v v').
Proof. intros H H0. exact (C08_identity k fields d d' v v' N H H0). Qed.
Lemma none_same d v : denotes k fields d v -> (dimensionless (ops k) fields d <-> same v zero).
Proof.
  intros H. unfold dimensionless. destruct (none_stands_for (ops k) fields N (laws k)) as (z & Hz & Dz).
  rewrite Hz. rewrite <- (eq_same d z v zero H Dz). split; congruence.
Qed.

Lemma both_refs (r1 r2 : ref_kind) :
  (r1 = Reference /\ r2 = Reference) \/ ~ (r1 = Reference /\ r2 = Reference).
Proof. destruct r1, r2; auto; right; intros [? ?]; discriminate. Qed.

(** ** C01 *)
Theorem C01_add_sub : forall op r1 s1 d1 v1 r2 s2 d2 v2 o,
  op = TAdd \/ op = TSub -> readable r1 -> readable r2 ->
  denotes k fields d1 v1 -> denotes k fields d2 v2 -> raw_supports op r1 s1 r2 s2 o ->
  (forall out, compiles op (r1, TyQ s1 d1) (r2, TyQ s2 d2) out <->
               same v1 v2 /\ out = Some (o, d1)).
Proof.
  intros op r1 s1 d1 v1 r2 s2 d2 v2 o Hop R1 R2 D1 D2 S out.
  rewrite compiles_iff_spec by auto. cbn [spec]. rewrite <- (eq_same _ _ _ _ D1 D2). split.
  - intros (o' & S' & M). assert (o' = o) as -> by (destruct S as [A _], S' as [B _]; congruence).
    destruct Hop as [-> | ->]; tauto.
  - intros [-> ->]. exists o. split; auto. destruct Hop as [-> | ->]; tauto.
Qed.

Theorem C01_in_place : forall op r1 s1 d1 v1 r2 s2 d2 v2 o,
  op = TAddAssign \/ op = TSubAssign -> writable r1 -> readable r2 ->
  denotes k fields d1 v1 -> denotes k fields d2 v2 -> raw_supports op r1 s1 r2 s2 o ->
  (compiles op (r1, TyQ s1 d1) (r2, TyQ s2 d2) None <-> same v1 v2).
Proof.
  intros op r1 s1 d1 v1 r2 s2 d2 v2 o Hop R1 R2 D1 D2 S.
  rewrite compiles_iff_spec by auto. cbn [spec]. rewrite <- (eq_same _ _ _ _ D1 D2). split.
  - intros (o' & S' & M). destruct Hop as [-> | ->]; tauto.
  - intros ->. exists o. split; auto. destruct Hop as [-> | ->]; tauto.
Qed.

(** Comparisons, with core's rule for two references. *)
Theorem C01_compare : forall op r1 s1 d1 v1 r2 s2 d2 v2 o,
  op = TPartialEq \/ op = TPartialOrd -> readable r1 -> readable r2 ->
  denotes k fields d1 v1 -> denotes k fields d2 v2 -> raw_supports op r1 s1 r2 s2 o ->
  (compares op (r1, TyQ s1 d1) (r2, TyQ s2 d2) <-> same v1 v2).
Proof.
  intros op r1 s1 d1 v1 r2 s2 d2 v2 o Hop R1 R2 D1 D2 (S1 & S2 & S3).
  unfold Operators.compares. rewrite !compiles_iff_spec by auto. cbn [spec fst snd].
  rewrite <- (eq_same _ _ _ _ D1 D2). split.
  - intros [(o' & S' & M)|(_ & _ & (o' & S' & M))]; destruct Hop as [-> | ->]; tauto.
  - intros ->. destruct (both_refs r1 r2) as [[-> ->]|NR].
    + right. split; [reflexivity|]. split; [reflexivity|]. exists o. split.
      * split; [auto|]. split; congruence.
      * destruct Hop as [-> | ->]; unfold readable; repeat split; try tauto; intros [? ?]; discriminate.
    + left. exists o. split; [repeat split; auto|]. destruct Hop as [-> | ->]; tauto.
Qed.

(** ** C02: the output dimension of every operator *)
Definition result_exponents (op : trait) (v1 v2 : string -> Qc) : string -> Qc :=
  match op with
  | TMul => fun f => (v1 f + v2 f)%Qc
  | TDiv => fun f => (v1 f - v2 f)%Qc
  | _ => v1
  end.

Lemma same_proper d v w : same v w -> denotes k fields d v -> denotes k fields d w.
Proof. intros E H. eapply stands_for_proper; eauto. Qed.

Theorem C02_exact : forall op r1 b1 v1 r2 b2 v2 out,
  exponents b1 v1 -> exponents b2 v2 -> has_output_type op = true ->
  compiles op (r1, b1) (r2, b2) out ->
  exists o d, out = Some (o, d) /\ denotes k fields d (result_exponents op v1 v2).
Proof.
  intros op r1 b1 v1 r2 b2 v2 out E1 E2 Hop C. apply compiles_iff_spec in C; auto.
  destruct b1 as [s1 d1|s1], b2 as [s2 d2|s2]; [| | |destruct C]; cbn [spec] in C;
    destruct C as (o & _ & C); cbn [exponents] in E1, E2; destruct op; try discriminate Hop;
    cbn [result_exponents];
    repeat match goal with H : _ /\ _ |- _ => destruct H | H : exists _, _ |- _ => destruct H end;
    subst; do 2 eexists; (split; [reflexivity|]).
  - assumption.
  - assumption.
  - eapply dim_add_spec; eauto.
  - eapply dim_sub_spec; eauto.
  - assumption.
  - assumption.
  - eapply same_proper; [|eassumption]. intros f _. rewrite E2, DimensionMathFacts.ZQc_0. ring.
  - eapply same_proper; [|eassumption]. intros f _. rewrite E2, DimensionMathFacts.ZQc_0. ring.
  - eapply same_proper; [|eassumption]. intros f Hf. rewrite E1.
    match goal with H : dimensionless _ _ _ |- _ => now apply (none_same _ _ E2) in H; apply H end.
  - eapply same_proper; [|eassumption]. intros f Hf. rewrite E1.
    match goal with H : dimensionless _ _ _ |- _ => now apply (none_same _ _ E2) in H; apply H end.
  - eapply same_proper; [|eassumption]. intros f Hf. rewrite E1, DimensionMathFacts.ZQc_0. ring.
  - eapply same_proper; [|eapply dim_neg_spec; eauto].
    intros f Hf. rewrite E1, DimensionMathFacts.ZQc_0. cbv beta. ring.
Qed.

(** Products and quotients do compile, for all storage combinations that support them, whenever
    the result dimension exists (its exponents do not overflow, see C08_aborts_iff). *)
Theorem C02_exists : forall op r1 b1 r2 b2 s1 s2 o,
  op = TMul \/ op = TDiv -> readable r1 -> readable r2 -> raw_supports op r1 s1 r2 s2 o ->
  (forall d1 d2 d, b1 = TyQ s1 d1 -> b2 = TyQ s2 d2 ->
     (if match op with TMul => true | _ => false end then dadd k fields d1 d2 else dsub k fields d1 d2) = Some d ->
     compiles op (r1, b1) (r2, b2) (Some (o, d))) /\
  (forall d, b1 = TyQ s1 d -> b2 = TyS s2 -> supported s2 ->
     compiles op (r1, b1) (r2, b2) (Some (o, d))) /\
  (forall d d', b1 = TyS s1 -> b2 = TyQ s2 d -> supported s1 ->
     (if match op with TMul => true | _ => false end then Some d else dneg k fields d) = Some d' ->
     compiles op (r1, b1) (r2, b2) (Some (o, d'))).
Proof.
  intros op r1 b1 r2 b2 s1 s2 o Hop R1 R2 S. split; [|split].
  - intros d1 d2 d -> -> H. apply compiles_iff_spec; auto. cbn [spec]. exists o. split; auto.
    destruct Hop as [-> | ->]; eauto.
  - intros d -> -> Su. apply compiles_iff_spec; auto. cbn [spec]. exists o. split; auto.
    destruct Hop as [-> | ->]; eauto.
  - intros d d' -> -> Su H. apply compiles_iff_spec; auto. cbn [spec]. exists o. split; auto.
    split; auto. destruct Hop as [-> | ->]; [injection H as <-|]; eauto.
Qed.

(** ** C01, C03: whatever the operands, [+], [-], [+=], [-=] and comparisons need equal exponents,
    a bare number counting as dimensionless *)
Lemma balanced_spec op r1 b1 v1 r2 b2 v2 out :
  In op [TAdd; TSub; TAddAssign; TSubAssign; TPartialEq; TPartialOrd] ->
  exponents b1 v1 -> exponents b2 v2 -> compiles op (r1, b1) (r2, b2) out -> same v1 v2.
Proof.
  intros Hop E1 E2 C. apply compiles_iff_spec in C; auto.
  destruct b1 as [s1 d1|s1], b2 as [s2 d2|s2]; [| | |destruct C]; cbn [spec] in C;
    destruct C as (o & _ & C); cbn [exponents] in E1, E2; intros f Hf.
  - assert (d1 = d2) as E by (destruct op; simpl in Hop; intuition (congruence || discriminate)).
    now apply (eq_same _ _ _ _ E1 E2) in E; apply E.
  - rewrite E2. assert (dimensionless (ops k) fields d1) as E
      by (destruct op; simpl in Hop; intuition (congruence || discriminate)).
    now apply (none_same _ _ E1) in E; apply E.
  - rewrite E1. assert (dimensionless (ops k) fields d2) as E
      by (destruct op; simpl in Hop; intuition (congruence || discriminate)).
    symmetry. now apply (none_same _ _ E2) in E; apply E.
Qed.

Theorem C01_C03_balanced : forall op r1 b1 v1 r2 b2 v2,
  In op [TAdd; TSub; TAddAssign; TSubAssign; TPartialEq; TPartialOrd] ->
  exponents b1 v1 -> exponents b2 v2 ->
  (exists out, compiles op (r1, b1) (r2, b2) out) \/ compares op (r1, b1) (r2, b2) -> same v1 v2.
Proof.
  intros op r1 b1 v1 r2 b2 v2 Hop E1 E2 [[out C]|[C|(_ & _ & C)]]; eapply balanced_spec; eauto.
Qed.

(** ** C03 *)
(** Bare numbers on the right: dimensionless quantities only, and these do work. *)
Theorem C03_number_right : forall op r1 s d v r2 o,
  denotes k fields d v -> supported s -> raw_supports op r1 s r2 s o ->
  (op = TAdd \/ op = TSub -> readable r1 -> readable r2 ->
     forall out, compiles op (r1, TyQ s d) (r2, TyS s) out <-> same v zero /\ out = Some (o, d)) /\
  (op = TAddAssign \/ op = TSubAssign -> writable r1 -> readable r2 ->
     (compiles op (r1, TyQ s d) (r2, TyS s) None <-> same v zero)) /\
  (op = TPartialEq \/ op = TPartialOrd -> r1 = Value -> r2 = Value ->
     (compares op (r1, TyQ s d) (r2, TyS s) <-> same v zero)).
Proof.
  intros op r1 s d v r2 o D Su S. pose proof (none_same d v D) as Z. split; [|split].
  - intros Hop R1 R2 out. rewrite compiles_iff_spec by auto. cbn [spec]. split.
    + intros (o' & S' & M). assert (o' = o) as -> by (destruct S as [A _], S' as [B _]; congruence).
      destruct Hop as [-> | ->]; tauto.
    + intros [E ->]. exists o. split; auto. destruct Hop as [-> | ->]; tauto.
  - intros Hop R1 R2. rewrite compiles_iff_spec by auto. cbn [spec]. split.
    + intros (o' & S' & M). destruct Hop as [-> | ->]; tauto.
    + intros E. exists o. split; auto. destruct Hop as [-> | ->]; tauto.
  - intros Hop -> ->. unfold Operators.compares. rewrite !compiles_iff_spec by auto. cbn [spec fst snd].
    split.
    + intros [(o' & S' & M)|(E & _)]; [|discriminate E]. destruct Hop as [-> | ->]; tauto.
    + intros E. left. exists o. split; auto. destruct Hop as [-> | ->]; tauto.
Qed.

(** Bare numbers on the left. *)
Theorem C03_number_left : forall op r1 s d v r2 o,
  denotes k fields d v -> supported s -> raw_supports op r1 s r2 s o ->
  (op = TAdd \/ op = TSub -> readable r1 -> readable r2 ->
     forall out, compiles op (r1, TyS s) (r2, TyQ s d) out <-> same v zero /\ out = Some (o, d)) /\
  (In op [TAddAssign; TSubAssign; TMulAssign; TDivAssign] -> r1 = Value -> readable r2 ->
     (compiles op (r1, TyS s) (r2, TyQ s d) None <-> same v zero)) /\
  (op = TPartialEq \/ op = TPartialOrd -> r1 = Value -> r2 = Value ->
     (compares op (r1, TyS s) (r2, TyQ s d) <-> same v zero)).
Proof.
  intros op r1 s d v r2 o D Su S. pose proof (none_same d v D) as Z. split; [|split].
  - intros Hop R1 R2 out. rewrite compiles_iff_spec by auto. cbn [spec]. split.
    + intros (o' & S' & M). assert (o' = o) as -> by (destruct S as [A _], S' as [B _]; congruence).
      destruct Hop as [-> | ->]; tauto.
    + intros [E ->]. exists o. split; auto. destruct Hop as [-> | ->]; tauto.
  - intros Hop R1 R2. rewrite compiles_iff_spec by auto. cbn [spec]. split.
    + intros (o' & S' & M). simpl in Hop. destruct op; intuition discriminate.
    + intros E. exists o. split; auto. split; auto. simpl in Hop. destruct op; intuition discriminate.
  - intros Hop -> ->. unfold Operators.compares. rewrite !compiles_iff_spec by auto. cbn [spec fst snd].
    split.
    + intros [(o' & S' & M)|(E & _)]; [|discriminate E]. destruct Hop as [-> | ->]; tauto.
    + intros E. left. exists o. split; auto. destruct Hop as [-> | ->]; tauto.
Qed.

(** [q *= e] and [q /= e] with a quantity [e]: only if [e] is dimensionless. *)
Theorem C03_C04_scale_in_place : forall op r1 s1 d1 v1 r2 s2 d2 v2 o,
  op = TMulAssign \/ op = TDivAssign -> writable r1 -> readable r2 ->
  denotes k fields d1 v1 -> denotes k fields d2 v2 -> raw_supports op r1 s1 r2 s2 o ->
  (compiles op (r1, TyQ s1 d1) (r2, TyQ s2 d2) None <-> same v2 zero).
Proof.
  intros op r1 s1 d1 v1 r2 s2 d2 v2 o Hop R1 R2 D1 D2 S.
  rewrite compiles_iff_spec by auto. cbn [spec]. rewrite <- (none_same _ _ D2). split.
  - intros (o' & S' & M). destruct Hop as [-> | ->]; tauto.
  - intros E. exists o. split; auto. destruct Hop as [-> | ->]; tauto.
Qed.

(** Building a quantity from a number with [.into()]. *)
Theorem C03_into : forall src s d v,
  denotes k fields d v ->
  (from_number_compiles (ops k) fields src (TyQ s d) <-> s = src /\ same v zero).
Proof.
  intros src s d v D. rewrite <- (none_same d v D). unfold from_number_compiles, dimensionless.
  split.
  - intros (n & E & H). injection H as -> ->. auto.
  - intros [-> H]. eauto.
Qed.

(** ** C04 *)
(** The binary operator behind an in-place operator. *)
Definition binary_of (op : trait) : trait :=
  match op with
  | TAddAssign => TAdd | TSubAssign => TSub | TMulAssign => TMul | TDivAssign => TDiv | _ => op
  end.
Theorem C04_keeps_dimension : forall op r1 b1 v1 r2 b2 v2 out,
  In op [TAddAssign; TSubAssign; TMulAssign; TDivAssign] ->
  exponents b1 v1 -> exponents b2 v2 -> compiles op (r1, b1) (r2, b2) out ->
  out = None /\ same (result_exponents (binary_of op) v1 v2) v1 /\
  (In op [TAddAssign; TSubAssign] -> same v2 v1) /\
  (In op [TMulAssign; TDivAssign] -> same v2 zero).
Proof.
  intros op r1 b1 v1 r2 b2 v2 out Hop E1 E2 C.
  assert (out = None) as ->.
  { destruct C as (t & _ & <- & (d & s & _ & _ & _ & O)). unfold output_is in O.
    replace (has_output_type (ot_name t)) with false in O; auto.
    simpl in Hop. destruct (ot_name t); intuition discriminate. }
  split; auto.
  assert (In op [TMulAssign; TDivAssign] -> same v2 zero) as M.
  { intros Hm f Hf. apply compiles_iff_spec in C; auto.
    destruct b1 as [s1 d1|s1], b2 as [s2 d2|s2]; [| | |destruct C]; cbn [spec] in C;
      destruct C as (o & _ & C); cbn [exponents] in E1, E2; try (apply E2; fail);
      apply (none_same _ _ E2); auto; simpl in Hm;
      destruct op; intuition discriminate. }
  split; [|split; auto].
  - simpl in Hop. destruct Hop as [<-|[<-|[<-|[<-|[]]]]]; intros f Hf; cbn [binary_of result_exponents];
      try reflexivity.
    + rewrite (M ltac:(simpl; tauto) f Hf). unfold zero. rewrite DimensionMathFacts.ZQc_0. ring.
    + rewrite (M ltac:(simpl; tauto) f Hf). unfold zero. rewrite DimensionMathFacts.ZQc_0. ring.
  - intros Ha f Hf. symmetry. eapply balanced_spec; eauto. simpl in *. tauto.
Qed.

(** ** C06 *)
(** Impl headers (without looking at where-clauses) never overlap: two impls of one operator that
    match the same operand types are the same entry, entries are pairwise different, and the
    output type is a function of the operand types. *)
Theorem C06_one_impl : forall t t' tl tr d s d' s',
  In t (numeric_traits ft) -> In t' (numeric_traits ft) -> ot_name t = ot_name t' ->
  inst_ty (ops k) fields d s (lhs_type t) tl -> inst_ty (ops k) fields d s (rhs_type t) tr ->
  inst_ty (ops k) fields d' s' (lhs_type t') tl -> inst_ty (ops k) fields d' s' (rhs_type t') tr ->
  t = t'.
Proof. intros. eapply one_impl; eauto. Qed.

Theorem C06_no_duplicates : NoDup (numeric_traits ft).
Proof. apply numeric_traits_NoDup. Qed.

Theorem C06_result_type : forall op tl tr out out',
  compiles op tl tr out -> compiles op tl tr out' -> out = out'.
Proof.
  intros op tl tr out out' C C'. apply compiles_iff_spec in C; auto. apply compiles_iff_spec in C'; auto.
  eapply spec_functional; eauto.
Qed.

(** ** C05 *)
(** [self] is a value of type [b] with stored value [x]. *)
Definition stores {V} (b : base_ty) (self : value (V:=V)) (x : V) : Prop :=
  match b with TyQ _ _ => self = Wrapped x | TyS _ => self = Plain x end.

Theorem C05_stored_values : forall V C (arith : trait -> V -> V -> V) (cmp : trait -> V -> V -> C)
    t r1 b1 r2 b2 out self rhs x y,
  In t (numeric_traits ft) -> impl_applies (ops k) fields raw_op raw_copy t (r1, b1) (r2, b2) out ->
  stores b1 self x -> stores b2 rhs y ->
  (In (ot_name t) [TAdd; TSub; TMul; TDiv] ->
     body arith cmp t self rhs = Some (Returns (Wrapped (arith (ot_name t) x y)))) /\
  (In (ot_name t) [TAddAssign; TSubAssign; TMulAssign; TDivAssign] ->
     exists self', body arith cmp t self rhs = Some (Updates self') /\
                   stores b1 self' (arith (ot_name t) x y)) /\
  (In (ot_name t) [TPartialEq; TPartialOrd] ->
     body arith cmp t self rhs = Some (Compares (cmp (ot_name t) x y))).
Proof.
  intros V C arith cmp t r1 b1 r2 b2 out self rhs x y I (d & s & L & R & _ & _) S1 S2.
  assert (project (op_type (ot_lhs t)) self = Some x /\
          (match op_type (ot_lhs t) with KStorage => exists s1, b1 = TyS s1 | _ => exists s1 d1, b1 = TyQ s1 d1 end)) as [P1 K1].
  { unfold lhs_type, type_for_operand, inst_ty in L. destruct L as [_ L]. cbn [fst snd] in L.
    destruct (op_type (ot_lhs t)); [destruct (fst (dimension_types t)); [|destruct L]| |];
      [subst b1|destruct L as (n & _ & ->)|subst b1]; cbn [stores] in S1; subst self; eauto. }
  assert (project (op_type (ot_rhs t)) rhs = Some y) as P2.
  { unfold rhs_type, type_for_operand, inst_ty in R. destruct R as [_ R]. cbn [fst snd] in R.
    destruct (op_type (ot_rhs t)); [destruct (snd (dimension_types t)); [|destruct R]| |];
      [subst b2|destruct R as (n & _ & ->)|subst b2]; cbn [stores] in S2; subst rhs; eauto. }
  unfold body. rewrite P1, P2. split; [|split]; intros Hop; simpl in Hop.
  - destruct (ot_name t); intuition discriminate.
  - destruct (ot_name t); try (intuition discriminate); (eexists; split; [reflexivity|]);
      (destruct (op_type (ot_lhs t)); [destruct K1 as (s1 & d1 & ->)|destruct K1 as (s1 & d1 & ->)|destruct K1 as (s1 & ->)];
       reflexivity).
  - destruct (ot_name t); intuition discriminate.
Qed.

(** Unary minus negates the stored value. *)
Theorem C05_neg : forall V (neg : V -> V) b self x,
  (exists s d, b = TyQ s d) -> stores b self x ->
  exists self', neg_body neg self = Some self' /\ stores b self' (neg x).
Proof. intros V neg b self x (s & d & ->) H. cbn [stores] in *. subst. eexists; split; reflexivity. Qed.
End Operators.
Print Assumptions C01_add_sub.
Print Assumptions C01_in_place.
Print Assumptions C01_compare.
Print Assumptions C01_C03_balanced.
Print Assumptions C02_exact.
Print Assumptions C02_exists.
Print Assumptions C03_number_right.
Print Assumptions C03_number_left.
Print Assumptions C03_C04_scale_in_place.
Print Assumptions C03_into.
Print Assumptions C04_keeps_dimension.
Print Assumptions C05_stored_values.
Print Assumptions C05_neg.
Print Assumptions C06_one_impl.
Print Assumptions C06_no_duplicates.
Print Assumptions C06_result_type.

(** ** The hypotheses are met *)
(** The raw types of core and glam, under every feature set. *)
Lemma std_storages_ok : forall ft, storages_ok std_raw_op std_raw_copy (storage_types ft).
Proof.
  intros ft c _. split; [reflexivity|]. split.
  - intros op H. destruct c as [[]|[]], op; try discriminate H; reflexivity.
  - intros op H. destruct c as [[]|[]], op; simpl in H; try (intuition discriminate).
Qed.
Definition all_features : features := Build_features true true true true true true.
Definition two_fields : list string := ["length"; "time"]%string.
Definition speed : dimval (ops IntegerExponents) := [("length", 1%Z); ("time", (-1)%Z)]%string.
Definition length_ : dimval (ops IntegerExponents) := [("length", 1%Z); ("time", 0%Z)]%string.
Definition time_ : dimval (ops IntegerExponents) := [("length", 0%Z); ("time", 1%Z)]%string.
Definition of_fields (l : list (string * Z)) (f : string) : Qc :=
  match sget f l with Some z => ZQc z | None => ZQc 0 end.
Notation std_compiles := (compiles (ops IntegerExponents) two_fields std_raw_op std_raw_copy all_features).

Example two_fields_NoDup : NoDup two_fields.
Proof. apply nodupb_iff. reflexivity. Qed.
Lemma denotes_int a b :
  denotes IntegerExponents two_fields [("length"%string, a); ("time"%string, b)]
    (fun f => if String.eqb f "length" then ZQc a else ZQc b).
Proof.
  split; [reflexivity|]. intros f e [H|[H|[]]]; injection H as <- <-; split; simpl; auto.
Qed.

(** [length / time] is a speed, [1.0f32 / time] a frequency, a speed times a vector of numbers a
    vector of speeds; [speed += speed] compiles. *)
Example operators_apply :
  std_compiles TDiv (Value, TyQ (Known (Float F32)) length_) (Reference, TyQ (Known (Float F32)) time_)
    (Some (Known (Float F32), speed)) /\
  std_compiles TDiv (Value, TyS (Known (Float F32))) (Value, TyQ (Known (Float F32)) time_)
    (Some (Known (Float F32), [("length", 0%Z); ("time", (-1)%Z)]%string)) /\
  std_compiles TMul (Value, TyQ (Known (Float F64)) speed) (Reference, TyS (Known (Vector DVec3)))
    (Some (Known (Vector DVec3), speed)) /\
  std_compiles TAddAssign (MutableReference, TyQ (Known (Float F64)) speed) (Reference, TyQ (Known (Float F64)) speed) None /\
  ~ (exists out, std_compiles TAdd (Value, TyQ (Known (Float F64)) speed) (Value, TyQ (Known (Float F64)) length_) out) /\
  ~ (exists out, std_compiles TAdd (Value, TyQ (Known (Float F64)) speed) (Value, TyS (Known (Float F64))) out).
Proof.
  assert (OK := std_storages_ok all_features).
  assert (N := two_fields_NoDup).
  split; [|split; [|split; [|split; [|split]]]].
  1-4: apply compiles_iff_spec; auto; eexists; cbn;
    repeat split; unfold readable, writable; try reflexivity; auto;
    try (eexists; split; [reflexivity|simpl; tauto]); eexists; split; reflexivity.
  - intros [out H]. eapply C01_C03_balanced with (v1 := fun f => if String.eqb f "length" then ZQc 1 else ZQc (-1))
      (v2 := fun f => if String.eqb f "length" then ZQc 1 else ZQc 0) (op := TAdd) in N; eauto.
    + specialize (N "time"%string ltac:(simpl; auto)). cbn in N. now apply ZQc_inj in N.
    + simpl; auto.
    + apply denotes_int.
    + apply denotes_int.
  - intros [out H]. eapply C01_C03_balanced with (v1 := fun f => if String.eqb f "length" then ZQc 1 else ZQc (-1))
      (v2 := fun _ => ZQc 0) (op := TAdd) in N; eauto.
    + specialize (N "time"%string ltac:(simpl; auto)). cbn in N. now apply ZQc_inj in N.
    + simpl; auto.
    + apply denotes_int.
    + intros f; reflexivity.
Qed.
