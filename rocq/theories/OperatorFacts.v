(** * The table of impls satisfies the operator specification *)
From Coq Require Import String List Bool ZArith.
From Verif Require Import MachineInt Ratio F64 Magnitude Exponent SMap Types CodegenDimension
  Storage Operators OperatorSpec.
Import ListNotations.


Section Facts.
Context (X : exp_ops) (fields : list string).
Context (raw_op : trait -> sty -> sty -> option sty) (raw_copy : sty -> bool).
Context (ft : features).
Notation compiles := (compiles X fields raw_op raw_copy ft).
Notation spec := (spec X fields raw_op raw_copy (storage_types ft)).
Notation impl_applies := (impl_applies X fields raw_op raw_copy).


Ltac decompose_all :=
  repeat match goal with
  | H : _ /\ _ |- _ => destruct H
  | H : exists _, _ |- _ => destruct H
  | H : ?x = TyQ _ _ |- _ => is_var x; subst x
  | H : ?x = TyS _ |- _ => is_var x; subst x
  | H : ?x = Some _ |- _ => is_var x; subst x
  | H : ?x = None |- _ => is_var x; subst x
  end.

Ltac close_sound :=
  unfold inst_ty, bounds_hold, output_is in *; cbn in *; decompose_all; cbn in *;
  try contradiction;
  repeat match goal with
  | H : true = true -> _ |- _ => specialize (H eq_refl); decompose_all
  | H : ?a <> None |- _ =>
      match type of a with option sty => destruct a as [?o|] eqn:?; [clear H|now destruct H] end
  | H : Some _ = Some _ |- _ => injection H as H
  end; subst;
  unfold supported, dimensionless;
  eexists; repeat apply conj;
  first [ eassumption | reflexivity | (left; reflexivity) | (right; reflexivity) | (intro; now auto)
        | (intros [? ?]; discriminate) | (eexists; split; [eassumption|reflexivity])
        | (eexists; split; [reflexivity|eassumption]) | congruence | idtac ].

(** The impls as a list of cases. *)
Lemma generic_sound t tl tr out :
  In t generic_traits -> impl_applies t tl tr out -> spec (ot_name t) tl tr out.
Proof.
  intros I (d & s & L & R & B & O).
  destruct tl as [r1 b1], tr as [r2 b2].
  unfold generic_traits in I. cbn [for_traits flat_map map app fst snd In] in I.
  unfold spec, raw_supports, readable, writable.
  repeat (destruct I as [<-|I]; [ close_sound |]). destruct I.
Qed.

Lemma storage_sound c t tl tr out :
  storages_ok raw_op raw_copy (storage_types ft) -> In c (storage_types ft) ->
  In t (storage_traits c) -> impl_applies t tl tr out -> spec (ot_name t) tl tr out.
Proof.
  intros OK Ic I (d & s & L & R & B & O). destruct (OK c Ic) as (K1 & K2 & K3).
  destruct tl as [r1 b1], tr as [r2 b2].
  unfold storage_traits in I. cbn [for_traits flat_map map app fst snd In] in I.
  unfold spec, raw_supports, readable, writable.
  repeat (destruct I as [<-|I]; [ 
    try pose proof (K2 TAdd eq_refl) as A1; try pose proof (K2 TSub eq_refl) as A2;
    pose proof (K3 TAddAssign ltac:(simpl; tauto)) as A3;
    pose proof (K3 TSubAssign ltac:(simpl; tauto)) as A4;
    pose proof (K3 TMulAssign ltac:(simpl; tauto)) as A5;
    pose proof (K3 TDivAssign ltac:(simpl; tauto)) as A6; clear OK K2 K3; close_sound |]).
  all: destruct I.
Qed.

Theorem compiles_sound op tl tr out :
  storages_ok raw_op raw_copy (storage_types ft) -> compiles op tl tr out -> spec op tl tr out.
Proof.
  intros OK (t & I & <- & A). unfold numeric_traits in I. apply in_app_or in I as [I|I].
  - now apply generic_sound.
  - apply in_flat_map in I as (c & Ic & I). eapply storage_sound; eauto.
Qed.

(** Completeness: name the impl. *)
Lemma use_generic t tl tr out :
  In t generic_traits -> impl_applies t tl tr out -> compiles (ot_name t) tl tr out.
Proof. intros I A. exists t. split; [|auto]. unfold numeric_traits. apply in_or_app. now left. Qed.
Lemma use_storage c t tl tr out : In c (storage_types ft) ->
  In t (storage_traits c) -> impl_applies t tl tr out -> compiles (ot_name t) tl tr out.
Proof.
  intros Ic I A. exists t. split; [|auto]. unfold numeric_traits. apply in_or_app. right.
  apply in_flat_map. eauto.
Qed.

Definition dsub_of (d1 d2 : dimval X) : dsub X :=
  fun v => match v with VD => d1 | VDL => d1 | VDR => d2 end.
Definition ssub_of (s s1 s2 : sty) : ssub :=
  fun v => match v with VS => s | VLHS => s1 | VRHS => s2 end.

Ltac find_in :=
  unfold generic_traits, storage_traits; cbn [for_traits flat_map map app fst snd];
  repeat (first [apply in_eq | apply in_cons]).

Ltac close_complete :=
  unfold inst_ty, bounds_hold, output_is; cbn;
  repeat match goal with
  | |- _ /\ _ => split
  | |- true = true -> _ => intros _
  | |- false = true -> _ => intros H'; discriminate H'
  end;
  first [ reflexivity | assumption | congruence
        | (intros; match goal with H : ?r <> Value -> _ |- _ => apply H; discriminate end)
        | (eexists; split; [eassumption|reflexivity])
        | (eexists; eexists; split; [reflexivity|split; first [eassumption|reflexivity|congruence]])
        | idtac ].

Ltac refs :=
  repeat match goal with
  | H : readable _ |- _ => destruct H as [-> | ->]
  | H : writable _ |- _ => destruct H as [-> | ->]
  end.

Lemma complete_QQ op r1 s1 d1 r2 s2 d2 out :
  spec op (r1, TyQ s1 d1) (r2, TyQ s2 d2) out -> compiles op (r1, TyQ s1 d1) (r2, TyQ s2 d2) out.
Proof.
  intros (o & (R1 & R2 & R3) & M). cbv beta iota in M.
  set (k := match op with TMulAssign | TDivAssign => KDimensionless | _ => KQuantity end).
  change op with (ot_name (mkOp op (opn r1 KQuantity Generic) (opn r2 k Generic))) at 1.
  apply use_generic.
  - subst k. destruct op; decompose_all; refs; try (find_in; fail); exfalso; tauto.
  - exists (dsub_of d1 d2), (ssub_of s1 s1 s2). subst k.
    destruct op; decompose_all; unfold dimensionless in *; subst; refs; close_complete.
Qed.

Lemma complete_QS op r1 s1 d1 r2 s2 out :
  spec op (r1, TyQ s1 d1) (r2, TyS s2) out -> compiles op (r1, TyQ s1 d1) (r2, TyS s2) out.
Proof.
  intros (o & (R1 & R2 & R3) & M). cbv beta iota in M.
  destruct op.
  1, 2, 5, 6:
    match goal with |- Operators.compiles _ _ _ _ _ ?op _ _ _ =>
      change op with (ot_name (mkOp op (opn r1 KDimensionless Generic) (opn r2 KStorage Generic))) at 1 end;
    apply use_generic;
    [ decompose_all; refs; find_in
    | exists (dsub_of d1 d1), (ssub_of s1 s1 s2); decompose_all; unfold dimensionless in *; subst; refs;
      close_complete ].
  1, 2:
    match goal with |- Operators.compiles _ _ _ _ _ ?op _ _ _ =>
      destruct M as (M1 & M2 & (c & -> & Ic) & ->);
      change op with (ot_name (mkOp op (opn r1 KQuantity Generic) (opn r2 KStorage (ConcreteTy c)))) at 1 end;
    apply (use_storage c); auto;
    [ refs; find_in
    | exists (dsub_of d1 d1), (ssub_of s1 s1 s1); refs; close_complete ].
  1, 2:
    match goal with |- Operators.compiles _ _ _ _ _ ?op _ _ _ =>
      destruct M as (-> & M2 & -> & (c & -> & Ic) & ->);
      change op with (ot_name (mkOp op (opn Value KQuantity (ConcreteTy c)) (opn r2 KStorage (ConcreteTy c)))) at 1 end;
    apply (use_storage c); auto;
    [ refs; find_in
    | exists (dsub_of d1 d1), (ssub_of (Known c) (Known c) (Known c)); refs; close_complete ].
  1, 2:
    match goal with |- Operators.compiles _ _ _ _ _ ?op _ _ _ =>
      destruct M as (-> & -> & (c & -> & Ic) & M & ->);
      change op with (ot_name (mkOp op (opn Value KDimensionless Generic) (opn Value KStorage (ConcreteTy c)))) at 1 end;
    apply (use_storage c); auto;
    [ find_in
    | exists (dsub_of d1 d1), (ssub_of s1 s1 s1); unfold dimensionless in *; close_complete ].
Qed.

Lemma complete_SQ op r1 s1 r2 s2 d2 out :
  storages_ok raw_op raw_copy (storage_types ft) ->
  spec op (r1, TyS s1) (r2, TyQ s2 d2) out -> compiles op (r1, TyS s1) (r2, TyQ s2 d2) out.
Proof.
  intros OK (o & (R1 & R2 & R3) & (c & -> & Ic) & M). cbv beta iota in M.
  destruct (OK c Ic) as (K1 & K2 & K3).
  destruct op.
  1, 2:
    match goal with |- Operators.compiles _ _ _ _ _ ?op _ _ _ =>
      specialize (K2 op eq_refl);
      change op with (ot_name (mkOp op (opn r1 KStorage (ConcreteTy c)) (opn r2 KDimensionless (ConcreteTy c)))) at 1 end;
    apply (use_storage c); auto;
    [ decompose_all; refs; find_in
    | exists (dsub_of d2 d2), (ssub_of (Known c) (Known c) (Known c)); decompose_all; unfold dimensionless in *; subst; refs;
      close_complete ].
  1, 2:
    match goal with |- Operators.compiles _ _ _ _ _ ?op _ _ _ =>
      change op with (ot_name (mkOp op (opn r1 KStorage (ConcreteTy c)) (opn r2 KQuantity Generic))) at 1 end;
    apply (use_storage c); auto;
    [ decompose_all; refs; find_in
    | exists (dsub_of d2 d2), (ssub_of s2 s2 s2); decompose_all; subst; refs; close_complete ].
  1, 2, 3, 4:
    match goal with |- Operators.compiles _ _ _ _ _ ?op _ _ _ =>
      change op with (ot_name (mkOp op (opn r1 KStorage (ConcreteTy c)) (opn r2 KDimensionless (ConcreteTy c)))) at 1 end;
    apply (use_storage c); auto;
    [ decompose_all; subst; refs; find_in
    | exists (dsub_of d2 d2), (ssub_of (Known c) (Known c) (Known c)); decompose_all; unfold dimensionless in *; subst; refs;
      close_complete ].
  1, 2:
    match goal with |- Operators.compiles _ _ _ _ _ ?op _ _ _ =>
      change op with (ot_name (mkOp op (opn r1 KStorage (ConcreteTy c)) (opn r2 KDimensionless Generic))) at 1 end;
    apply (use_storage c); auto;
    [ decompose_all; subst; find_in
    | exists (dsub_of d2 d2), (ssub_of s2 s2 s2); decompose_all; unfold dimensionless in *; subst; close_complete ].
Qed.

(** The table of impls and the specification agree. *)
Theorem compiles_iff_spec op tl tr out :
  storages_ok raw_op raw_copy (storage_types ft) -> (compiles op tl tr out <-> spec op tl tr out).
Proof.
  intros OK. split; [now apply compiles_sound|].
  destruct tl as [r1 [s1 d1|s1]], tr as [r2 [s2 d2|s2]].
  - apply complete_QQ.
  - apply complete_QS.
  - now apply complete_SQ.
  - intros [].
Qed.

(** ** At most one impl *)
(** The impl that can match operand types, computed from these. *)
Definition impl_of (op : trait) (tl tr : ty X) : option op_trait :=
  let r1 := fst tl in let r2 := fst tr in
  match snd tl, snd tr with
  | TyQ _ _, TyQ _ _ =>
      Some (mkOp op (opn r1 KQuantity Generic)
             (opn r2 (match op with TMulAssign | TDivAssign => KDimensionless | _ => KQuantity end) Generic))
  | TyQ s _, TyS s' =>
      match op, s' with
      | (TAdd | TSub | TAddAssign | TSubAssign), _ =>
          Some (mkOp op (opn r1 KDimensionless Generic) (opn r2 KStorage Generic))
      | (TMul | TDiv), Known c => Some (mkOp op (opn r1 KQuantity Generic) (opn r2 KStorage (ConcreteTy c)))
      | (TMulAssign | TDivAssign), Known c =>
          Some (mkOp op (opn r1 KQuantity (ConcreteTy c)) (opn r2 KStorage (ConcreteTy c)))
      | _, Known c => Some (mkOp op (opn r1 KDimensionless Generic) (opn r2 KStorage (ConcreteTy c)))
      | _, _ => None
      end
  | TyS (Known c), TyQ _ _ =>
      match op with
      | TMul | TDiv => Some (mkOp op (opn r1 KStorage (ConcreteTy c)) (opn r2 KQuantity Generic))
      | TPartialEq | TPartialOrd =>
          Some (mkOp op (opn r1 KStorage (ConcreteTy c)) (opn r2 KDimensionless Generic))
      | _ => Some (mkOp op (opn r1 KStorage (ConcreteTy c)) (opn r2 KDimensionless (ConcreteTy c)))
      end
  | _, _ => None
  end.

Lemma impl_of_spec t tl tr d s :
  In t (numeric_traits ft) ->
  inst_ty X fields d s (lhs_type t) tl -> inst_ty X fields d s (rhs_type t) tr ->
  impl_of (ot_name t) tl tr = Some t.
Proof.
  intros I L R. destruct tl as [r1 b1], tr as [r2 b2].
  unfold numeric_traits in I. apply in_app_or in I as [I|I].
  - unfold generic_traits in I. cbn [for_traits flat_map map app fst snd In] in I.
    repeat (destruct I as [<-|I];
      [unfold inst_ty in L, R; cbn in L, R; decompose_all; subst; reflexivity|]).
    destruct I.
  - apply in_flat_map in I as (c & Ic & I).
    unfold storage_traits in I. cbn [for_traits flat_map map app fst snd In] in I.
    repeat (destruct I as [<-|I];
      [unfold inst_ty in L, R; cbn in L, R; decompose_all; subst; reflexivity|]).
    destruct I.
Qed.

Lemma one_impl t t' tl tr d s d' s' :
  In t (numeric_traits ft) -> In t' (numeric_traits ft) -> ot_name t = ot_name t' ->
  inst_ty X fields d s (lhs_type t) tl -> inst_ty X fields d s (rhs_type t) tr ->
  inst_ty X fields d' s' (lhs_type t') tl -> inst_ty X fields d' s' (rhs_type t') tr ->
  t = t'.
Proof.
  intros I I' E L R L' R'.
  pose proof (impl_of_spec t tl tr d s I L R) as A.
  pose proof (impl_of_spec t' tl tr d' s' I' L' R') as A'. rewrite E in A. congruence.
Qed.

(** The output is a function of the operand types. *)
Lemma spec_functional op tl tr out out' : spec op tl tr out -> spec op tl tr out' -> out = out'.
Proof.
  destruct tl as [r1 [s1 d1|s1]], tr as [r2 [s2 d2|s2]]; [| | |intros []];
  intros (o & (R & _) & M) (o' & (R' & _) & M'); cbv beta iota in M, M';
  rewrite R in R'; injection R' as <-; clear R;
  destruct op; decompose_all; congruence.
Qed.
End Facts.

(** No impl is emitted twice. *)
Definition op_trait_dec (a b : op_trait) : {a = b} + {a <> b}.
Proof. repeat decide equality. Defined.
Definition mentions (c : storage) (t : op_trait) : Prop :=
  op_storage (ot_lhs t) = ConcreteTy c \/ op_storage (ot_rhs t) = ConcreteTy c.
Fixpoint nodup_dec {A} (dec : forall a b : A, {a = b} + {a <> b}) (l : list A) : bool :=
  match l with
  | [] => true
  | a :: l' => (if in_dec dec a l' then false else true) && nodup_dec dec l'
  end.
Lemma nodup_dec_sound {A} dec (l : list A) : nodup_dec dec l = true -> NoDup l.
Proof.
  induction l as [|a l IH]; simpl; [constructor|]. intros H. apply andb_prop in H as [H1 H2].
  destruct (in_dec dec a l); [discriminate|]. constructor; auto.
Qed.
Lemma storage_mentions c t : In t (storage_traits c) -> mentions c t.
Proof.
  unfold storage_traits. cbn [for_traits flat_map map app fst snd In]. unfold mentions.
  intros I. repeat (destruct I as [<-|I]; [cbn; tauto|]). destruct I.
Qed.
Lemma generic_mentions c t : In t generic_traits -> ~ mentions c t.
Proof.
  unfold generic_traits. cbn [for_traits flat_map map app fst snd In]. unfold mentions.
  intros I. repeat (destruct I as [<-|I]; [cbn; intros [E|E]; discriminate|]). destruct I.
Qed.
Lemma storage_mentions_only c c' t : In t (storage_traits c) -> mentions c' t -> c = c'.
Proof.
  unfold storage_traits. cbn [for_traits flat_map map app fst snd In]. unfold mentions.
  intros I. repeat (destruct I as [<-|I]; [cbn; intros [E|E]; congruence|]). destruct I.
Qed.
Lemma NoDup_app_intro {A} (l l' : list A) :
  NoDup l -> NoDup l' -> (forall x, In x l -> ~ In x l') -> NoDup (l ++ l').
Proof.
  induction l as [|a l IH]; simpl; auto. intros N N' D. inversion N; subst. constructor.
  - rewrite in_app_iff. intros [?|?]; [auto|]. eapply D; eauto.
  - apply IH; auto; intros x Hx; apply D; now right.
Qed.
Definition storage_dec (a b : storage) : {a = b} + {a <> b}.
Proof. repeat decide equality. Defined.
Lemma storage_types_NoDup ft : NoDup (storage_types ft).
Proof.
  apply (nodup_dec_sound storage_dec).
  destruct ft as [[] [] [] [] [] []]; reflexivity.
Qed.
Lemma numeric_traits_NoDup ft : NoDup (numeric_traits ft).
Proof.
  unfold numeric_traits. apply NoDup_app_intro.
  - apply (nodup_dec_sound op_trait_dec). vm_compute. reflexivity.
  - pose proof (storage_types_NoDup ft) as N. induction (storage_types ft) as [|c l IH]; cbn [flat_map]; [constructor|].
    inversion N; subst. apply NoDup_app_intro; auto.
    + apply (nodup_dec_sound op_trait_dec). destruct c as [[]|[]]; vm_compute; reflexivity.
    + intros t H I. apply in_flat_map in I as (c' & Ic & I).
      apply storage_mentions in H. pose proof (storage_mentions_only _ _ _ I H). congruence.
  - intros t H I. apply in_flat_map in I as (c' & Ic & I). apply storage_mentions in I.
    eapply generic_mentions; eauto.
Qed.
