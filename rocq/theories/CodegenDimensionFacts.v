(** * The generated dimension arithmetic computes with exponent vectors *)
From Coq Require Import String List Bool ZArith QArith Qcanon Lia.
From Verif Require Import MachineInt Ratio RatioFacts F64 Magnitude Exponent ExponentFacts SMap Types
  DimensionMath DimensionMathFacts CodegenDimension Setting.
Import ListNotations.
Local Close Scope Q_scope.
Local Close Scope Qc_scope.
Local Open Scope list_scope.

Lemma existsb_eqb f l : existsb (String.eqb f) l = true <-> In f l.
Proof.
  rewrite existsb_exists. split.
  - intros (x & H & E). apply String.eqb_eq in E. now subst.
  - intros H. exists f. split; auto. apply String.eqb_refl.
Qed.

Lemma nodupb_iff l : nodupb l = true <-> NoDup l.
Proof.
  induction l as [|x l IH]; simpl; [split; auto; constructor|].
  rewrite andb_true_iff, negb_true_iff, IH. split.
  - intros [H1 H2]. constructor; auto. rewrite <- existsb_eqb. congruence.
  - intros H. inversion H; subst. split; auto. apply not_true_iff_false. now rewrite existsb_eqb.
Qed.

Lemma mapM_Some_iff {A B} (f : A -> option B) l r :
  mapM f l = Some r <-> Forall2 (fun a b => f a = Some b) l r.
Proof.
  revert r. induction l as [|a l IH]; intros r; simpl.
  - split; [intros H; injection H as <-; constructor|inversion 1; auto].
  - destruct (f a) as [b|] eqn:E.
    + destruct (mapM f l) as [r'|].
      * split.
        -- intros H; injection H as <-. constructor; auto. now apply IH.
        -- inversion 1; subst. f_equal. f_equal; [congruence|].
           assert (E' : Some r' = Some l') by now apply IH. congruence.
      * split; [discriminate|]. inversion 1; subst.
        assert (E' : None = Some l') by now apply IH. discriminate.
    + split; [discriminate|]. inversion 1; subst. congruence.
Qed.

Lemma mapM_defined {A B} (f : A -> option B) l :
  (exists r, mapM f l = Some r) <-> (forall a, In a l -> exists b, f a = Some b).
Proof.
  induction l as [|a l IH]; simpl; [split; [tauto|eauto]|]. split.
  - intros [r H]. destruct (f a) as [b|] eqn:E; [|discriminate].
    destruct (mapM f l) as [r'|] eqn:E'; [|discriminate].
    intros x [<-|Hx]; eauto. destruct IH as [IH _]. apply IH; eauto.
  - intros H. destruct (H a) as [b ->]; auto.
    destruct IH as [_ IH]. destruct IH as [r ->]; eauto.
Qed.

Lemma sget_self_map {V} (d : list (string * V)) f :
  NoDup (map fst d) -> In f (map fst d) -> exists v, sget f d = Some v /\ In (f, v) d.
Proof.
  intros N H. induction d as [|[g v] d IH]; simpl in *; [tauto|].
  destruct (String.eqb_spec f g) as [->|n]; [exists v; auto|].
  inversion N; subst. destruct H as [H|H]; [congruence|].
  destruct IH as (w & E & I); auto. eauto.
Qed.

Lemma sget_None' {V} f (d : list (string * V)) : ~ In f (map fst d) -> sget f d = None.
Proof.
  induction d as [|[g v] d IH]; simpl; auto. intros H.
  destruct (String.eqb_spec f g) as [->|n]; [tauto|]. apply IH. tauto.
Qed.

Lemma sget_nodup {V} (d : list (string * V)) f v :
  NoDup (map fst d) -> (sget f d = Some v <-> In (f, v) d).
Proof.
  intros N. split.
  - apply sget_In.
  - intros H. induction d as [|[g w] d IH]; simpl in *; [tauto|]. inversion N; subst.
    destruct H as [H|H].
    + injection H as -> ->. now rewrite String.eqb_refl.
    + destruct (String.eqb_spec f g) as [->|n]; auto. exfalso. apply H2.
      apply in_map_iff. now exists (g, v).
Qed.

Section Dim.
Context (X : exp_ops) (fields : list string) (N : NoDup fields).

Notation dimval := (dimval X).
Definition shaped (d : dimval) : Prop := map fst d = fields.

Lemma shaped_ext_gen (fs : list string) (a b : dimval) :
  NoDup fs -> map fst a = fs -> map fst b = fs ->
  (forall f, In f fs -> sget f a = sget f b) -> a = b.
Proof.
  revert fs b. induction a as [|[f v] a IH]; intros fs b Nf Ha Hb H; simpl in *.
  - subst. destruct b; [auto|discriminate].
  - destruct b as [|[g w] b]; simpl in *; [congruence|].
    destruct fs as [|h fs]; [discriminate|]. injection Ha as -> Ha. injection Hb as -> Hb.
    apply NoDup_cons_iff in Nf as [Nh Nf].
    assert (E : v = w).
    { specialize (H h (or_introl eq_refl)). rewrite String.eqb_refl in H. congruence. }
    subst w. f_equal. apply (IH fs); auto.
    intros g Hg. specialize (H g (or_intror Hg)).
    destruct (String.eqb_spec g h) as [E|n]; [congruence|exact H].
Qed.

Lemma shaped_ext (a b : dimval) :
  shaped a -> shaped b -> (forall f, In f fields -> sget f a = sget f b) -> a = b.
Proof. intros. now apply (shaped_ext_gen fields). Qed.

Lemma struct_expr_id (es : dimval) : shaped es -> struct_expr X fields es None = Some es.
Proof.
  unfold shaped, struct_expr. intros E. rewrite E.
  rewrite (proj2 (nodupb_iff fields) N). simpl.
  assert (Hf : forallb (fun f => existsb (String.eqb f) fields) fields = true).
  { apply forallb_forall. intros f Hf. now apply existsb_eqb. }
  rewrite Hf. apply mapM_Some_iff. clear Hf. rewrite <- E in N.
  assert (G : forall f v, In (f, v) es -> sget f es = Some v) by (intros; now apply sget_nodup).
  rewrite <- E. clear E N.
  assert (G' : forall l : dimval, incl l es ->
    Forall2 (fun (a : string) (b : string * X) =>
      match sget a es with Some v => Some (a, v) | None => None end = Some b) (map fst l) l).
  { induction l as [|[f v] l IH]; simpl; constructor.
    - rewrite (G f v); auto. apply H. now left.
    - apply IH. intros x Hx. apply H. now right. }
  apply G'. apply incl_refl.
Qed.

Lemma mapM_shape (g : string -> option X) es :
  mapM (fun f => let? r := g f in Some (f, r)) fields = Some es ->
  shaped es /\ forall f v, sget f es = Some v <-> In f fields /\ g f = Some v.
Proof.
  intros H. apply mapM_Some_iff in H.
  assert (S : shaped es).
  { unfold shaped. clear N. induction H as [|f b fs es Hf H IH]; simpl; auto.
    destruct (g f); [|discriminate]. injection Hf as <-. simpl. now rewrite IH. }
  split; auto. intros f v. pose proof N as N'. rewrite <- S in N'.
  rewrite (sget_nodup es f v N'). clear S N'. split.
  - induction H as [|f' b fs es Hf H IH]; simpl; [tauto|].
    destruct (g f') eqn:E; [|discriminate]. injection Hf as <-.
    inversion N; subst. intros [HI|HI].
    + injection HI as <- <-. auto.
    + destruct (IH H3 HI). auto.
  - intros [I E]. induction H as [|f' b fs es Hf H IH]; simpl in *; [tauto|].
    inversion N; subst. destruct I as [<-|I]; auto.
    rewrite E in Hf. injection Hf as <-. now left.
Qed.

Lemma entries1_spec op (a c : dimval) :
  entries1 X fields op a = Some c ->
  shaped c /\ forall f v, sget f c = Some v <->
    In f fields /\ exists x, sget f a = Some x /\ op x = Some v.
Proof.
  unfold entries1. intros H.
  assert (H' : mapM (fun f => let? r := (let? v := sget f a in op v) in Some (f, r)) fields = Some c).
  { rewrite <- H. clear. induction fields as [|f fs IH]; simpl; auto. rewrite IH.
    destruct (sget f a); auto. }
  apply mapM_shape in H' as [S E]. split; auto. intros f v. rewrite E.
  destruct (sget f a) as [x|]; split; intros [I J]; split; auto; eauto.
  - destruct J as (y & Ey & J). now injection Ey as <-.
  - discriminate.
  - destruct J as (y & Ey & J). discriminate.
Qed.

Lemma entries2_spec op (a b c : dimval) :
  entries2 X fields op a b = Some c ->
  shaped c /\ forall f v, sget f c = Some v <->
    In f fields /\ exists x y, sget f a = Some x /\ sget f b = Some y /\ op x y = Some v.
Proof.
  unfold entries2. intros H.
  assert (H' : mapM (fun f => let? r := (let? v := sget f a in let? w := sget f b in op v w)
                               in Some (f, r)) fields = Some c).
  { rewrite <- H. clear. induction fields as [|f fs IH]; simpl; auto. rewrite IH.
    destruct (sget f a); auto. destruct (sget f b); auto. }
  apply mapM_shape in H' as [S E]. split; auto. intros f v. rewrite E.
  split; intros [I J]; split; auto.
  - destruct (sget f a) as [x|]; [|discriminate]. destruct (sget f b) as [y|]; [|discriminate]. eauto.
  - destruct J as (x & y & -> & -> & J). auto.
Qed.

Lemma entries1_defined op (a : dimval) :
  shaped a ->
  ((exists c, entries1 X fields op a = Some c) <-> (forall f x, In (f, x) a -> exists y, op x = Some y)).
Proof.
  intros S. unfold entries1. etransitivity; [apply mapM_defined|]. pose proof N as N'. rewrite <- S in N'. split.
  - intros H f x Hx. destruct (H f) as [b Hb].
    { rewrite <- S. now apply (in_map fst) in Hx. }
    rewrite (proj2 (sget_nodup a f x N') Hx) in Hb. destruct (op x); [eauto|discriminate].
  - intros H f Hf. rewrite <- S in Hf. destruct (sget_self_map a f N' Hf) as (x & -> & Hx).
    destruct (H f x Hx) as [y ->]. eauto.
Qed.

Lemma entries2_defined op (a b : dimval) :
  shaped a -> shaped b ->
  ((exists c, entries2 X fields op a b = Some c) <->
   (forall f x y, In (f, x) a -> In (f, y) b -> exists z, op x y = Some z)).
Proof.
  intros S T. unfold entries2. etransitivity; [apply mapM_defined|].
  pose proof N as Na. rewrite <- S in Na. pose proof N as Nb. rewrite <- T in Nb. split.
  - intros H f x y Hx Hy. destruct (H f) as [c Hc].
    { rewrite <- S. now apply (in_map fst) in Hx. }
    rewrite (proj2 (sget_nodup a f x Na) Hx), (proj2 (sget_nodup b f y Nb) Hy) in Hc.
    destruct (op x y); [eauto|discriminate].
  - intros H f Hf. pose proof Hf as Hf'. rewrite <- S in Hf. rewrite <- T in Hf'.
    destruct (sget_self_map a f Na Hf) as (x & -> & Hx).
    destruct (sget_self_map b f Nb Hf') as (y & -> & Hy).
    destruct (H f x y Hx Hy) as [z ->]. eauto.
Qed.

(** The methods are the entries: the struct expressions emitted are always complete. *)
Ltac unentry H :=
  match type of H with
  | (let? _ := ?e in _) = Some _ => destruct e as [?es|] eqn:?E; [|discriminate H]
  end.

Lemma method1_eq op (a : dimval) :
  (let? es := entries1 X fields op a in struct_expr X fields es None) = entries1 X fields op a.
Proof.
  destruct (entries1 X fields op a) as [es|] eqn:E; auto.
  apply struct_expr_id. now apply entries1_spec in E.
Qed.
Lemma method2_eq op (a b : dimval) :
  (let? es := entries2 X fields op a b in struct_expr X fields es None) = entries2 X fields op a b.
Proof.
  destruct (entries2 X fields op a b) as [es|] eqn:E; auto.
  apply struct_expr_id. now apply entries2_spec in E.
Qed.

Lemma dim_none_eq : dim_none X fields = Some (map (fun f => (f, e_zero X)) fields).
Proof. unfold dim_none. apply struct_expr_id. unfold shaped. now rewrite map_map, map_id. Qed.

(** ** Exponent vectors *)
Context (L : exp_laws X).

(** A dimension value and the exponent vector it stands for. *)
Definition stands_for (d : dimval) (v : string -> Qc) : Prop :=
  shaped d /\ forall f e, In (f, e) d -> l_valid X L e /\ l_val X L e = v f.

Lemma stands_for_get d v f :
  stands_for d v -> In f fields ->
  exists e, sget f d = Some e /\ l_valid X L e /\ l_val X L e = v f.
Proof.
  intros [S H] Hf. pose proof N as N'. rewrite <- S in N', Hf.
  destruct (sget_self_map d f N' Hf) as (e & E & I). exists e. split; auto.
Qed.

Lemma stands_for_intro d v :
  shaped d ->
  (forall f e, sget f d = Some e -> l_valid X L e /\ l_val X L e = v f) -> stands_for d v.
Proof.
  intros S H. split; auto. intros f e I. apply H. apply sget_nodup; auto. unfold shaped in S. now rewrite S.
Qed.

Lemma stands_for_unique d d' v v' :
  stands_for d v -> stands_for d' v' -> (d = d' <-> forall f, In f fields -> v f = v' f).
Proof.
  intros H H'. split.
  - intros <- f Hf. destruct (stands_for_get d v f H Hf) as (e & E & _ & <-).
    destruct (stands_for_get d v' f H' Hf) as (e' & E' & _ & <-). congruence.
  - intros G. apply shaped_ext; [apply H|apply H'|]. intros f Hf.
    destruct (stands_for_get d v f H Hf) as (e & -> & V & E).
    destruct (stands_for_get d' v' f H' Hf) as (e' & -> & V' & E'). f_equal.
    apply (l_inj X L); auto. now rewrite E, E', G.
Qed.

Lemma none_stands_for :
  exists d, dim_none X fields = Some d /\ stands_for d (fun _ => ZQc 0).
Proof.
  rewrite dim_none_eq. eexists. split; [reflexivity|]. split.
  - unfold shaped. now rewrite map_map, map_id.
  - intros f e H. apply in_map_iff in H as (g & E & _). injection E as <- <-. apply (l_zero X L).
Qed.

Lemma method1_spec op g (a c : dimval) va :
  (forall x y, l_valid X L x -> op x = Some y -> l_valid X L y /\ g (l_val X L x) (l_val X L y)) ->
  entries1 X fields op a = Some c -> stands_for a va ->
  exists vc, stands_for c vc /\ forall f, In f fields -> g (va f) (vc f).
Proof.
  intros Hop H Ha. apply entries1_spec in H as [S E].
  exists (fun f => match sget f c with Some e => l_val X L e | None => ZQc 0 end). split.
  - apply stands_for_intro; auto. intros f e Hf. rewrite Hf. split; auto.
    apply E in Hf as (I & x & Ex & Hx). destruct (stands_for_get a va f Ha I) as (x' & Ex' & V & _).
    assert (x' = x) by congruence. subst. now apply Hop in Hx.
  - intros f Hf. pose proof N as N'. pose proof S as S'. unfold shaped in S'. rewrite <- S' in N'.
    assert (Hf' := Hf). rewrite <- S' in Hf'. destruct (sget_self_map c f N' Hf') as (e & Ee & _).
    rewrite Ee. apply E in Ee as (I & x & Ex & Hx).
    destruct (stands_for_get a va f Ha I) as (x' & Ex' & V & <-).
    assert (x' = x) by congruence. subst. now apply Hop in Hx.
Qed.

Lemma method2_spec op g (a b c : dimval) va vb :
  (forall x y z, l_valid X L x -> l_valid X L y -> op x y = Some z ->
     l_valid X L z /\ g (l_val X L x) (l_val X L y) (l_val X L z)) ->
  entries2 X fields op a b = Some c -> stands_for a va -> stands_for b vb ->
  exists vc, stands_for c vc /\ forall f, In f fields -> g (va f) (vb f) (vc f).
Proof.
  intros Hop H Ha Hb. apply entries2_spec in H as [S E].
  exists (fun f => match sget f c with Some e => l_val X L e | None => ZQc 0 end). split.
  - apply stands_for_intro; auto. intros f e Hf. rewrite Hf. split; auto.
    apply E in Hf as (I & x & y & Ex & Ey & Hx).
    destruct (stands_for_get a va f Ha I) as (x' & Ex' & V & _).
    destruct (stands_for_get b vb f Hb I) as (y' & Ey' & W & _).
    assert (x' = x) by congruence. assert (y' = y) by congruence. subst. apply Hop in Hx; tauto.
  - intros f Hf. pose proof N as N'. pose proof S as S'. unfold shaped in S'. rewrite <- S' in N'.
    assert (Hf' := Hf). rewrite <- S' in Hf'. destruct (sget_self_map c f N' Hf') as (e & Ee & _).
    rewrite Ee. apply E in Ee as (I & x & y & Ex & Ey & Hx).
    destruct (stands_for_get a va f Ha I) as (x' & Ex' & V & <-).
    destruct (stands_for_get b vb f Hb I) as (y' & Ey' & W & <-).
    assert (x' = x) by congruence. assert (y' = y) by congruence. subst. apply Hop in Hx; tauto.
Qed.

Lemma stands_for_proper d v w :
  (forall f, In f fields -> v f = w f) -> stands_for d v -> stands_for d w.
Proof.
  intros H [S E]. split; auto. intros f e I. destruct (E f e I) as [V Ev]. split; auto.
  rewrite Ev. apply H. rewrite <- S. now apply (in_map fst) in I.
Qed.

Lemma dim_add_spec a b c va vb :
  dim_add X fields a b = Some c -> stands_for a va -> stands_for b vb ->
  stands_for c (fun f => va f + vb f)%Qc.
Proof.
  unfold dim_add. rewrite method2_eq. intros H Ha Hb.
  destruct (method2_spec _ (fun x y z => z = (x + y)%Qc) a b c va vb (l_add X L) H Ha Hb) as (vc & S & E).
  eapply stands_for_proper; [|exact S]. auto.
Qed.
Lemma dim_sub_spec a b c va vb :
  dim_sub X fields a b = Some c -> stands_for a va -> stands_for b vb ->
  stands_for c (fun f => va f - vb f)%Qc.
Proof.
  unfold dim_sub. rewrite method2_eq. intros H Ha Hb.
  destruct (method2_spec _ (fun x y z => z = (x - y)%Qc) a b c va vb (l_sub X L) H Ha Hb) as (vc & S & E).
  eapply stands_for_proper; [|exact S]. auto.
Qed.
Lemma dim_neg_spec a c va :
  dim_neg X fields a = Some c -> stands_for a va -> stands_for c (fun f => - va f)%Qc.
Proof.
  unfold dim_neg. rewrite method1_eq. intros H Ha.
  destruct (method1_spec _ (fun x z => z = (- x)%Qc) a c va (l_neg X L) H Ha) as (vc & S & E).
  eapply stands_for_proper; [|exact S]. auto.
Qed.
Lemma dim_mul_spec a n c va :
  dim_mul X fields a n = Some c -> stands_for a va -> stands_for c (fun f => va f * ZQc n)%Qc.
Proof.
  unfold dim_mul. rewrite method1_eq. intros H Ha.
  destruct (method1_spec (fun x => e_mul_int X x n) (fun x z => z = (x * ZQc n)%Qc) a c va
              (fun x y V E => l_mul_int X L x n y V E) H Ha) as (vc & S & E).
  eapply stands_for_proper; [|exact S]. auto.
Qed.
Lemma ZQc_nz n : n <> 0%Z -> ZQc n <> 0%Qc.
Proof. intros H E. apply (ZQc_inj n 0) in E. auto. Qed.
Lemma dim_div2_spec a c va :
  dim_div2 X fields a = Some c -> stands_for a va -> stands_for c (fun f => va f / ZQc 2)%Qc.
Proof.
  unfold dim_div2. rewrite method1_eq. intros H Ha.
  destruct (method1_spec _ (fun x z => (z * ZQc 2)%Qc = x) a c va (l_div2 X L) H Ha) as (vc & S & E).
  eapply stands_for_proper; [|exact S]. intros f Hf. simpl. rewrite <- (E f Hf). field.
  now apply ZQc_nz.
Qed.
Lemma dim_div3_spec a c va :
  dim_div3 X fields a = Some c -> stands_for a va -> stands_for c (fun f => va f / ZQc 3)%Qc.
Proof.
  unfold dim_div3. rewrite method1_eq. intros H Ha.
  destruct (method1_spec _ (fun x z => (z * ZQc 3)%Qc = x) a c va (l_div3 X L) H Ha) as (vc & S & E).
  eapply stands_for_proper; [|exact S]. intros f Hf. simpl. rewrite <- (E f Hf). field.
  now apply ZQc_nz.
Qed.
End Dim.
