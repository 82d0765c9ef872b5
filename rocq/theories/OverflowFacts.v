(** * Panics of the resolver: exactly when an exponent does not fit *)
From Coq Require Import String List Bool ZArith QArith Qcanon Qcabs Lia.
From Verif Require Import MachineInt Ratio RatioFacts F64 Magnitude Exponent ExponentFacts SMap Expression DimensionMath
  DimensionMathFacts Types Snake Resolve ResolveLoop ResolveChecks SystemSpec ResolveFacts ResolveEquations
  ResolveAccept Setting OverflowSpec.
Import ListNotations.
Local Close Scope Qc_scope.
Local Close Scope Q_scope.
Local Open Scope list_scope.
Local Open Scope Z_scope.

(** ** What the two arithmetics have in common *)
Record fits_laws (X : exp_ops) (L : exp_laws X) (k : mode) := {
  f_in : X -> Prop;
  f_lit : X -> Prop;
  f_valid : forall a, f_in a -> l_valid X L a;
  f_one : f_in (e_one X);
  f_add : forall a b, f_in a -> f_in b ->
    match e_add X a b with
    | Some c => f_in c /\ sum_fits k (l_val X L a) (l_val X L b)
    | None => ~ sum_fits k (l_val X L a) (l_val X L b)
    end;
  f_neg : forall a, f_in a ->
    match e_neg X a with
    | Some c => f_in c /\ opposite_fits k (l_val X L a)
    | None => ~ opposite_fits k (l_val X L a)
    end;
  f_mul : forall a p, f_in a -> f_lit p ->
    match e_mul X a p with
    | Some c => f_in c /\ product_fits k (l_val X L a) (l_val X L p)
    | None => ~ product_fits k (l_val X L a) (l_val X L p)
    end;
  f_litv : forall p, f_lit p -> l_valid X L p;
  f_add0 : forall a, f_in a -> sum_fits k (l_val X L a) 0%Qc;
  f_0add : forall a, f_in a -> sum_fits k 0%Qc (l_val X L a);
  f_00 : sum_fits k 0%Qc 0%Qc;
  f_neg0 : opposite_fits k 0%Qc;
  f_mul0 : forall p, f_lit p -> product_fits k 0%Qc (l_val X L p)
}.
Arguments f_in {X L k}. Arguments f_lit {X L k}.

(** *** Integers *)
Lemma ZQc_0' : ZQc 0 = 0%Qc. Proof. now apply Qc_is_canon. Qed.
Lemma ZQc_le a b : (ZQc a <= ZQc b)%Qc <-> a <= b.
Proof.
  unfold Qcle. assert (E : forall z, (this (ZQc z) == inject_Z z)%Q) by (intros z; apply Qred_correct).
  rewrite !E. now rewrite Zle_Qle.
Qed.
Lemma ZQc_lt a b : (ZQc a < ZQc b)%Qc <-> a < b.
Proof.
  unfold Qclt. assert (E : forall z, (this (ZQc z) == inject_Z z)%Q) by (intros z; apply Qred_correct).
  rewrite !E. now rewrite Zlt_Qlt.
Qed.
Lemma in_range_Z z : in_range (ZQc z) <-> - 2 ^ 63 <= z < 2 ^ 63.
Proof. unfold in_range. now rewrite ZQc_le, ZQc_lt. Qed.
Lemma fit_cases z : match fit Checked z with
  | Some c => c = z /\ in_range (ZQc z)
  | None => ~ in_range (ZQc z)
  end.
Proof.
  unfold fit. destruct (in_i64 z) eqn:E.
  - split; [reflexivity|]. apply in_range_Z. now apply in_i64_iff.
  - intros H. apply in_range_Z in H. apply in_i64_iff in H. congruence.
Qed.

Definition int_fits : fits_laws (int_exp Checked) int_laws IntegerExponents.
Proof.
  refine {| f_in := (fun z : int_exp Checked => in_range (ZQc z)); f_lit := (fun _ : int_exp Checked => True) |};
    cbn [sum_fits opposite_fits product_fits int_laws l_valid l_val int_exp e_add e_neg e_mul e_one].
  - intros; exact Logic.I.
  - apply in_range_Z. lia.
  - intros a b _ _. pose proof (fit_cases (a + b)) as H. unfold i64_add. rewrite ZQc_add in H.
    destruct (fit Checked (a + b)); [|exact H]. destruct H as [-> H]. rewrite ZQc_add. auto.
  - intros a _. pose proof (fit_cases (- a)) as H. unfold i64_neg. rewrite ZQc_neg in H.
    destruct (fit Checked (- a)); [|exact H]. destruct H as [-> H]. rewrite ZQc_neg. auto.
  - intros a p _ _. pose proof (fit_cases (a * p)) as H. unfold i64_mul. rewrite ZQc_mul in H.
    destruct (fit Checked (a * p)); [|exact H]. destruct H as [-> H]. rewrite ZQc_mul. auto.
  - intros; exact Logic.I.
  - intros a H. now rewrite Qcplus_0_r.
  - intros a H. now rewrite Qcplus_0_l.
  - rewrite Qcplus_0_r, <- ZQc_0'. apply in_range_Z. lia.
  - replace (- 0)%Qc with 0%Qc by (now apply Qc_is_canon). rewrite <- ZQc_0'. apply in_range_Z. lia.
  - intros p _. rewrite Qcmult_0_l, <- ZQc_0'. apply in_range_Z. lia.
Defined.

(** *** Ratios *)
Lemma ratio_parts r : canonical r -> N (rval r) = num r /\ D (rval r) = denom r.
Proof.
  intros C. destruct (represents_rval r C) as [R0 R]. unfold N, D.
  assert (C' : canonical (mkRatio (Qnum (rval r)) (QDen (rval r)))).
  { split; [cbn; lia|]. apply Qred_iff. apply (canon (rval r)). }
  assert (E : r = mkRatio (Qnum (rval r)) (QDen (rval r))).
  { apply canonical_unique; [exact C|exact C'|]. cbn [num denom]. exact R. }
  rewrite E at 2 4. split; reflexivity.
Qed.

Definition ratio_in (r : ratio) : Prop := canonical r /\ i64 (num r) /\ i64 (denom r).

Lemma gcd_pos_def a b : i64 a -> i64 b -> 0 < b -> gcd Checked a b = Some (Z.gcd a b).
Proof.
  unfold i64. intros Ha Hb Pb. assert (G : exists g, gcd_loop 200 a b = Some g).
  { change 200%nat with (S 199). cbn [gcd_loop]. destruct (Z.eqb_spec b 0) as [E|_]; [lia|].
    assert (Er : i64_rem a b = Some (Z.rem a b)).
    { unfold i64_rem. destruct (Z.eqb_spec b 0) as [E|_]; [lia|].
      replace (in_i64 (Z.quot a b)) with true; [reflexivity|]. symmetry. apply in_i64_iff.
      pose proof (quot_abs_le a b ltac:(lia)).
      destruct (Z.le_gt_cases a 0) as [A|A].
      - assert (Z.quot a b <= 0); [|lia]. rewrite <- (Z.opp_involutive a), Z.quot_opp_l by lia.
        pose proof (Z.quot_pos (- a) b ltac:(lia) Pb). lia.
      - lia. }
    rewrite Er. pose proof (rem_abs a b ltac:(lia)) as Hr. pose proof (Z.mod_pos_bound (Z.abs a) (Z.abs b) ltac:(lia)).
    destruct (gcd_loop_enough 63 b (Z.rem a b)) as [g Hg]; try lia.
    exists g. apply (gcd_loop_more _ 199) in Hg; [exact Hg|lia]. }
  destruct G as [g Hg]. unfold gcd. rewrite Hg. pose proof (gcd_loop_sound _ _ _ _ Hg) as Hs.
  unfold i64_abs. rewrite Hs. apply fit_in. apply in_i64_iff. pose proof (Z.gcd_nonneg a b).
  assert (Z.gcd a b <= b); [|lia]. apply Z.divide_pos_le; [lia|]. apply Z.gcd_divide_r.
Qed.

Lemma rnew_in n d : i64 n -> i64 d -> 0 < d -> exists r, rnew Checked n d = Some r /\ i64 (num r) /\ i64 (denom r).
Proof.
  intros Hn Hd Pd. unfold rnew. rewrite gcd_pos_def by assumption.
  assert (G : 0 < Z.gcd n d).
  { pose proof (Z.gcd_nonneg n d). destruct (Z.eq_dec (Z.gcd n d) 0) as [E|]; [|lia]. apply Z.gcd_eq_0_r in E. lia. }
  assert (Hq : forall z, i64 z -> i64_div z (Z.gcd n d) = Some (Z.quot z (Z.gcd n d)) /\ i64 (Z.quot z (Z.gcd n d))).
  { intros z Hz. unfold i64 in *. assert (- 2 ^ 63 <= Z.quot z (Z.gcd n d) < 2 ^ 63).
    { pose proof (quot_abs_le z (Z.gcd n d) ltac:(lia)). destruct (Z.le_gt_cases z 0) as [A|A]; [|lia].
      assert (Z.quot z (Z.gcd n d) <= 0); [|lia]. rewrite <- (Z.opp_involutive z), Z.quot_opp_l by lia.
      pose proof (Z.quot_pos (- z) (Z.gcd n d) ltac:(lia) G). lia. }
    split; [|assumption]. unfold i64_div. destruct (Z.eqb_spec (Z.gcd n d) 0) as [E|_]; [lia|].
    now rewrite (proj2 (in_i64_iff _)). }
  destruct (Hq n Hn) as [-> Qn], (Hq d Hd) as [-> Qd]. eexists. split; [reflexivity|]. now split.
Qed.

Lemma fit_i64 z : i64 z -> fit Checked z = Some z.
Proof. intros H. apply fit_in. now apply in_i64_iff. Qed.
Lemma fit_not z : ~ i64 z -> fit Checked z = None.
Proof. intros H. unfold fit. destruct (in_i64 z) eqn:E; [|reflexivity]. apply in_i64_iff in E. contradiction. Qed.
Lemma i64_dec z : {i64 z} + {~ i64 z}.
Proof. destruct (in_i64 z) eqn:E; [left; now apply in_i64_iff|right; intros H; apply in_i64_iff in H; congruence]. Qed.

Lemma radd_fits a b : ratio_in a -> ratio_in b ->
  match radd Checked a b with
  | Some c => ratio_in c /\ sum_fits RationalExponents (rval a) (rval b)
  | None => ~ sum_fits RationalExponents (rval a) (rval b)
  end.
Proof.
  intros (Ca & _) (Cb & _). cbn [sum_fits].
  destruct (ratio_parts a Ca) as [-> ->], (ratio_parts b Cb) as [-> ->].
  destruct (radd Checked a b) as [c|] eqn:E.
  - assert (K := E). unfold radd, i64_mul, i64_add in K.
    destruct (i64_dec (num a * denom b)) as [F1|F1]; [rewrite (fit_i64 _ F1) in K|now rewrite (fit_not _ F1) in K].
    destruct (i64_dec (num b * denom a)) as [F2|F2]; [rewrite (fit_i64 _ F2) in K|now rewrite (fit_not _ F2) in K].
    destruct (i64_dec (num a * denom b + num b * denom a)) as [F3|F3]; [rewrite (fit_i64 _ F3) in K|now rewrite (fit_not _ F3) in K].
    destruct (i64_dec (denom a * denom b)) as [F4|F4]; [rewrite (fit_i64 _ F4) in K|now rewrite (fit_not _ F4) in K].
    assert (P : 0 < denom a * denom b) by (destruct Ca, Cb; nia).
    split; [|auto]. destruct (rnew_in _ _ F3 F4 P) as (r & Er & I1 & I2). rewrite Er in K. injection K as ->.
    destruct (radd_represents a b c (rval a) (rval b)) as [_ C]; auto using represents_rval. now split.
  - intros (F1 & F2 & F3 & F4). unfold radd, i64_mul, i64_add in E.
    rewrite (fit_i64 _ F1), (fit_i64 _ F2), (fit_i64 _ F3), (fit_i64 _ F4) in E.
    assert (P : 0 < denom a * denom b) by (destruct Ca, Cb; nia).
    destruct (rnew_in _ _ F3 F4 P) as (r & Er & _). congruence.
Qed.
Lemma rmul_fits a b : ratio_in a -> ratio_in b ->
  match rmul Checked a b with
  | Some c => ratio_in c /\ product_fits RationalExponents (rval a) (rval b)
  | None => ~ product_fits RationalExponents (rval a) (rval b)
  end.
Proof.
  intros (Ca & _) (Cb & _). cbn [product_fits].
  destruct (ratio_parts a Ca) as [-> ->], (ratio_parts b Cb) as [-> ->].
  assert (P : 0 < denom a * denom b) by (destruct Ca, Cb; nia).
  destruct (rmul Checked a b) as [c|] eqn:E.
  - assert (K := E). unfold rmul, i64_mul in K.
    destruct (i64_dec (num a * num b)) as [F3|F3]; [rewrite (fit_i64 _ F3) in K|now rewrite (fit_not _ F3) in K].
    destruct (i64_dec (denom a * denom b)) as [F4|F4]; [rewrite (fit_i64 _ F4) in K|now rewrite (fit_not _ F4) in K].
    split; [|auto]. destruct (rnew_in _ _ F3 F4 P) as (r & Er & I1 & I2). rewrite Er in K. injection K as ->.
    destruct (rmul_represents a b c (rval a) (rval b)) as [_ C]; auto using represents_rval. now split.
  - intros (F3 & F4). unfold rmul, i64_mul in E. rewrite (fit_i64 _ F3), (fit_i64 _ F4) in E.
    destruct (rnew_in _ _ F3 F4 P) as (r & Er & _). congruence.
Qed.
Lemma rneg_fits a : ratio_in a ->
  match rneg Checked a with
  | Some c => ratio_in c /\ opposite_fits RationalExponents (rval a)
  | None => ~ opposite_fits RationalExponents (rval a)
  end.
Proof.
  intros (Ca & Na & Da). cbn [opposite_fits]. destruct (ratio_parts a Ca) as [-> _]. unfold rneg, i64_neg.
  destruct (i64_dec (- num a)) as [F|F].
  - rewrite (fit_i64 _ F). split; [|exact F]. split; [|now split].
    destruct Ca as [C1 C2]. split; cbn; [exact C1|]. now rewrite Z.gcd_opp_l.
  - now rewrite (fit_not _ F).
Qed.
Lemma rzero_parts : N 0%Qc = 0 /\ D 0%Qc = 1. Proof. split; reflexivity. Qed.

Definition rat_fits : fits_laws (rat_exp Checked) rat_laws RationalExponents.
Proof.
  refine {| f_in := (ratio_in : rat_exp Checked -> Prop); f_lit := (ratio_in : rat_exp Checked -> Prop) |};
    change (l_val (rat_exp Checked) rat_laws) with rval; change (l_valid (rat_exp Checked) rat_laws) with canonical.
  - now intros a [C _].
  - split; [apply (rint_represents 1)|]. cbn. unfold i64. lia.
  - exact radd_fits.
  - exact rneg_fits.
  - exact rmul_fits.
  - now intros a [C _].
  - intros a (C & A & B). cbn [sum_fits]. destruct (ratio_parts a C) as [-> ->]. destruct rzero_parts as [-> ->].
    rewrite !Z.mul_1_r, !Z.mul_0_l, Z.add_0_r. unfold i64 in *. lia.
  - intros a (C & A & B). cbn [sum_fits]. destruct (ratio_parts a C) as [-> ->]. destruct rzero_parts as [-> ->].
    rewrite !Z.mul_1_r, !Z.mul_0_l, Z.add_0_l, Z.mul_1_l. unfold i64 in *. lia.
  - cbn [sum_fits]. destruct rzero_parts as [-> ->]. unfold i64. lia.
  - cbn [opposite_fits]. destruct rzero_parts as [-> _]. unfold i64. lia.
  - intros p (C & A & B). cbn [product_fits]. destruct (ratio_parts p C) as [-> ->]. destruct rzero_parts as [-> ->].
    rewrite Z.mul_0_l, Z.mul_1_l. unfold i64 in *. lia.
Defined.

Definition fits_of (k : mode) : fits_laws (ops k) (laws k) k :=
  match k with IntegerExponents => int_fits | RationalExponents => rat_fits end.

(** ** Maps of exponents *)
Section Maps.
Context (X : exp_ops) (L : exp_laws X) (k : mode) (F : fits_laws X L k).
Notation val := (l_val X L).
Notation ok := (f_in F).
Local Open Scope Qc_scope.

Definition qvec (d : bdims X) : string -> Qc := fun b => match sget b d with Some e => val e | None => 0 end.
Definition q_ok (d : bdims X) : Prop := wf d /\ forall b e, sget b d = Some e -> ok e.

Lemma q_ok_bd d : q_ok d -> bd_ok X L d.
Proof.
  intros [W H]. split; [exact W|]. apply Forall_forall. intros [b e] I. apply (f_valid _ _ _ F).
  apply (H b). now apply In_sget.
Qed.
Lemma qvec_vec d b : qvec d b = vec_of X L d b.
Proof. unfold qvec, vec_of. now rewrite ZQc_0. Qed.

Lemma none_ok : q_ok (bd_none X).
Proof. split; [constructor|]. discriminate. Qed.
Lemma for_base_ok d : q_ok (bd_for_base X d).
Proof.
  split; [apply sinsert_wf; constructor|]. intros b e. unfold bd_for_base.
  destruct (String.eqb_spec b d) as [->|Nb].
  - rewrite sget_insert_eq. intros [= <-]. apply (f_one _ _ _ F).
  - rewrite sget_insert_neq by exact Nb. discriminate.
Qed.
Lemma qvec_for_base d b : qvec (bd_for_base X d) b = if String.eqb b d then 1 else 0.
Proof.
  rewrite qvec_vec, vec_for_base. destruct (String.eqb b d); now apply Qc_is_canon.
Qed.

(** Sums with an absent exponent need no arithmetic and fit. *)
Lemma sum_absent d b : q_ok d -> sum_fits k (qvec d b) 0 /\ sum_fits k 0 (qvec d b).
Proof.
  intros [_ H]. unfold qvec. destruct (sget b d) as [e|] eqn:E.
  - apply H in E. split; [now apply (f_add0 _ _ _ F)|now apply (f_0add _ _ _ F)].
  - split; apply (f_00 _ _ _ F).
Qed.

Lemma wf_head_absent b e (d : bdims X) : wf ((b, e) :: d) -> sget b d = None.
Proof.
  intros W. apply wf_cons_inv in W as [W A]. apply sget_None. intros I. apply in_map_iff in I as ([b' v] & E & I).
  cbn in E. subst b'. rewrite Forall_forall in A. specialize (A _ I). cbn in A. now apply slt_irrefl in A.
Qed.
Lemma sget_head (b : string) (e : X) (d : bdims X) c :
  sget c ((b, e) :: d) = if String.eqb c b then Some e else sget c d.
Proof. reflexivity. Qed.
Lemma tail_ok b e (d : bdims X) : q_ok ((b, e) :: d) -> q_ok d /\ ok e.
Proof.
  intros [W H]. pose proof (wf_head_absent _ _ _ W) as A. split; [split|].
  - now apply wf_cons_inv in W.
  - intros c v G. apply (H c). rewrite sget_head. destruct (String.eqb_spec c b) as [E|_]; [|exact G]. subst c. congruence.
  - apply (H b). now rewrite sget_head, String.eqb_refl.
Qed.
Lemma insert_ok b e (d : bdims X) : q_ok d -> ok e -> q_ok (sinsert b e d).
Proof.
  intros [W H] He. split; [now apply sinsert_wf|]. intros c v. destruct (String.eqb_spec c b) as [->|Nc].
  - rewrite sget_insert_eq. now intros [= <-].
  - rewrite sget_insert_neq by exact Nc. apply H.
Qed.
Lemma qvec_insert b e (d : bdims X) c : qvec (sinsert b e d) c = if String.eqb c b then val e else qvec d c.
Proof.
  unfold qvec. destruct (String.eqb_spec c b) as [->|Nc].
  - now rewrite sget_insert_eq.
  - now rewrite sget_insert_neq.
Qed.
Lemma qvec_head b e (d : bdims X) c : qvec ((b, e) :: d) c = if String.eqb c b then val e else qvec d c.
Proof. unfold qvec. rewrite sget_head. now destruct (String.eqb c b). Qed.

(** Products: the loop over the entries of the second factor. *)
Lemma mul_entries_fits l : forall f : bdims X, q_ok f -> q_ok l ->
  match bd_mul_entries X f l with
  | Some c => q_ok c /\ forall b, sum_fits k (qvec f b) (qvec l b)
  | None => ~ forall b, sum_fits k (qvec f b) (qvec l b)
  end.
Proof.
  induction l as [|[b e] l IH]; intros f Of Ol.
  - cbn [bd_mul_entries]. split; [exact Of|]. intros b. apply (sum_absent f b Of).
  - destruct (tail_ok _ _ _ Ol) as [Ol' Oe]. pose proof (wf_head_absent _ _ _ (proj1 Ol)) as A.
    assert (Zl : qvec l b = 0) by (unfold qvec; now rewrite A).
    change (bd_mul_entries X f ((b, e) :: l)) with
      (match bd_mul_step X f (b, e) with Some g => bd_mul_entries X g l | None => None end).
    assert (K : forall e', ok e' -> sum_fits k (qvec f b) (val e) ->
       match bd_mul_entries X (sinsert b e' f) l with
       | Some c => q_ok c /\ forall c, sum_fits k (qvec f c) (qvec ((b, e) :: l) c)
       | None => ~ forall c, sum_fits k (qvec f c) (qvec ((b, e) :: l) c)
       end).
    { intros e' Oe' Sb. specialize (IH _ (insert_ok b e' f Of Oe') Ol').
      destruct (bd_mul_entries X (sinsert b e' f) l) as [c|].
      - destruct IH as [Oc H]. split; [exact Oc|]. intros c'. rewrite qvec_head.
        destruct (String.eqb_spec c' b) as [->|Nc]; [exact Sb|]. specialize (H c').
        rewrite qvec_insert in H. destruct (String.eqb_spec c' b) as [E|_]; [contradiction|exact H].
      - intros H. apply IH. intros c'. rewrite qvec_insert. destruct (String.eqb_spec c' b) as [->|Nc].
        + rewrite Zl. apply (f_add0 _ _ _ F). exact Oe'.
        + specialize (H c'). rewrite qvec_head in H. destruct (String.eqb_spec c' b) as [E|_]; [contradiction|exact H]. }
    unfold bd_mul_step. cbn [fst snd]. destruct (sget b f) as [w|] eqn:G.
    + assert (Zf : qvec f b = val w) by (unfold qvec; now rewrite G).
      pose proof (f_add _ _ _ F w e (proj2 Of b w G) Oe) as Ha.
      destruct (e_add X w e) as [e'|].
      * destruct Ha as [Oe' Sa]. apply K; [exact Oe'|]. now rewrite Zf.
      * intros H. apply Ha. specialize (H b). now rewrite qvec_head, String.eqb_refl, Zf in H.
    + assert (Zf : qvec f b = 0) by (unfold qvec; now rewrite G). apply K; [exact Oe|]. rewrite Zf.
      now apply (f_0add _ _ _ F).
Qed.

Lemma mul_fits a b : q_ok a -> q_ok b ->
  match bd_mul X a b with
  | Some c => q_ok c /\ (forall x, sum_fits k (qvec a x) (qvec b x)) /\ forall x, qvec c x = qvec a x + qvec b x
  | None => ~ forall x, sum_fits k (qvec a x) (qvec b x)
  end.
Proof.
  intros Oa Ob. pose proof (mul_entries_fits b a Oa Ob) as H.
  change (bd_mul_entries X a b) with (bd_mul X a b) in H. destruct (bd_mul X a b) as [c|] eqn:E; [|exact H].
  destruct H as [Oc H]. split; [exact Oc|]. split; [exact H|]. intros x.
  destruct (bd_mul_spec X L a b c (q_ok_bd _ Oa) (q_ok_bd _ Ob) E) as [_ V]. rewrite !qvec_vec. apply V.
Qed.

(** Inverses and powers. *)
Lemma map_fits (f : X -> option X) (P : Qc -> Prop) (a : bdims X) : P 0 ->
  (forall e, ok e -> match f e with Some c => ok c /\ P (val e) | None => ~ P (val e) end) ->
  q_ok a ->
  match smap_opt f a with
  | Some c => q_ok c /\ forall x, P (qvec a x)
  | None => ~ forall x, P (qvec a x)
  end.
Proof.
  intros P0 Hf Oa. destruct (smap_opt f a) as [c|] eqn:E.
  - split.
    + split; [eapply smap_opt_wf; [exact E|apply Oa]|]. intros b e G.
      pose proof (smap_opt_get _ _ _ b E) as H. destruct (sget b a) as [v|] eqn:Ea; [|congruence].
      specialize (Hf v (proj2 Oa b v Ea)). rewrite G in H. rewrite <- H in Hf. apply Hf.
    + intros b. unfold qvec. pose proof (smap_opt_get _ _ _ b E) as H. destruct (sget b a) as [v|] eqn:Ea; [|exact P0].
      specialize (Hf v (proj2 Oa b v Ea)). destruct (f v); [apply Hf|].
      exfalso. apply sget_None in H. apply H. rewrite (smap_opt_keys _ _ _ E). apply sget_keys. eauto.
  - intros H. revert E. cut (exists c, smap_opt f a = Some c); [intros [c ->]; discriminate|].
    induction a as [|[b e] a IH]; [eexists; reflexivity|].
    destruct (tail_ok _ _ _ Oa) as [Oa' Oe]. pose proof (wf_head_absent _ _ _ (proj1 Oa)) as A.
    destruct IH as [c Ec]; [exact Oa'| |].
    + intros x. specialize (H x). rewrite qvec_head in H. destruct (String.eqb_spec x b) as [E|_]; [|exact H].
      rewrite E. unfold qvec. now rewrite A.
    + cbn [smap_opt]. specialize (Hf e Oe). specialize (H b). rewrite qvec_head, String.eqb_refl in H.
      destruct (f e); [|contradiction]. rewrite Ec. eexists. reflexivity.
Qed.

Lemma inv_fits a : q_ok a ->
  match bd_inv X a with
  | Some c => q_ok c /\ (forall x, opposite_fits k (qvec a x)) /\ forall x, qvec c x = - qvec a x
  | None => ~ forall x, opposite_fits k (qvec a x)
  end.
Proof.
  intros Oa. pose proof (map_fits (e_neg X) (opposite_fits k) a (f_neg0 _ _ _ F) (f_neg _ _ _ F) Oa) as H.
  change (smap_opt (e_neg X) a) with (bd_inv X a) in H. destruct (bd_inv X a) as [c|] eqn:E; [|exact H].
  destruct H as [Oc H]. split; [exact Oc|]. split; [exact H|]. intros x.
  destruct (bd_inv_spec X L a c (q_ok_bd _ Oa) E) as [_ V]. rewrite !qvec_vec. apply V.
Qed.
Lemma pow_fits a p : q_ok a -> f_lit F p ->
  match bd_pow X a p with
  | Some c => q_ok c /\ (forall x, product_fits k (qvec a x) (val p)) /\ forall x, qvec c x = qvec a x * val p
  | None => ~ forall x, product_fits k (qvec a x) (val p)
  end.
Proof.
  intros Oa Op. pose proof (map_fits (fun v => e_mul X v p) (fun q => product_fits k q (val p)) a
    (f_mul0 _ _ _ F p Op) (fun e Oe => f_mul _ _ _ F e p Oe Op) Oa) as H.
  change (smap_opt (fun v => e_mul X v p) a) with (bd_pow X a p) in H. destruct (bd_pow X a p) as [c|] eqn:E; [|exact H].
  destruct H as [Oc H]. split; [exact Oc|]. split; [exact H|]. intros x.
  destruct (bd_pow_spec X L a p c (q_ok_bd _ Oa) (f_litv _ _ _ F p Op) E) as [_ V]. rewrite !qvec_vec. apply V.
Qed.
Lemma div_fits a b : q_ok a -> q_ok b ->
  match bd_div X a b with
  | Some c => q_ok c /\ (forall x, opposite_fits k (qvec b x) /\ sum_fits k (qvec a x) (- qvec b x)) /\
      forall x, qvec c x = qvec a x - qvec b x
  | None => ~ forall x, opposite_fits k (qvec b x) /\ sum_fits k (qvec a x) (- qvec b x)
  end.
Proof.
  intros Oa Ob. unfold bd_div. pose proof (inv_fits b Ob) as Hi.
  destruct (bd_inv X b) as [i|]; [|intros H; apply Hi; intros x; apply (H x)].
  destruct Hi as (Oi & Fi & Vi). pose proof (mul_fits a i Oa Oi) as Hm. destruct (bd_mul X a i) as [c|].
  - destruct Hm as (Oc & Fc & Vc). split; [exact Oc|]. split.
    + intros x. split; [apply Fi|]. rewrite <- Vi. apply Fc.
    + intros x. rewrite Vc, Vi. unfold Qcminus. reflexivity.
  - intros H. apply Hm. intros x. rewrite Vi. apply H.
Qed.
End Maps.

(** ** Right-hand sides *)
Section Mode.
Context (k : mode) (env : fenv).
Notation X := (ops k).
Notation L := (laws k).
Notation F := (fits_of k).
Notation val := (l_val X L).
Notation dm := (dimmag X).
Notation qv := (qvec X L).
Notation okd := (q_ok X L k F).
Notation decl := (decl X).
Notation system := (unresolved X (unit_entry X)).
Local Open Scope Qc_scope.

Lemma degree_mul {A} (g : A -> degrees) l r : degree k g (EBin l r OMul) = fun b => degree k g l b + fdegree k g r b.
Proof. reflexivity. Qed.
Lemma degree_div {A} (g : A -> degrees) l r : degree k g (EBin l r ODiv) = fun b => degree k g l b - fdegree k g r b.
Proof. reflexivity. Qed.
Lemma degree_fits_bin {A} (g : A -> degrees) l r op : degree_fits k g (EBin l r op) =
  (degree_fits k g l /\ fdegree_fits k g r /\
    forall b, match op with
              | OMul => sum_fits k (degree k g l b) (fdegree k g r b)
              | ODiv => opposite_fits k (fdegree k g r b) /\ sum_fits k (degree k g l b) (- fdegree k g r b)
              end).
Proof. reflexivity. Qed.

Section Leaves.
Context (lk : fac dm -> option dm) (g : fac dm -> degrees).

Definition leaf_ok (t : fac dm) : Prop :=
  exists d, lk t = Some d /\ okd (dm_dims d) /\ forall b, qv (dm_dims d) b = g t b.
Definition outcome (r : option dm) (fit : Prop) (v : degrees) : Prop :=
  match r with
  | Some d => fit /\ okd (dm_dims d) /\ forall b, qv (dm_dims d) b = v b
  | None => ~ fit
  end.

Lemma eval_fits :
  (forall e : expr (fac dm) X, (forall t, In t (expr_vals e) -> leaf_ok t) -> (forall p, In p (exponents e) -> f_lit F p) ->
     outcome (eval_with X env lk e) (degree_fits k g e) (degree k g e)) /\
  (forall f : factor (fac dm) X, (forall t, In t (factor_vals f) -> leaf_ok t) -> (forall p, In p (fexponents f) -> f_lit F p) ->
     outcome (feval_with X env lk f) (fdegree_fits k g f) (fdegree k g f)).
Proof.
  apply expr_factor_ind.
  - intros f IH H HE. exact (IH H HE).
  - intros l IHl r IHr op H HE.
    assert (Hl := IHl (fun t I => H t (in_or_app _ _ _ (or_introl I))) (fun p I => HE p (in_or_app _ _ _ (or_introl I)))).
    assert (Hr := IHr (fun t I => H t (in_or_app _ _ _ (or_intror I))) (fun p I => HE p (in_or_app _ _ _ (or_intror I)))).
    rewrite (eval_bin X env lk). unfold outcome in Hl, Hr. rewrite degree_fits_bin.
    destruct (eval_with X env lk l) as [a|]; [|unfold outcome; tauto].
    destruct (feval_with X env lk r) as [c|]; [|unfold outcome; tauto].
    destruct Hl as (Fl & Ol & Vl), Hr as (Fr & Or & Vr). destruct op.
    + rewrite degree_mul. pose proof (mul_fits X L k F _ _ Ol Or) as M. unfold dm_mul.
      destruct (bd_mul X (dm_dims a) (dm_dims c)) as [d|]; cbn [outcome dm_dims].
      * destruct M as (Od & Fd & Vd). split; [|split; [exact Od|]].
        -- split; [exact Fl|]. split; [exact Fr|]. intros b. rewrite <- Vl, <- Vr. apply Fd.
        -- intros b. now rewrite Vd, Vl, Vr.
      * intros (_ & _ & Fb). apply M. intros b. rewrite Vl, Vr. apply Fb.
    + rewrite degree_div. pose proof (div_fits X L k F _ _ Ol Or) as M. unfold dm_div.
      destruct (bd_div X (dm_dims a) (dm_dims c)) as [d|]; cbn [outcome dm_dims].
      * destruct M as (Od & Fd & Vd). split; [|split; [exact Od|]].
        -- split; [exact Fl|]. split; [exact Fr|]. intros b. rewrite <- Vl, <- Vr. apply Fd.
        -- intros b. now rewrite Vd, Vl, Vr.
      * intros (_ & _ & Fb). apply M. intros b. rewrite Vl, Vr. apply Fb.
  - intros t H _. destruct (H t (or_introl eq_refl)) as (d & E & O & V).
    change (feval_with X env lk (FVal t)) with (lk t). rewrite E. exact (conj Logic.I (conj O V)).
  - intros t p H HE. destruct (H t (or_introl eq_refl)) as (d & E & O & V).
    change (feval_with X env lk (FPow t p)) with (let? a := lk t in dm_pow X env a p). rewrite E.
    change (fdegree_fits k g (FPow t p)) with (forall b, product_fits k (g t b) (val p)).
    change (fdegree k g (FPow t p)) with (fun b => g t b * val p).
    pose proof (pow_fits X L k F _ p O (HE p (or_introl eq_refl))) as M. unfold dm_pow.
    destruct (bd_pow X (dm_dims d) p) as [c|]; cbn [outcome dm_dims].
    + destruct M as (Oc & Fc & Vc). split; [|split; [exact Oc|]].
      * intros b. rewrite <- V. apply Fc.
      * intros b. now rewrite Vc, V.
    + intros Fb. apply M. intros b. rewrite V. apply Fb.
  - intros e IH H HE. exact (IH H HE).
Qed.
End Leaves.

(** Renaming the leaves. *)
Lemma degree_map {A B} (h : A -> B) (g : B -> degrees) (g' : A -> degrees) :
  (forall a, g (h a) = g' a) ->
  (forall e : expr A X, degree k g (expr_map h e) = degree k g' e /\ (degree_fits k g (expr_map h e) <-> degree_fits k g' e)) /\
  (forall f : factor A X, fdegree k g (factor_map h f) = fdegree k g' f /\ (fdegree_fits k g (factor_map h f) <-> fdegree_fits k g' f)).
Proof.
  intros E. apply expr_factor_ind.
  - intros f IH. exact IH.
  - intros l [L1 L2] r [R1 R2] op.
    change (expr_map h (EBin l r op)) with (EBin (expr_map h l) (factor_map h r) op).
    split; [destruct op; [rewrite !degree_mul|rewrite !degree_div]; now rewrite L1, R1|].
    rewrite !degree_fits_bin, L1, R1, L2, R2. reflexivity.
  - intros t. cbn. rewrite E. split; reflexivity.
  - intros t p. cbn [factor_map].
    change (fdegree k g (FPow (h t) p)) with (fun b => g (h t) b * val p).
    change (fdegree_fits k g (FPow (h t) p)) with (forall b, product_fits k (g (h t) b) (val p)).
    rewrite E. split; reflexivity.
  - intros e IH. exact IH.
Qed.

(** ** Declarations *)
Definition item_leaf (V : ident -> degrees) (f : fac dm) : degrees :=
  match f with Concrete c => qv (dm_dims c) | Other n => V n end.

Lemma item_degree V x :
  (forall b, degree k (item_leaf V) (it_expr (item_of _ x)) b = declared_degree k V x b) /\
  (degree_fits k (item_leaf V) (it_expr (item_of _ x)) <-> declaration_fits k V x).
Proof.
  assert (K : forall (h : magnitude -> dm) e, (forall c, dm_dims (h c) = bd_none X) ->
    degree k (item_leaf V) (expr_map (map_concrete h) e) = degree k (named V) e /\
    (degree_fits k (item_leaf V) (expr_map (map_concrete h) e) <-> degree_fits k (named V) e)).
  { intros h e Hh. apply degree_map. intros [c|n]; [|reflexivity]. cbn. now rewrite Hh. }
  destruct x as [d|u|c]; cbn [item_of declared_degree declaration_fits it_expr item_of_dimension item_of_unit item_of_constant].
  - destruct (de_rhs d) as [[]|e].
    + split; [|split; intros; exact Logic.I]. intros b. apply (qvec_for_base X L).
    + destruct (degree_map (map_concrete (fun _ : unit => dm_of_dimensions X (bd_none X))) (item_leaf V) (named V)) as [H _].
      { intros [c|n]; reflexivity. }
      destruct (H e) as [H1 H2]. split; [|exact H2]. intros b. now rewrite <- H1.
  - destruct (ue_definition u) as [dim|e].
    + split; [reflexivity|split; intros; exact Logic.I].
    + destruct (K (dm_of_magnitude X) e (fun _ => eq_refl)) as [H1 H2]. split; [|exact H2]. intros b. now rewrite <- H1.
  - destruct (K (dm_of_magnitude X) (ce_rhs c) (fun _ => eq_refl)) as [H1 H2]. split; [|exact H2]. intros b. now rewrite <- H1.
Qed.

Notation items S := (items_of X S).

Lemma concrete_ok x c : In (Concrete c) (expr_vals (it_expr (item_of X x))) -> okd (dm_dims c).
Proof.
  destruct x as [d|u|c']; simpl.
  - destruct (de_rhs d) as [[]|e]; simpl.
    + intros [E|[]]; inversion E; subst. apply (for_base_ok X L k F).
    + rewrite (proj1 (vals_map_mut X _)), in_map_iff. intros ([y|y] & E & _); inversion E; subst. apply (none_ok X L k F).
  - destruct (ue_definition u) as [dim|e]; simpl; [intros [E|[]]; discriminate|].
    rewrite (proj1 (vals_map_mut X _)), in_map_iff. intros ([y|y] & E & _); inversion E; subst. apply (none_ok X L k F).
  - rewrite (proj1 (vals_map_mut X _)), in_map_iff. intros ([y|y] & E & _); inversion E; subst. apply (none_ok X L k F).
Qed.

(** One declaration, given the values of the names it mentions. *)
Lemma declaration_outcome V x lk : (forall p, In p (decl_exponents x) -> f_lit F p) ->
  (forall n, In n (others (it_expr (item_of X x))) -> okd (dm_dims (lk n)) /\ forall b, qv (dm_dims (lk n)) b = V n b) ->
  outcome (eval_with X env (look X lk) (it_expr (item_of X x))) (declaration_fits k V x) (declared_degree k V x).
Proof.
  intros HE H. destruct (item_degree V x) as [D1 D2].
  assert (K := proj1 (eval_fits (look X lk) (item_leaf V)) (it_expr (item_of X x))).
  assert (Lf : forall t, In t (expr_vals (it_expr (item_of X x))) -> leaf_ok (look X lk) (item_leaf V) t).
  { intros [c|n] I.
    - exists c. split; [reflexivity|]. split; [exact (concrete_ok x c I)|reflexivity].
    - exists (lk n). split; [reflexivity|]. apply H. now apply others_vals. }
  specialize (K Lf (fun p Hp => HE p (item_exponents X x p Hp))). unfold outcome in *. destruct (eval_with X env (look X lk) (it_expr (item_of X x))) as [d|].
  - destruct K as (K1 & K2 & K3). split; [now apply D2|]. split; [exact K2|]. intros b. now rewrite K3, D1.
  - intros H'. apply K. now apply D2.
Qed.

Definition written (S : system) : Prop := forall x p, In x (decls S) -> In p (decl_exponents x) -> f_lit F p.

Lemma iden_degree (S : system) V n D : written S -> solution k S V -> iden X env (items S) n D ->
  okd (dm_dims D) /\ forall b, qv (dm_dims D) b = V n b.
Proof.
  intros HW SV H. induction H as [i lk d Hi Hlk IH He]. rewrite items_of_decls in Hi.
  apply in_map_iff in Hi as (x & <- & Hx). rewrite ident_of_item.
  pose proof (declaration_outcome V x lk (fun p => HW x p Hx) IH) as O. rewrite He in O. destruct O as (_ & O1 & O2).
  split; [exact O1|]. intros b. rewrite O2. symmetry. apply SV; [exact Hx|].
  apply igrounded_iff. rewrite <- ident_of_item with (X := X). eapply (iden_grounded X env).
  apply (iden_by X env _ (item_of X x) lk d); [|exact Hlk|exact He].
  rewrite items_of_decls. now apply in_map.
Qed.

(** The resolver panics exactly when the right-hand side of a grounded declaration does not fit. *)
Lemma resolve_none_iff (S : system) V : generated_ok X S -> NoDup (map decl_name (decls S)) -> written S -> solution k S V ->
  resolve X env S = None <->
  exists x, In x (decls S) /\ grounded S (decl_name x) /\ ~ declaration_fits k V x.
Proof.
  intros G ND HW SV.
  assert (R : resolve X env S = None <-> resolve_items X env (U4 X S) = None).
  { rewrite (resolve_unfold X env). destruct (resolve_items X env (U4 X S)) as [[res d]|]; split; congruence. }
  rewrite R. clear R. rewrite (resolve_items_none X env) by now apply U4_nodup. split.
  - intros (i & lk & Hi & Hlk & He). apply U4_sub in Hi as Hi'. rewrite items_of_decls in Hi'.
    apply in_map_iff in Hi' as (x & <- & Hx). exists x. split; [exact Hx|].
    assert (M : forall n, In n (others (it_expr (item_of X x))) -> iden X env (items S) n (lk n)).
    { intros n Hn. eapply (iden_incl X env); [|exact (Hlk n Hn)]. intros j. apply U4_sub. }
    split.
    + apply igrounded_iff. rewrite <- ident_of_item with (X := X). constructor.
      * rewrite items_of_decls. now apply in_map.
      * intros n Hn. exact (iden_grounded X env _ _ _ (M n Hn)).
    + pose proof (declaration_outcome V x lk (fun p => HW x p Hx) (fun n Hn => iden_degree S V n _ HW SV (M n Hn))) as O.
      rewrite He in O. exact O.
  - intros (x & Hx & Gx & NF). apply (resolve_items_none X env); [now apply U4_nodup|].
    destruct (resolve_items X env (U4 X S)) as [[res ds]|] eqn:E; [|reflexivity]. exfalso. apply NF.
    apply (resolved_names X env S res ds _ G E) in Gx as Kx. apply sget_keys in Kx as [ri Hri].
    pose proof (resolved_entry X env _ _ _ _ _ E Hri) as (Hin & Hid & Hden).
    inversion Hden as [j lk d Hj Hlk He Ej Ed]. clear Ed.
    assert (j = item_of X x).
    { apply U4_sub in Hj. rewrite items_of_decls in Hj. apply in_map_iff in Hj as (y & <- & Hy).
      rewrite ident_of_item in Ej. f_equal.
      exact (nodup_decl X S y x ND Hy Hx Ej). }
    subst j.
    assert (M : forall n, In n (others (it_expr (item_of X x))) -> iden X env (items S) n (lk n)).
    { intros n Hn. eapply (iden_incl X env); [|exact (Hlk n Hn)]. intros i. apply U4_sub. }
    pose proof (declaration_outcome V x lk (fun p => HW x p Hx) (fun n Hn => iden_degree S V n _ HW SV (M n Hn))) as O.
    rewrite He in O. exact (proj1 O).
Qed.

(** ** A solution always exists, and it is unique on the grounded names *)
Lemma degree_ext {A} (g g' : A -> degrees) :
  (forall e : expr A X, (forall t, In t (expr_vals e) -> forall b, g t b = g' t b) -> forall b, degree k g e b = degree k g' e b) /\
  (forall f : factor A X, (forall t, In t (factor_vals f) -> forall b, g t b = g' t b) -> forall b, fdegree k g f b = fdegree k g' f b).
Proof.
  apply expr_factor_ind.
  - intros f IH H. exact (IH H).
  - intros l IHl r IHr op H b.
    assert (Hl := IHl (fun t I => H t (in_or_app _ _ _ (or_introl I))) b).
    assert (Hr := IHr (fun t I => H t (in_or_app _ _ _ (or_intror I))) b).
    destruct op; [rewrite !degree_mul|rewrite !degree_div]; now rewrite Hl, Hr.
  - intros t H b. exact (H t (or_introl eq_refl) b).
  - intros t p H b. cbn. now rewrite (H t (or_introl eq_refl) b).
  - intros e IH H. exact (IH H).
Qed.

Lemma declared_degree_ext V W (x : decl) : (forall n, mentions x n -> forall b, V n b = W n b) ->
  forall b, declared_degree k V x b = declared_degree k W x b.
Proof.
  intros H b. rewrite <- (proj1 (item_degree V x)), <- (proj1 (item_degree W x)). apply degree_ext.
  intros [c|n] I b'; [reflexivity|]. apply H. apply mentions_item. now apply others_vals.
Qed.

Lemma grounded_induction (S : system) (P : decl -> Prop) : NoDup (map decl_name (decls S)) ->
  (forall x, In x (decls S) ->
     (forall n, mentions x n -> exists y, In y (decls S) /\ decl_name y = n /\ grounded S n /\ P y) -> P x) ->
  forall x, In x (decls S) -> grounded S (decl_name x) -> P x.
Proof.
  intros ND H.
  assert (K : forall n, grounded S n -> forall x, In x (decls S) -> decl_name x = n -> P x).
  { intros n G. induction G as [y Hy Gm IH]. intros x Hx E.
    assert (x = y) by (now apply (nodup_decl X S)). subst y. apply H; [exact Hx|].
    intros m Hm. pose proof (Gm m Hm) as Gr. inversion Gr as [z Hz _ Ez]. exists z.
    split; [exact Hz|]. split; [reflexivity|]. split; [exact Gr|]. exact (IH m Hm z Hz Ez). }
  intros x Hx G. now apply (K _ G).
Qed.

Lemma solution_unique (S : system) V W : NoDup (map decl_name (decls S)) -> solution k S V -> solution k S W ->
  forall n, grounded S n -> forall b, V n b = W n b.
Proof.
  intros ND SV SW.
  cut (forall x, In x (decls S) -> grounded S (decl_name x) -> forall b, V (decl_name x) b = W (decl_name x) b).
  { intros H n G. pose proof G as G'. destruct G as [x Hx Gm]. now apply H. }
  refine (grounded_induction S (fun x => forall b, V (decl_name x) b = W (decl_name x) b) ND _). intros x Hx IH b.
  assert (G : grounded S (decl_name x)).
  { constructor; [exact Hx|]. intros m Hm. now destruct (IH m Hm) as (y & _ & _ & G & _). }
  rewrite (SV x Hx G), (SW x Hx G). apply declared_degree_ext. intros m Hm b'.
  destruct (IH m Hm) as (y & _ & <- & _ & E). apply E.
Qed.

Section Solve.
Context (S : system) (ND : NoDup (map decl_name (decls S))).
Let DS := decls S.
Definition refers (x : decl) : list ident := others (it_expr (item_of X x)).
Fixpoint ready (j : nat) (x : decl) : bool :=
  match j with
  | O => false
  | Datatypes.S j => forallb (fun n => existsb (fun y => String.eqb (decl_name y) n && ready j y) DS) (refers x)
  end.
Lemma ready_S j x : ready (Datatypes.S j) x = true <->
  forall n, mentions x n -> exists y, In y DS /\ decl_name y = n /\ ready j y = true.
Proof.
  cbn [ready]. rewrite forallb_forall. split; intros H n Hn.
  - apply mentions_item in Hn. apply H in Hn. apply existsb_exists in Hn as (y & Hy & E). apply andb_prop in E as [E1 E2].
    apply String.eqb_eq in E1. eauto.
  - apply mentions_item in Hn. destruct (H n Hn) as (y & Hy & E1 & E2). apply existsb_exists. exists y. split; [exact Hy|].
    rewrite E2, E1, String.eqb_refl. reflexivity.
Qed.
Lemma ready_mono j : forall x, ready j x = true -> ready (Datatypes.S j) x = true.
Proof.
  induction j as [|j IH]; [discriminate|]. intros x H. apply ready_S. intros n Hn.
  destruct (proj1 (ready_S j x) H n Hn) as (y & H1 & H2 & H3). exists y. auto.
Qed.
Lemma ready_le i j x : (i <= j)%nat -> ready i x = true -> ready j x = true.
Proof. induction 1; auto using ready_mono. Qed.
Lemma grounded_ready x : In x DS -> grounded S (decl_name x) -> exists j, ready j x = true.
Proof.
  revert x. refine (grounded_induction S (fun x => exists j, ready j x = true) ND _). intros y Hy IH.
  assert (K : exists j, forall n, In n (refers y) -> exists z, In z DS /\ decl_name z = n /\ ready j z = true).
  { assert (IH' : forall n, In n (refers y) -> exists z, In z DS /\ decl_name z = n /\ exists j, ready j z = true).
    { intros n Hn. apply mentions_item in Hn. destruct (IH n Hn) as (z & H1 & H2 & _ & H3). eauto. }
    clear IH. induction (refers y) as [|n l IHl].
    - exists O. easy.
    - destruct IHl as [j1 H1]; [intros m Hm; apply IH'; now right|].
      destruct (IH' n (or_introl eq_refl)) as (z & Z1 & Z2 & j2 & Z3). exists (Nat.max j1 j2).
      intros m [<-|Hm].
      + exists z. repeat split; auto. apply (ready_le j2); [lia|exact Z3].
      + destruct (H1 m Hm) as (w & W1 & W2 & W3). exists w. repeat split; auto. apply (ready_le j1); [lia|exact W3]. }
  destruct K as [j H]. exists (Datatypes.S j). apply ready_S. intros n Hn. apply H. now apply mentions_item.
Qed.

Definition count (j : nat) : nat := List.length (filter (ready j) DS).
Lemma filter_grows {A} (p q : A -> bool) l : (forall x, p x = true -> q x = true) ->
  (forall x, In x l -> q x = p x) \/ (List.length (filter p l) < List.length (filter q l))%nat.
Proof.
  intros H. assert (Le : forall l, (List.length (filter p l) <= List.length (filter q l))%nat).
  { clear l. induction l as [|a l IH]; [auto|]. cbn. destruct (p a) eqn:E; [rewrite (H _ E); cbn; lia|]. destruct (q a); cbn; lia. }
  induction l as [|a l IH]; [left; easy|]. cbn. destruct (p a) eqn:E.
  - rewrite (H _ E). destruct IH as [IH|IH]; [left|right; cbn; lia]. intros x [<-|I]; [now rewrite E, (H _ E)|auto].
  - destruct (q a) eqn:F; [right; cbn; specialize (Le l); lia|].
    destruct IH as [IH|IH]; [left|right; exact IH]. intros x [<-|I]; [congruence|auto].
Qed.
Lemma filter_le {A} (p : A -> bool) l : (List.length (filter p l) <= List.length l)%nat.
Proof. induction l as [|a l IH]; [auto|]. cbn. destruct (p a); cbn; lia. Qed.
Lemma fixed_point : exists M, forall x, In x DS -> ready (Datatypes.S M) x = ready M x.
Proof.
  assert (K : forall j, (exists M, forall x, In x DS -> ready (Datatypes.S M) x = ready M x) \/ (j <= count j)%nat).
  { induction j as [|j [IH|IH]]; [right; lia|now left|].
    destruct (filter_grows (ready j) (ready (Datatypes.S j)) DS (ready_mono j)) as [H|H]; [left; now exists j|right].
    unfold count in *. lia. }
  destruct (K (Datatypes.S (List.length DS))) as [H|H]; [exact H|]. unfold count in H.
  pose proof (filter_le (ready (Datatypes.S (List.length DS))) DS). lia.
Qed.
Lemma ready_fixed M : (forall x, In x DS -> ready (Datatypes.S M) x = ready M x) ->
  forall j x, In x DS -> ready j x = true -> ready M x = true.
Proof.
  intros FX j. induction j as [|j IH]; [discriminate|]. intros x Hx H. rewrite <- FX by exact Hx.
  apply ready_S. intros n Hn. destruct (proj1 (ready_S j x) H n Hn) as (y & H1 & H2 & H3). exists y. auto.
Qed.

Fixpoint rounds (j : nat) (n : ident) : degrees :=
  match j with
  | O => fun _ => 0%Qc
  | Datatypes.S j =>
      match find (fun x => String.eqb (decl_name x) n) DS with
      | Some x => declared_degree k (rounds j) x
      | None => fun _ => 0%Qc
      end
  end.
Lemma rounds_S j x : In x DS -> rounds (Datatypes.S j) (decl_name x) = declared_degree k (rounds j) x.
Proof.
  intros Hx. cbn [rounds]. destruct (find (fun x0 => String.eqb (decl_name x0) (decl_name x)) DS) as [y|] eqn:E.
  - apply find_some in E as [Hy Ey]. apply String.eqb_eq in Ey. now rewrite (nodup_decl X S y x ND Hy Hx Ey).
  - exfalso. pose proof (find_none _ _ E x Hx) as H. cbv beta in H. now rewrite String.eqb_refl in H.
Qed.
Lemma rounds_stable j : forall x, In x DS -> ready j x = true ->
  forall b, rounds (Datatypes.S j) (decl_name x) b = rounds j (decl_name x) b.
Proof.
  induction j as [|j IH]; [discriminate|]. intros x Hx H b. rewrite rounds_S, rounds_S by exact Hx.
  apply declared_degree_ext. intros n Hn b'. destruct (proj1 (ready_S j x) H n Hn) as (y & H1 & <- & H3).
  now apply IH.
Qed.
Lemma solution_exists : exists V, solution k S V.
Proof.
  destruct fixed_point as [M FX]. exists (rounds M). intros x Hx G b.
  destruct (grounded_ready x Hx G) as [j Hj]. apply (ready_fixed M FX) in Hj; [|exact Hx].
  rewrite <- (rounds_stable M x Hx Hj b). now rewrite rounds_S by exact Hx.
Qed.
End Solve.

End Mode.

(** ** Small integer exponents *)
Local Open Scope Qc_scope.
Lemma in_range_abs x : Qcabs x < ZQc (2 ^ 63) -> in_range x.
Proof.
  intros H. assert (B : - ZQc (2 ^ 63) <= x /\ x <= ZQc (2 ^ 63)).
  { apply Qcabs_Qcle_condition. now apply Qclt_le_weak. }
  split.
  - change (- 2 ^ 63)%Z with (- (2 ^ 63))%Z. rewrite ZQc_neg. apply B.
  - eapply Qcle_lt_trans; [apply Qcle_Qcabs|exact H].
Qed.
Lemma le_plus_l a b c : 0 <= b -> a + b < c -> a < c.
Proof.
  intros P H. eapply Qcle_lt_trans; [|exact H]. rewrite <- (Qcplus_0_r a) at 1. apply Qcplus_le_compat; [apply Qcle_refl|exact P].
Qed.
Lemma le_plus_r a b c : 0 <= a -> a + b < c -> b < c.
Proof. rewrite Qcplus_comm. apply le_plus_l. Qed.

Section Weight.
Notation IZ := (ops IntegerExponents).
Notation km := IntegerExponents.
Context {A : Type} (of : A -> degrees).
Lemma weight_bound :
  (forall e : expr A IZ, forall b, Qcabs (degree km of e b) <= weight km of e b) /\
  (forall f : factor A IZ, forall b, Qcabs (fdegree km of f b) <= fweight km of f b).
Proof.
  apply expr_factor_ind.
  - intros f IH b. exact (IH b).
  - intros l IHl r IHr op b. specialize (IHl b). specialize (IHr b).
    change (weight km of (EBin l r op) b) with (weight km of l b + fweight km of r b).
    destruct op; [rewrite degree_mul|rewrite degree_div].
    + eapply Qcle_trans; [apply Qcabs_triangle|]. now apply Qcplus_le_compat.
    + unfold Qcminus. eapply Qcle_trans; [apply Qcabs_triangle|]. rewrite Qcabs_opp. now apply Qcplus_le_compat.
  - intros t b. apply Qcle_refl.
  - intros t p b. apply Qcle_refl.
  - intros e IH b. exact (IH b).
Qed.
Lemma weight_nonneg :
  (forall e : expr A IZ, forall b, 0 <= weight km of e b) /\ (forall f : factor A IZ, forall b, 0 <= fweight km of f b).
Proof.
  split; intros e b; (eapply Qcle_trans; [apply Qcabs_nonneg|apply weight_bound]).
Qed.
Lemma weight_fits :
  (forall e : expr A IZ, (forall b, weight km of e b < ZQc (2 ^ 63)) -> degree_fits km of e) /\
  (forall f : factor A IZ, (forall b, fweight km of f b < ZQc (2 ^ 63)) -> fdegree_fits km of f).
Proof.
  apply expr_factor_ind.
  - intros f IH H. exact (IH H).
  - intros l IHl r IHr op H. rewrite degree_fits_bin.
    assert (E : forall b, weight km of (EBin l r op) b = weight km of l b + fweight km of r b) by reflexivity.
    assert (Hl : forall b, weight km of l b < ZQc (2 ^ 63)).
    { intros b. specialize (H b). rewrite E in H. exact (le_plus_l _ _ _ (proj2 weight_nonneg r b) H). }
    assert (Hr : forall b, fweight km of r b < ZQc (2 ^ 63)).
    { intros b. specialize (H b). rewrite E in H. exact (le_plus_r _ _ _ (proj1 weight_nonneg l b) H). }
    split; [now apply IHl|]. split; [now apply IHr|]. intros b.
    assert (W : in_range (degree km of (EBin l r op) b)).
    { apply in_range_abs. eapply Qcle_lt_trans; [apply weight_bound|apply H]. }
    destruct op; [exact W|]. split; [|exact W]. apply in_range_abs. rewrite Qcabs_opp.
    eapply Qcle_lt_trans; [apply weight_bound|apply Hr].
  - intros t H. exact Logic.I.
  - intros t p H.
    change (forall b, in_range (of t b * l_val IZ (laws km) p)). intros b. apply in_range_abs. exact (H b).
  - intros e IH H. exact (IH H).
Qed.
End Weight.

Lemma small_fits V (x : SystemSpec.decl (ops IntegerExponents)) :
  (forall b, declaration_weight IntegerExponents V x b < ZQc (2 ^ 63)) -> declaration_fits IntegerExponents V x.
Proof.
  destruct x as [d|u|c]; cbn [declaration_weight declaration_fits].
  - destruct (de_rhs d); [intros; exact Logic.I|]. apply weight_fits.
  - destruct (ue_definition u); [intros; exact Logic.I|]. apply weight_fits.
  - apply weight_fits.
Qed.

(** ** What the specification says *)
Lemma exponents_written_written k (S : unresolved (ops k) (unit_entry (ops k))) : exponents_written k S -> written k S.
Proof.
  intros H x p Hx Hp. destruct (H x p Hx Hp) as (Vp & Np & Dp). destruct k; [exact Logic.I|].
  change (canonical p) in Vp. change (i64 (N (rval p))) in Np. change (i64 (D (rval p))) in Dp.
  destruct (ratio_parts p Vp) as [EN ED]. rewrite EN in Np. rewrite ED in Dp. exact (conj Vp (conj Np Dp)).
Qed.
Lemma listed_qvec k d b : listed k d b = qvec (ops k) (laws k) d b.
Proof.
  unfold listed, qvec. induction d as [|[c e] d IH]; [reflexivity|]. cbn [find fst snd]. rewrite sget_head.
  destruct (String.eqb b c); [reflexivity|exact IH].
Qed.
