(** * Facts for C07: how the operations transform when stored values are rescaled *)
From Coq Require Import String List Bool ZArith QArith Qcanon Qreals Reals Lra.
From Verif Require Import MachineInt Ratio F64 Magnitude Exponent ExponentFacts SMap Types CodegenDimension
  Setting Storage Operators OperatorSpec OperatorFacts FloatMethods Vector CodegenDimensionFacts Programs
  Equivariance.
Import ListNotations.
Local Close Scope Q_scope.
Local Close Scope Qc_scope.
Local Open Scope R_scope.
Local Open Scope list_scope.

(** ** The scale factor of a dimension *)
Definition q (x : Qc) : R := Q2R (this x).
Lemma q_red x : Q2R (Qred x) = Q2R x.
Proof. apply Qeq_eqR, Qred_correct. Qed.
Lemma q_plus x y : q (x + y)%Qc = q x + q y.
Proof. unfold q, Qcplus. cbn [this Q2Qc]. rewrite q_red. apply Q2R_plus. Qed.
Lemma q_opp x : q (- x)%Qc = - q x.
Proof. unfold q, Qcopp. cbn [this Q2Qc]. rewrite q_red. apply Q2R_opp. Qed.
Lemma q_minus x y : q (x - y)%Qc = q x - q y.
Proof. unfold Qcminus. rewrite q_plus, q_opp. reflexivity. Qed.
Lemma q_mult x y : q (x * y)%Qc = q x * q y.
Proof. unfold q, Qcmult. cbn [this Q2Qc]. rewrite q_red. apply Q2R_mult. Qed.
Lemma q_Z n : q (ZQc n) = IZR n.
Proof. unfold q, ZQc. cbn [this Q2Qc]. rewrite q_red. unfold Q2R. simpl. lra. Qed.
Lemma q_div x n : n <> 0%Z -> q (x / ZQc n)%Qc = q x / IZR n.
Proof.
  intros H. assert (E : x = (x / ZQc n * ZQc n)%Qc) by (field; now apply ZQc_nz).
  apply (f_equal q) in E. rewrite q_mult, q_Z in E. rewrite E. field. now apply not_0_IZR.
Qed.

Section Scale.
Context (k : mode) (fields : list string) (lambda : string -> R).
Notation X := (ops k).
Notation stands := (stands_for X fields (laws k)).
Notation rescale := (rescale k lambda).

Definition weight (v : string -> Qc) : R := fold_right (fun f acc => q (v f) * ln (lambda f) + acc) 0 fields.
Lemma rescale_weight d v : stands d v -> rescale d = exp (weight v).
Proof.
  unfold weight. intros [S H]. unfold shaped in S. rewrite <- S. clear S. induction d as [|[f e] d IH].
  - simpl. now rewrite exp_0.
  - cbn [map fold_right fst snd Equivariance.rescale]. rewrite exp_plus, <- IH by (intros; apply H; now right).
    unfold Equivariance.rescale at 1. cbn [fold_right fst snd]. unfold Rpower.
    destruct (H f e (or_introl eq_refl)) as [_ <-]. reflexivity.
Qed.
Lemma weight_plus v w : weight (fun f => v f + w f)%Qc = weight v + weight w.
Proof. unfold weight. induction fields; simpl; [lra|]. rewrite IHl, q_plus. lra. Qed.
Lemma weight_minus v w : weight (fun f => v f - w f)%Qc = weight v - weight w.
Proof. unfold weight. induction fields; cbn [fold_right]; [lra|]. rewrite IHl, q_minus. lra. Qed.
Lemma weight_opp v : weight (fun f => - v f)%Qc = - weight v.
Proof. unfold weight. induction fields; cbn [fold_right]; [lra|]. rewrite IHl, q_opp. lra. Qed.
Lemma weight_mul v n : weight (fun f => v f * ZQc n)%Qc = weight v * IZR n.
Proof. unfold weight. induction fields; cbn [fold_right]; [lra|]. rewrite IHl, q_mult, q_Z. lra. Qed.
Lemma weight_div v n : n <> 0%Z -> weight (fun f => v f / ZQc n)%Qc = weight v / IZR n.
Proof.
  intros H. assert (IZR n <> 0) by now apply not_0_IZR.
  unfold weight. induction fields; cbn [fold_right]; [lra|]. rewrite IHl, q_div by auto. field. auto.
Qed.
Lemma weight_zero : weight (fun _ => ZQc 0) = 0.
Proof. unfold weight. induction fields; cbn [fold_right]; [lra|]. rewrite IHl, q_Z. lra. Qed.

Context (N : NoDup fields).
Notation is_dimension := (is_dimension k fields).

Lemma rescale_pos d : is_dimension d -> 0 < rescale d.
Proof. intros [v H]. rewrite (rescale_weight d v H). apply exp_pos. Qed.
Lemma rescale_none d : dim_none X fields = Some d -> is_dimension d /\ rescale d = 1.
Proof.
  intros H. destruct (none_stands_for X fields N (laws k)) as (d' & E & S).
  assert (d' = d) by congruence. subst d'. split; [eexists; eauto|].
  rewrite (rescale_weight d _ S), weight_zero. apply exp_0.
Qed.
Lemma rescale_add a b c : is_dimension a -> is_dimension b -> dim_add X fields a b = Some c ->
  is_dimension c /\ rescale c = rescale a * rescale b.
Proof.
  intros [v Hv] [w Hw] E. assert (S := dim_add_spec X fields N (laws k) a b c v w E Hv Hw). split; [eexists; eauto|].
  rewrite (rescale_weight _ _ S), (rescale_weight _ _ Hv), (rescale_weight _ _ Hw), weight_plus. apply exp_plus.
Qed.
Lemma rescale_neg a c : is_dimension a -> dim_neg X fields a = Some c ->
  is_dimension c /\ rescale c = / rescale a.
Proof.
  intros [v Hv] E. assert (S := dim_neg_spec X fields N (laws k) a c v E Hv). split; [eexists; eauto|].
  rewrite (rescale_weight _ _ S), (rescale_weight _ _ Hv), weight_opp. apply exp_Ropp.
Qed.
Lemma rescale_sub a b c : is_dimension a -> is_dimension b -> dim_sub X fields a b = Some c ->
  is_dimension c /\ rescale c = rescale a / rescale b.
Proof.
  intros [v Hv] [w Hw] E. assert (S := dim_sub_spec X fields N (laws k) a b c v w E Hv Hw). split; [eexists; eauto|].
  rewrite (rescale_weight _ _ S), (rescale_weight _ _ Hv), (rescale_weight _ _ Hw), weight_minus.
  unfold Rminus, Rdiv. now rewrite exp_plus, exp_Ropp.
Qed.
Lemma rescale_mul a n c : is_dimension a -> dim_mul X fields a n = Some c ->
  is_dimension c /\ rescale c = powerRZ (rescale a) n.
Proof.
  intros [v Hv] E. assert (S := dim_mul_spec X fields N (laws k) a n c v E Hv). split; [eexists; eauto|].
  rewrite (rescale_weight _ _ S), (rescale_weight _ _ Hv), weight_mul.
  rewrite powerRZ_Rpower by apply exp_pos. unfold Rpower. now rewrite ln_exp, Rmult_comm.
Qed.
Lemma rescale_div2 a c : is_dimension a -> dim_div2 X fields a = Some c ->
  is_dimension c /\ rescale c = sqrt (rescale a).
Proof.
  intros [v Hv] E. assert (S := dim_div2_spec X fields N (laws k) a c v E Hv). split; [eexists; eauto|].
  rewrite (rescale_weight _ _ S), (rescale_weight _ _ Hv), weight_div by discriminate.
  symmetry. apply sqrt_lem_1; [left; apply exp_pos|left; apply exp_pos|].
  rewrite <- exp_plus. f_equal. lra.
Qed.
Lemma rescale_div3 a c : is_dimension a -> dim_div3 X fields a = Some c ->
  is_dimension c /\ rescale c = Rpower (rescale a) (/ 3).
Proof.
  intros [v Hv] E. assert (S := dim_div3_spec X fields N (laws k) a c v E Hv). split; [eexists; eauto|].
  rewrite (rescale_weight _ _ S), (rescale_weight _ _ Hv), weight_div by discriminate.
  unfold Rpower. rewrite ln_exp. f_equal. lra.
Qed.
End Scale.

(** ** The operations *)
Lemma scale_one a : scale_num 1 a = a.
Proof.
  destruct a; simpl; [now rewrite Rmult_1_l|]. f_equal. rewrite <- (map_id xs) at 2. apply map_ext. intros; lra.
Qed.
Lemma mapM_scale {A B} (f : A -> A) (g g' : A -> option B) (h : B -> B) (l : list A) :
  (forall x, g' (f x) = option_map h (g x)) -> mapM g' (map f l) = option_map (map h) (mapM g l).
Proof.
  intros H. induction l; simpl; [reflexivity|]. rewrite H, IHl. destruct (g a); simpl; [|reflexivity].
  destruct (mapM g l); reflexivity.
Qed.
Lemma combine_map {A B C D} (f : A -> C) (g : B -> D) l m :
  combine (map f l) (map g m) = map (fun p => (f (fst p), g (snd p))) (combine l m).
Proof. revert m. induction l; destruct m; simpl; f_equal; auto. Qed.

(** If single numbers transform by [c] and [d] into results transformed by [e], so do vectors. *)
Lemma arith_scale op c d e :
  (forall x y, arith1 op (c * x) (d * y) = option_map (Rmult e) (arith1 op x y)) ->
  forall a b, arith op (scale_num c a) (scale_num d b) = option_map (scale_num e) (arith op a b).
Proof.
  intros H a b. destruct a as [x|xs], b as [y|ys]; unfold scale_num at 1 2; cbn [arith].
  - rewrite H. destruct (arith1 op x y); reflexivity.
  - rewrite (mapM_scale (Rmult d) (fun y => arith1 op x y) _ (Rmult e)) by (intros; apply H).
    destruct (mapM _ ys); reflexivity.
  - rewrite (mapM_scale (Rmult c) (fun x => arith1 op x y) _ (Rmult e)) by (intros; apply H).
    destruct (mapM _ xs); reflexivity.
  - rewrite combine_map.
    rewrite (mapM_scale _ (fun p => arith1 op (fst p) (snd p)) _ (Rmult e)) by (intros []; apply H).
    destruct (mapM _ (combine xs ys)); reflexivity.
Qed.
Definition additive (op : trait) : Prop := In op [TAdd; TSub; TAddAssign; TSubAssign].
Definition multiplicative (op : trait) : Prop := In op [TMul; TMulAssign].
Definition divisive (op : trait) : Prop := In op [TDiv; TDivAssign].
Lemma arith_add op c a b : additive op ->
  arith op (scale_num c a) (scale_num c b) = option_map (scale_num c) (arith op a b).
Proof.
  intros H. apply arith_scale. intros x y. cbn in H.
  destruct H as [<- |[<- |[<- |[<- |[]]]]]; simpl; f_equal; lra.
Qed.
Lemma arith_mul op c d a b : multiplicative op ->
  arith op (scale_num c a) (scale_num d b) = option_map (scale_num (c * d)) (arith op a b).
Proof. intros H. apply arith_scale. intros x y. destruct H as [<- |[<- |[]]]; simpl; f_equal; lra. Qed.
Lemma arith_div op c d a b : divisive op -> d <> 0 ->
  arith op (scale_num c a) (scale_num d b) = option_map (scale_num (c / d)) (arith op a b).
Proof.
  intros H D. apply arith_scale. intros x y.
  destruct H as [<- |[<- |[]]]; simpl; destruct (Req_EM_T (d * y) 0), (Req_EM_T y 0); simpl; try reflexivity;
    try (exfalso; subst; nra); try (apply Rmult_integral in e; tauto); f_equal; field; auto.
Qed.

Lemma dec_iff {P Q} (a : {P} + {~ P}) (b : {Q} + {~ Q}) : (P <-> Q) -> dec a = dec b.
Proof. unfold dec. destruct a, b; tauto. Qed.
Lemma compare_scale r c a b : 0 < c -> compare_num r (scale_num c a) (scale_num c b) = compare_num r a b.
Proof.
  intros H.
  assert (E : comps (scale_num c a) = comps (scale_num c b) <-> comps a = comps b).
  { assert (I : forall l m, map (Rmult c) l = map (Rmult c) m <-> l = m).
    { induction l; destruct m; simpl; split; try discriminate; auto; intros E; injection E; intros E2 E1.
      - f_equal; [apply (Rmult_eq_reg_l c); lra|now apply IHl].
      - now subst. }
    destruct a, b; unfold scale_num, comps.
    - split; intros E; injection E; intros; f_equal; [nra|now subst].
    - change [c * x] with (map (Rmult c) [x]). apply I.
    - change [c * x] with (map (Rmult c) [x]). apply I.
    - apply I. }
  destruct r; cbn [compare_num].
  - f_equal. apply dec_iff, E.
  - do 2 f_equal. apply dec_iff, E.
  - destruct a, b; try reflexivity; simpl; f_equal; apply dec_iff; nra.
  - destruct a, b; try reflexivity; simpl; f_equal; apply dec_iff; nra.
  - destruct a, b; try reflexivity; simpl; f_equal; apply dec_iff; nra.
  - destruct a, b; try reflexivity; simpl; f_equal; apply dec_iff; nra.
Qed.

Lemma power_int_scale c x i : 0 < c -> power_int (c * x) i = option_map (Rmult (powerRZ c i)) (power_int x i).
Proof.
  intros H. unfold power_int.
  assert (M : forall y, powerRZ (c * y) i = powerRZ c i * powerRZ y i).
  { intros y. destruct i; simpl; [ring|apply Rpow_mult_distr|].
    rewrite Rpow_mult_distr. destruct (Req_dec y 0) as [-> |].
    - rewrite pow_i by apply Pos2Nat.is_pos. rewrite Rmult_0_r, Rinv_0. ring.
    - field. split; apply pow_nonzero; lra. }
  destruct (Req_EM_T (c * x) 0) as [e|], (Req_EM_T x 0); simpl.
  - destruct (0 <=? i)%Z; simpl; [|reflexivity]. f_equal. apply M.
  - apply Rmult_integral in e. lra.
  - subst. nra.
  - f_equal. apply M.
Qed.
Lemma sqrt_scale c x : 0 < c ->
  (if Rlt_dec (c * x) 0 then None else Some (sqrt (c * x))) =
  option_map (Rmult (sqrt c)) (if Rlt_dec x 0 then None else Some (sqrt x)).
Proof.
  intros H. destruct (Rlt_dec (c * x) 0), (Rlt_dec x 0); simpl; try reflexivity; try (exfalso; nra).
  f_equal. apply sqrt_mult; lra.
Qed.
Lemma cube_root_scale c x : 0 < c -> cube_root (c * x) = Rpower c (/ 3) * cube_root x.
Proof.
  intros H. unfold cube_root.
  destruct (Rlt_dec 0 (c * x)), (Rlt_dec 0 x); try (exfalso; nra).
  - symmetry. now apply Rpower_mult_distr.
  - destruct (Rlt_dec (c * x) 0), (Rlt_dec x 0); try (exfalso; nra); [|ring].
    replace (- (c * x)) with (c * - x) by ring. rewrite <- Rpower_mult_distr by lra. ring.
Qed.

Lemma neg_scale c a : neg_num (scale_num c a) = scale_num c (neg_num a).
Proof. destruct a; simpl; [f_equal; lra|]. f_equal. rewrite !map_map. apply map_ext. intros; lra. Qed.
Lemma zero_scale c s : scale_num c (zero_of s) = zero_of s.
Proof.
  destruct s; simpl; [now rewrite Rmult_0_r|]. f_equal. induction (num_dims v); simpl; [reflexivity|].
  now rewrite Rmult_0_r, IHn.
Qed.
Lemma sum_scale c items total :
  sum_nums (scale_num c total) (map (scale_num c) items) = option_map (scale_num c) (sum_nums total items).
Proof.
  revert total. induction items; intros; cbn [sum_nums map]; [reflexivity|].
  rewrite arith_add by (cbn; auto). destruct (arith TAddAssign total a); simpl; [apply IHitems|reflexivity].
Qed.

(** ** Vectors *)
Section Vec.
Context (c : R) (Hc : 0 < c).
Notation sc := (map (Rmult c)).
Lemma zip_scale (f : R -> R -> R) (d e : R) xs ys : (forall x y, f (c * x) (d * y) = e * f x y) ->
  g_zip f (sc xs) (map (Rmult d) ys) = map (Rmult e) (g_zip f xs ys).
Proof. intros H. unfold g_zip. rewrite combine_map, !map_map. apply map_ext. intros []; apply H. Qed.
Lemma dot_scale d xs ys :
  g_dot Rplus Rmult 0 (sc xs) (map (Rmult d) ys) = c * d * g_dot Rplus Rmult 0 xs ys.
Proof.
  unfold g_dot. rewrite (zip_scale _ d (c * d)) by (intros; ring).
  destruct (g_zip Rmult xs ys) as [|p ps]; cbn [map]; [ring|].
  revert p. induction ps; intros p; cbn [map fold_left]; [reflexivity|].
  rewrite <- Rmult_plus_distr_l. apply IHps.
Qed.
Lemma dot_nonneg xs : 0 <= g_dot Rplus Rmult 0 xs xs.
Proof.
  unfold g_dot, g_zip. replace (map _ (combine xs xs)) with (map (fun x => x * x) xs).
  2:{ induction xs; simpl; f_equal; auto. }
  destruct xs as [|x xs]; cbn [map]; [lra|].
  assert (H : 0 <= x * x) by nra. revert H. generalize (x * x). induction xs; intros r Hr; cbn [map fold_left]; [auto|].
  apply IHxs. nra.
Qed.
Lemma length_scale xs : g_length Rplus Rmult sqrt 0 (sc xs) = c * g_length Rplus Rmult sqrt 0 xs.
Proof.
  unfold g_length. rewrite dot_scale. rewrite sqrt_mult by (try apply dot_nonneg; nra).
  rewrite sqrt_square by lra. reflexivity.
Qed.
Lemma set_scale i x xs : g_set i (c * x) (sc xs) = sc (g_set i x xs).
Proof. revert i. induction xs; destruct i; simpl; f_equal; auto. Qed.
Lemma Rmin_scale x y : Rmin (c * x) (c * y) = c * Rmin x y.
Proof. unfold Rmin. destruct (Rle_dec (c * x) (c * y)), (Rle_dec x y); auto; nra. Qed.
Lemma Rmax_scale x y : Rmax (c * x) (c * y) = c * Rmax x y.
Proof. unfold Rmax. destruct (Rle_dec (c * x) (c * y)), (Rle_dec x y); auto; nra. Qed.
End Vec.

Section Main.
Context (k : mode) (fields : list string) (ft : features) (math : bool) (lambda : string -> R).
Context (N : NoDup fields).
Notation X := (ops k).
Notation rescale := (rescale k lambda).
Notation is_dimension := (is_dimension k fields).
Notation type_ok := (type_ok k fields).
Notation scale_val := (scale_val k lambda).

Definition factor (b : base_ty X) : R := match b with TyQ _ d => rescale d | TyS _ => 1 end.
Lemma scale_val_num b a : scale_val (T b) (VNum a) = VNum (scale_num (factor b) a).
Proof. destruct b; simpl; [reflexivity|]. now rewrite scale_one. Qed.
Lemma factor_pos b : type_ok (T b) -> 0 < factor b.
Proof. destruct b; simpl; intros; [now apply rescale_pos with (fields := fields)|lra]. Qed.

Lemma comps_scale c a : comps (scale_num c a) = map (Rmult c) (comps a).
Proof. destruct a; reflexivity. Qed.

Lemma vec_scale v o ts r xs :
  vec_call X fields ft v o ts r -> Forall (fun b => type_ok (T b)) ts -> type_ok (T r) -> length xs = length ts ->
  vec_real v o (map (fun p => scale_num (factor (fst p)) (snd p)) (combine ts xs)) =
  option_map (scale_num (factor r)) (vec_real v o xs).
Proof.
  intros (_ & d & H) TS TR L.
  assert (Two : forall t1 t2, ts = [t1; t2] -> exists a b, xs = [a; b]).
  { intros t1 t2 ->. destruct xs as [|a [|b []]]; try discriminate L. eauto. }
  assert (One : forall t1, ts = [t1] -> exists a, xs = [a]).
  { intros t1 ->. destruct xs as [|a []]; try discriminate L. eauto. }
  set (c := rescale d).
  assert (Hd : ts <> [] -> is_dimension d).
  { intros NE. destruct o; cbv zeta in H;
    repeat match goal with H : _ /\ _ |- _ => destruct H | H : exists _, _ |- _ => destruct H end; subst;
    try (inversion TS; subst; assumption); try congruence.
    all: destruct v; simpl in TS; inversion TS; subst; assumption. }
  assert (Hc : ts <> [] -> 0 < c) by (intros; apply rescale_pos with (fields := fields); auto).
  destruct o; cbv zeta in H.
  - (* new *) destruct H as [-> ->]. unfold vec_real. cbn [scalar_result g_value factor]. simpl Datatypes.option_map.
    fold c. f_equal. simpl. f_equal.
    assert (Hl : length xs = num_dims v) by (rewrite L; apply repeat_length). clear L Two One TS Hc Hd.
    revert Hl. generalize (num_dims v). induction xs; destruct n; intros; try discriminate; [reflexivity|].
    cbn [repeat combine map concat fst snd factor]. rewrite map_app, comps_scale. f_equal. apply IHxs. now injection Hl.
  - destruct H as (_ & -> & ->). destruct (One _ eq_refl) as [x ->]. unfold vec_real.
    cbn [scalar_result g_value factor map combine fst snd]. fold c. rewrite comps_scale.
    destruct (comps x) as [|q0 []]; try reflexivity. cbn [map option_map scale_num]. f_equal. f_equal.
    rewrite map_map. apply map_ext. intros; ring.
  - destruct H as (_ & -> & ->). destruct (One _ eq_refl) as [x ->]. unfold vec_real.
    cbn [scalar_result g_value factor map combine fst snd]. fold c. rewrite comps_scale, nth_error_map.
    destruct (nth_error (comps x) (axis_index a)); reflexivity.
  - destruct H as (_ & -> & ->). destruct (Two _ _ eq_refl) as (x & y & ->). unfold vec_real.
    cbn [scalar_result g_value factor map combine fst snd]. fold c. rewrite !comps_scale.
    destruct (comps y) as [|q0 []]; try reflexivity. cbn [map option_map scale_num]. now rewrite set_scale.
  - destruct H as [-> ->]. destruct xs; [|discriminate L]. unfold vec_real.
    cbn [scalar_result g_value factor map combine fst snd]. fold c. simpl. f_equal. f_equal.
    induction (num_dims v); simpl; [reflexivity|]. now rewrite Rmult_0_r, <- IHn.
  - destruct H as [-> ->]. destruct (Two _ _ eq_refl) as (x & y & ->). specialize (Hc ltac:(discriminate)). unfold vec_real.
    cbn [scalar_result g_value factor map combine fst snd]. fold c. rewrite !comps_scale.
    rewrite (zip_scale c Rmin c c) by (intros; now apply Rmin_scale). reflexivity.
  - destruct H as [-> ->]. destruct (Two _ _ eq_refl) as (x & y & ->). specialize (Hc ltac:(discriminate)). unfold vec_real.
    cbn [scalar_result g_value factor map combine fst snd]. fold c. rewrite !comps_scale.
    rewrite (zip_scale c Rmax c c) by (intros; now apply Rmax_scale). reflexivity.
  - destruct H as [-> ->]. destruct (One _ eq_refl) as (x & ->). specialize (Hc ltac:(discriminate)). unfold vec_real.
    cbn [scalar_result g_value factor map combine fst snd]. fold c. rewrite !comps_scale, length_scale by auto. reflexivity.
  - destruct H as [-> ->]. destruct (Two _ _ eq_refl) as (x & y & ->). specialize (Hc ltac:(discriminate)). unfold vec_real.
    cbn [scalar_result g_value factor map combine fst snd]. fold c. rewrite !comps_scale. unfold g_distance.
    rewrite (zip_scale c Rminus c c) by (intros; ring). rewrite length_scale by auto. reflexivity.
  - destruct H as (-> & d' & E & ->). destruct (Two _ _ eq_refl) as (x & y & ->). specialize (Hc ltac:(discriminate)).
    specialize (Hd ltac:(discriminate)). unfold vec_real.
    cbn [scalar_result g_value factor map combine fst snd]. fold c. rewrite !comps_scale. unfold g_distance_squared. cbv zeta.
    rewrite (zip_scale c Rminus c c) by (intros; ring). rewrite dot_scale.
    destruct (rescale_mul k fields lambda N d 2 d' Hd E) as [_ ->]. simpl. do 2 f_equal. unfold c. ring.
  - destruct H as (-> & d' & E & ->). destruct (One _ eq_refl) as (x & ->). specialize (Hc ltac:(discriminate)). unfold vec_real.
    cbn [scalar_result g_value factor map combine fst snd]. fold c. rewrite !comps_scale. rewrite length_scale by auto.
    destruct (rescale_none k fields lambda N d' E) as [_ ->].
    set (l := g_length Rplus Rmult sqrt 0 (comps x)).
    rewrite (dec_iff (Req_EM_T (c * l) 0) (Req_EM_T l 0)).
    2:{ split; [intros E0; apply Rmult_integral in E0; lra|intros ->; ring]. }
    unfold dec. destruct (Req_EM_T l 0); [reflexivity|]. unfold g_normalize. rewrite length_scale by auto. fold l.
    cbv zeta. rewrite map_map. cbn [option_map]. rewrite scale_one. do 2 f_equal. apply map_ext. intros a. field. split; [auto|lra].
  - destruct H as (dr & d' & -> & E & ->). destruct (Two _ _ eq_refl) as (x & y & ->). specialize (Hc ltac:(discriminate)).
    specialize (Hd ltac:(discriminate)). inversion TS as [|? ? _ TS2]; subst. inversion TS2 as [|? ? Hr _]; subst.
    unfold vec_real.
    cbn [scalar_result g_value factor map combine fst snd]. fold c. rewrite !comps_scale, dot_scale.
    destruct (rescale_add k fields lambda N d dr d' Hd Hr E) as [_ ->]. reflexivity.
Qed.

Context (units constants : list (dimval X)) (functions : float_fn -> R -> option R) (factors cvals : list R).
Context (HU : Forall is_dimension units) (HC : Forall is_dimension constants).
Notation F' := (scale_table k lambda units factors).
Notation C' := (scale_table k lambda constants cvals).
Notation run := (eval functions factors cvals).
Notation run' := (eval functions F' C').
Notation run_all := (eval_all functions factors cvals).
Notation run_all' := (eval_all functions F' C').
Notation scale_all := (scale_all k lambda).
Notation typed := (typed k fields ft math units constants true).
Notation typed_all := (typed_all k fields ft math units constants true).
Notation typed_each := (typed_each k fields ft math units constants true).

Lemma scale_table_nth ds xs i d : nth_error ds i = Some d ->
  nth_error (scale_table k lambda ds xs) i = option_map (Rmult (rescale d)) (nth_error xs i).
Proof.
  unfold scale_table. revert xs i. induction ds as [|d0 ds IH]; intros xs i H; [destruct i; discriminate|].
  destruct xs as [|x xs]; [destruct i; reflexivity|]. destruct i; cbn in H |- *; [|now apply IH].
  now injection H as <-.
Qed.
Lemma scale_all_nth G rho i t : nth_error G i = Some t ->
  nth_error (scale_all G rho) i = option_map (scale_val t) (nth_error rho i).
Proof.
  revert rho i. induction G as [|t0 G IH]; intros rho i H; [destruct i; discriminate|].
  destruct rho as [|v rho]; [destruct i; reflexivity|]. destruct i; cbn in H |- *; [|now apply IH].
  now injection H as <-.
Qed.
Lemma nth_dim ds i (d : dimval X) : Forall is_dimension ds -> nth_error ds i = Some d -> is_dimension d.
Proof. intros H E. apply nth_error_In in E. rewrite Forall_forall in H. auto. Qed.

Lemma unit_scale u d : unit_typed k fields units u d ->
  is_dimension d /\ factor_of F' u = option_map (Rmult (rescale d)) (factor_of factors u).
Proof.
  intros H. destruct H as [i d E|i j d1 d2 d E1 E2 E|i j d1 d2 d E1 E2 E]; unfold factor_of.
  - split; [exact (nth_dim units i d HU E)|]. now apply scale_table_nth.
  - destruct (rescale_add k fields lambda N d1 d2 d (nth_dim units i d1 HU E1) (nth_dim units j d2 HU E2) E) as [D S]. split; auto.
    rewrite (scale_table_nth _ _ _ _ E1), (scale_table_nth _ _ _ _ E2), S.
    destruct (nth_error factors i); [|reflexivity]. destruct (nth_error factors j); [|reflexivity].
    simpl. f_equal. ring.
  - destruct (rescale_sub k fields lambda N d1 d2 d (nth_dim units i d1 HU E1) (nth_dim units j d2 HU E2) E) as [D S]. split; auto.
    rewrite (scale_table_nth _ _ _ _ E1), (scale_table_nth _ _ _ _ E2), S.
    destruct (nth_error factors i) as [x|]; [|reflexivity]. destruct (nth_error factors j) as [y|]; [|reflexivity].
    cbn [option_map].
    assert (P := rescale_pos k fields lambda d2 (nth_dim units j d2 HU E2)).
    assert (A := arith_div TDiv (rescale d1) (rescale d2) (Sc x) (Sc y) ltac:(cbn; auto) ltac:(lra)).
    cbn [scale_num arith] in A. destruct (arith1 TDiv (rescale d1 * x) (rescale d2 * y)), (arith1 TDiv x y);
      simpl in A |- *; congruence.
Qed.

Lemma get_num_scale b v : get_num (scale_val (T b) v) = option_map (scale_num (factor b)) (get_num v).
Proof. destruct v; [rewrite scale_val_num; reflexivity|]. destruct b; reflexivity. Qed.

Lemma eval_Sum F C rho s d items : eval (k := k) functions F C rho (Sum s d items) =
  let? vs := eval_all functions F C rho items in let? xs := mapM get_num vs in
  option_map VNum (sum_nums (zero_of s) xs).
Proof. reflexivity. Qed.
Lemma eval_CallVec F C rho ty o args : eval (k := k) functions F C rho (CallVec ty o args) =
  let? vs := eval_all functions F C rho args in let? xs := mapM get_num vs in option_map VNum (vec_real ty o xs).
Proof. reflexivity. Qed.
Lemma eval_all_Cons F C rho a rest : eval_all (k := k) functions F C rho (Cons a rest) =
  let? v := eval functions F C rho a in let? vs := eval_all functions F C rho rest in Some (v :: vs).
Proof. reflexivity. Qed.

(** A unit applied to a value of factor [c]. *)
Lemma with_unit_mul b d b' v u : unit_typed k fields units u d -> factor b' = factor b * rescale d ->
  with_unit F' TMul (scale_val (T b) v) u = option_map (scale_val (T b')) (with_unit factors TMul v u).
Proof.
  intros H E. destruct (unit_scale u d H) as [_ S]. unfold with_unit. rewrite get_num_scale, S.
  destruct (get_num v) as [a|]; [|reflexivity]. destruct (factor_of factors u) as [f|]; [|reflexivity].
  cbn [option_map]. change (Sc (rescale d * f)) with (scale_num (rescale d) (Sc f)).
  rewrite arith_mul by (cbn; auto). rewrite <- E.
  destruct (arith TMul a (Sc f)); [|reflexivity]. cbn [option_map]. now rewrite scale_val_num.
Qed.
Lemma with_unit_div b d b' v u : unit_typed k fields units u d -> factor b' = factor b / rescale d ->
  with_unit F' TDiv (scale_val (T b) v) u = option_map (scale_val (T b')) (with_unit factors TDiv v u).
Proof.
  intros H E. destruct (unit_scale u d H) as [D S]. unfold with_unit. rewrite get_num_scale, S.
  destruct (get_num v) as [a|]; [|reflexivity]. destruct (factor_of factors u) as [f|]; [|reflexivity].
  cbn [option_map]. change (Sc (rescale d * f)) with (scale_num (rescale d) (Sc f)).
  apply rescale_pos with (lambda := lambda) in D.
  rewrite arith_div by (cbn; auto; lra). rewrite <- E.
  destruct (arith TDiv a (Sc f)); [|reflexivity]. cbn [option_map]. now rewrite scale_val_num.
Qed.
Lemma unit_with_div b d b' v u : unit_typed k fields units u d -> type_ok (T b) -> factor b' = rescale d / factor b ->
  unit_with F' TDiv u (scale_val (T b) v) = option_map (scale_val (T b')) (unit_with factors TDiv u v).
Proof.
  intros H B E. destruct (unit_scale u d H) as [D S]. unfold unit_with. rewrite get_num_scale, S.
  destruct (get_num v) as [a|]; [|reflexivity]. destruct (factor_of factors u) as [f|]; [|reflexivity].
  cbn [option_map]. change (Sc (rescale d * f)) with (scale_num (rescale d) (Sc f)).
  apply factor_pos in B.
  rewrite arith_div by (cbn; auto; lra). rewrite <- E.
  destruct (arith TDiv (Sc f) a); [|reflexivity]. cbn [option_map]. now rewrite scale_val_num.
Qed.

(** An operator of the table: how the factors of the operands and of the result are related. *)
Lemma std_ok : storages_ok std_raw_op std_raw_copy (storage_types ft).
Proof.
  intros c _. split; [reflexivity|]. split.
  - intros op H. destruct c as [[]|[]], op; try discriminate H; reflexivity.
  - intros op H. destruct c as [[]|[]], op; simpl in H; try (intuition discriminate).
Qed.
Lemma none_factor d : dim_none X fields = Some d -> rescale d = 1.
Proof. intros H. now apply (rescale_none k fields lambda N d). Qed.
Lemma bin_scale op b1 b2 s d a b : type_ok (T b1) -> type_ok (T b2) ->
  compiles X fields std_raw_op std_raw_copy ft op (Value, b1) (Value, b2) (Some (s, d)) ->
  is_dimension d /\
  arith op (scale_num (factor b1) a) (scale_num (factor b2) b) = option_map (scale_num (rescale d)) (arith op a b).
Proof.
  intros T1 T2 H. apply (compiles_iff_spec _ _ _ _ _ _ _ _ _ std_ok) in H. unfold spec in H.
  assert (P1 := factor_pos _ T1). assert (P2 := factor_pos _ T2).
  destruct b1 as [s1 d1|s1], b2 as [s2 d2|s2]; try contradiction H; cbn [factor Programs.type_ok] in *.
  - destruct H as (o & _ & H). destruct op.
    1,2: destruct H as (_ & _ & -> & E); injection E as _ ->; split; auto; apply arith_add; cbn; auto.
    + destruct H as (_ & _ & d' & E & E'). injection E' as _ ->.
      destruct (rescale_add k fields lambda N d1 d2 d' T1 T2 E) as [D ->]. split; auto. apply arith_mul; cbn; auto.
    + destruct H as (_ & _ & d' & E & E'). injection E' as _ ->.
      destruct (rescale_sub k fields lambda N d1 d2 d' T1 T2 E) as [D ->]. split; auto. apply arith_div; cbn; auto. lra.
    + destruct H as (_ & _ & _ & E); discriminate E.
    + destruct H as (_ & _ & _ & E); discriminate E.
    + destruct H as (_ & _ & _ & E); discriminate E.
    + destruct H as (_ & _ & _ & E); discriminate E.
    + destruct H as (_ & _ & _ & _ & E); discriminate E.
    + destruct H as (_ & _ & _ & _ & E); discriminate E.
  - destruct H as (o & _ & H). destruct op.
    1,2: destruct H as (_ & _ & _ & Dl & E); injection E as _ ->; split; auto; rewrite (none_factor _ Dl);
      apply arith_add; cbn; auto.
    + destruct H as (_ & _ & _ & E). injection E as _ ->. split; auto.
      rewrite <- (Rmult_1_r (rescale d1)) at 2. apply arith_mul; cbn; auto.
    + destruct H as (_ & _ & _ & E). injection E as _ ->. split; auto.
      rewrite (arith_div TDiv _ 1) by (cbn; auto; lra). f_equal. f_equal. field.
    + destruct H as (_ & _ & _ & _ & E); discriminate E.
    + destruct H as (_ & _ & _ & _ & E); discriminate E.
    + destruct H as (_ & _ & _ & _ & E); discriminate E.
    + destruct H as (_ & _ & _ & _ & E); discriminate E.
    + destruct H as (_ & _ & _ & _ & E); discriminate E.
    + destruct H as (_ & _ & _ & _ & E); discriminate E.
  - destruct H as (o & _ & _ & H). destruct op.
    1,2: destruct H as (_ & _ & _ & Dl & E); injection E as _ ->; split; auto; rewrite (none_factor _ Dl);
      apply arith_add; cbn; auto.
    + destruct H as (_ & _ & E). injection E as _ ->. split; auto.
      rewrite <- (Rmult_1_l (rescale d2)) at 2. apply arith_mul; cbn; auto.
    + destruct H as (_ & _ & d' & E & E'). injection E' as _ ->.
      destruct (rescale_neg k fields lambda N d2 d' T2 E) as [D ->]. split; auto.
      rewrite (arith_div TDiv 1) by (cbn; auto; lra). f_equal. f_equal. field. lra.
    + destruct H as (_ & _ & _ & _ & E); discriminate E.
    + destruct H as (_ & _ & _ & _ & E); discriminate E.
    + destruct H as (_ & _ & _ & _ & E); discriminate E.
    + destruct H as (_ & _ & _ & _ & E); discriminate E.
    + destruct H as (_ & _ & _ & E); discriminate E.
    + destruct H as (_ & _ & _ & E); discriminate E.
Qed.
Lemma assign_scale op b1 b2 a b : type_ok (T b1) -> type_ok (T b2) ->
  In op [TAddAssign; TSubAssign; TMulAssign; TDivAssign] ->
  compiles X fields std_raw_op std_raw_copy ft op (Value, b1) (Value, b2) None ->
  arith op (scale_num (factor b1) a) (scale_num (factor b2) b) = option_map (scale_num (factor b1)) (arith op a b).
Proof.
  intros T1 T2 I H. apply (compiles_iff_spec _ _ _ _ _ _ _ _ _ std_ok) in H. unfold spec in H.
  assert (P1 := factor_pos _ T1). assert (P2 := factor_pos _ T2).
  assert (Mul : forall c, arith TMulAssign (scale_num c a) (scale_num 1 b) = option_map (scale_num c) (arith TMulAssign a b)).
  { intros c. rewrite <- (Rmult_1_r c) at 2. apply arith_mul; cbn; auto. }
  assert (Div : forall c, arith TDivAssign (scale_num c a) (scale_num 1 b) = option_map (scale_num c) (arith TDivAssign a b)).
  { intros c. rewrite (arith_div TDivAssign _ 1) by (cbn; auto; lra). f_equal. f_equal. field. }
  cbn in I. destruct I as [<- |[<- |[<- |[<- |[]]]]];
  destruct b1 as [s1 d1|s1], b2 as [s2 d2|s2]; try contradiction H; cbn [factor Programs.type_ok] in *.
  - destruct H as (o & _ & _ & _ & -> & _). apply arith_add; cbn; auto.
  - destruct H as (o & _ & _ & _ & _ & D & _). rewrite (none_factor _ D). apply arith_add; cbn; auto.
  - destruct H as (o & _ & _ & _ & _ & _ & D & _). rewrite (none_factor _ D). apply arith_add; cbn; auto.
  - destruct H as (o & _ & _ & _ & -> & _). apply arith_add; cbn; auto.
  - destruct H as (o & _ & _ & _ & _ & D & _). rewrite (none_factor _ D). apply arith_add; cbn; auto.
  - destruct H as (o & _ & _ & _ & _ & _ & D & _). rewrite (none_factor _ D). apply arith_add; cbn; auto.
  - destruct H as (o & _ & _ & _ & D & _). rewrite (none_factor _ D). apply Mul.
  - apply Mul.
  - destruct H as (o & _ & _ & _ & _ & _ & D & _). rewrite (none_factor _ D). apply Mul.
  - destruct H as (o & _ & _ & _ & D & _). rewrite (none_factor _ D). apply Div.
  - apply Div.
  - destruct H as (o & _ & _ & _ & _ & _ & D & _). rewrite (none_factor _ D). apply Div.
Qed.
Lemma compares_factor r b1 b2 :
  compares X fields std_raw_op std_raw_copy ft (trait_of r) (Value, b1) (Value, b2) -> factor b1 = factor b2.
Proof.
  intros [H|[E _]]; [|discriminate E].
  apply (compiles_iff_spec _ _ _ _ _ _ _ _ _ std_ok) in H. unfold spec in H.
  destruct r; cbn [trait_of] in H;
  destruct b1 as [s1 d1|s1], b2 as [s2 d2|s2]; try contradiction H; cbn [factor] in *;
  try (destruct H as (o & _ & _ & _ & _ & -> & _); reflexivity);
  try (destruct H as (o & _ & _ & _ & _ & D & _); apply (none_factor _ D));
  try (destruct H as (o & _ & _ & _ & _ & D & _); symmetry; apply (none_factor _ D)).
Qed.

(** Methods. *)
Lemma on_scalar_scale g c e a : (forall x, g (c * x) = option_map (Rmult e) (g x)) ->
  on_scalar g (scale_num c a) = option_map (fun v => match v with VNum x => VNum (scale_num e x) | v => v end) (on_scalar g a).
Proof. intros H. destruct a; simpl; [|reflexivity]. rewrite H. destruct (g x); reflexivity. Qed.
Lemma map_abs_scale c xs : 0 < c -> map Rabs (map (Rmult c) xs) = map (Rmult c) (map Rabs xs).
Proof. intros H. rewrite !map_map. apply map_ext. intros. rewrite Rabs_mult, (Rabs_pos_eq c); lra. Qed.
Lemma call_quantity_scale m s d s' d' a : is_dimension d ->
  method_ok X fields ft math m (Known s) d (ResQ s' d') ->
  is_dimension d' /\
  method_real functions m (scale_num (rescale d) a) =
  option_map (scale_val (T (TyQ s' d'))) (method_real functions m a).
Proof.
  intros D H. assert (P := rescale_pos k fields lambda d D).
  destruct m; cbn [method_ok] in H; cbn [method_real].
  1-3: destruct H as [_ E]; discriminate E.
  1-2: discriminate H.
  - destruct H as (_ & _ & E & E'). injection E' as _ ->. split; auto.
    rewrite (none_factor _ E), scale_one. destruct a as [x|]; [|reflexivity]. simpl.
    destruct (functions f x); [|reflexivity]. simpl. now rewrite (none_factor _ E), Rmult_1_l.
  - destruct H as (_ & d2 & E & E'). injection E' as _ ->.
    destruct (rescale_mul k fields lambda N d _ d2 D E) as [D2 S]. split; auto. 
    apply (on_scalar_scale _ (rescale d) (rescale d2)). intros x. rewrite S. now apply power_int_scale.
  - destruct H as (_ & d2 & E & E'). injection E' as _ ->.
    destruct (rescale_mul k fields lambda N d _ d2 D E) as [D2 S]. split; auto. 
    apply (on_scalar_scale _ (rescale d) (rescale d2)). intros x. rewrite S. now apply power_int_scale.
  - destruct H as (_ & _ & d2 & E & E'). injection E' as _ ->.
    destruct (rescale_mul k fields lambda N d _ d2 D E) as [D2 S]. split; auto. 
    apply (on_scalar_scale _ (rescale d) (rescale d2)). intros x. rewrite S. now apply power_int_scale.
  - destruct H as (_ & _ & d2 & E & E'). injection E' as _ ->.
    destruct (rescale_div2 k fields lambda N d d2 D E) as [D2 S]. split; auto. 
    apply (on_scalar_scale _ (rescale d) (rescale d2)). intros x. rewrite S. now apply sqrt_scale.
  - destruct H as (_ & _ & d2 & E & E'). injection E' as _ ->.
    destruct (rescale_div3 k fields lambda N d d2 D E) as [D2 S]. split; auto. 
    apply (on_scalar_scale _ (rescale d) (rescale d2)). intros x. rewrite S. simpl. now rewrite cube_root_scale.
  - destruct H as (_ & E'). injection E' as _ ->. split; auto. simpl.
    apply on_scalar_scale. intros x. simpl. now rewrite Rmult_0_r.
  - destruct H as (_ & E'); discriminate E'.
  - destruct H as (_ & E'); discriminate E'.
  - destruct H as (_ & E'); discriminate E'.
  - destruct H as (_ & E'); discriminate E'.
  - destruct H as (_ & E'); discriminate E'.
  - destruct H as (_ & E'). injection E' as _ ->. split; auto. destruct a; simpl.
    + rewrite Rabs_mult, (Rabs_pos_eq (rescale d)); [reflexivity|lra].
    + now rewrite map_abs_scale.
Qed.
Lemma call_number_scale m s d s' a :
  method_ok X fields ft math m (Known s) d (ResRaw s') -> m <> MValueUnchecked -> m <> MValueUncheckedRef ->
  method_real functions m (scale_num (rescale d) a) = method_real functions m a.
Proof.
  intros H N1 N2. destruct m; cbn [method_ok] in H; try congruence;
    try (destruct H as [E _]; now rewrite (none_factor _ E), scale_one);
    repeat match goal with H : _ /\ _ |- _ => destruct H | H : exists _, _ |- _ => destruct H end; discriminate.
Qed.
Lemma call_test_scale m s d a : is_dimension d ->
  method_ok X fields ft math m (Known s) d ResBool ->
  method_real functions m (scale_num (rescale d) a) = method_real functions m a.
Proof.
  intros D H. assert (P := rescale_pos k fields lambda d D).
  destruct m; cbn [method_ok] in H;
    repeat match goal with H : _ /\ _ |- _ => destruct H | H : exists _, _ |- _ => destruct H end; try discriminate;
    destruct a; simpl; try reflexivity; do 2 f_equal; apply dec_iff; nra.
Qed.
Lemma call2_scale m x a b c : 0 < c ->
  arg_method_real m (scale_num c x) (scale_num c a) (scale_num c b) =
  option_map (fun v => match v with VNum x => VNum (scale_num c x) | v => v end) (arg_method_real m x a b).
Proof.
  intros P. destruct m, x, a, b; simpl; try reflexivity; try (now rewrite ?Rmin_scale, ?Rmax_scale).
  destruct (Rle_dec (c * x0) (c * x1)), (Rle_dec x0 x1); try (exfalso; nra); [|reflexivity].
  simpl. now rewrite Rmax_scale, Rmin_scale.
Qed.

Lemma mapM_get_num_all b vs :
  mapM get_num (map (scale_val (T b)) vs) = option_map (map (scale_num (factor b))) (mapM get_num vs).
Proof.
  induction vs; cbn [map mapM]; [reflexivity|]. rewrite get_num_scale, IHvs.
  destruct (get_num a); [|reflexivity]. destruct (mapM get_num vs); reflexivity.
Qed.
Lemma mapM_get_num_each bs vs : length vs = length bs ->
  mapM get_num (map (fun p => scale_val (T (fst p)) (snd p)) (combine bs vs)) =
  option_map (fun xs => map (fun p => scale_num (factor (fst p)) (snd p)) (combine bs xs)) (mapM get_num vs).
Proof.
  revert bs. induction vs; destruct bs; intros L; try discriminate L; [reflexivity|].
  cbn [combine map mapM fst snd]. rewrite get_num_scale, IHvs by (now injection L).
  destruct (get_num a); [|reflexivity]. destruct (mapM get_num vs); reflexivity.
Qed.
Lemma mapM_length {A B} (f : A -> option B) l r : mapM f l = Some r -> length r = length l.
Proof.
  revert r. induction l; simpl; intros r H; [injection H as <-; reflexivity|].
  destruct (f a); [|discriminate]. destruct (mapM f l); [|discriminate]. injection H as <-. simpl. f_equal. auto.
Qed.

Ltac run1 rho :=
  match goal with
  | IH : forall rho, run' (scale_all ?G rho) ?p = _ |- context [run' (scale_all ?G rho) ?p] =>
      rewrite (IH rho); destruct (run rho p) as [?v|]; [cbn [option_map]|reflexivity]
  end.

Theorem equivariance : forall G,
  (forall p t, typed G p t -> Forall type_ok G ->
     type_ok t /\ forall rho, run' (scale_all G rho) p = option_map (scale_val t) (run rho p)) /\
  (forall ps t, typed_all G ps t -> Forall type_ok G ->
     forall rho, run_all' (scale_all G rho) ps = option_map (map (scale_val t)) (run_all rho ps)) /\
  (forall ps bs, typed_each G ps bs -> Forall type_ok G ->
     Forall (fun b => type_ok (T b)) bs /\
     forall rho, run_all' (scale_all G rho) ps =
       option_map (fun vs => map (fun p => scale_val (T (fst p)) (snd p)) (combine bs vs)) (run_all rho ps) /\
       forall vs, run_all rho ps = Some vs -> length vs = length bs).
Proof.
  apply (typed_mutind k fields ft math units constants true
    (fun G p t => Forall type_ok G ->
       type_ok t /\ forall rho, run' (scale_all G rho) p = option_map (scale_val t) (run rho p))
    (fun G ps t => Forall type_ok G ->
       forall rho, run_all' (scale_all G rho) ps = option_map (map (scale_val t)) (run_all rho ps))
    (fun G ps bs => Forall type_ok G ->
       Forall (fun b => type_ok (T b)) bs /\
       forall rho, run_all' (scale_all G rho) ps =
         option_map (fun vs => map (fun p => scale_val (T (fst p)) (snd p)) (combine bs vs)) (run_all rho ps) /\
         forall vs, run_all rho ps = Some vs -> length vs = length bs)).
  - intros G i t H W. split; [rewrite Forall_forall in W; apply nth_error_In in H; auto|].
    intros rho. now apply scale_all_nth.
  - intros G s a W. split; [exact I|]. reflexivity.
  - intros G a s b _ IH (d & E & ->) W. destruct (IH W) as [_ IHa]. clear IH.
    destruct (rescale_none k fields lambda N d E) as [D S]. split; [exact D|]. intros rho. cbn [eval].
    rewrite IHa. destruct (run rho a) as [v|]; [|reflexivity]. simpl. destruct v; [|reflexivity].
    now rewrite S, scale_one.
  - intros G s d D W. split; [exact D|]. intros rho. cbn [eval option_map]. simpl. now rewrite zero_scale.
  - intros G u d a f Hu _ IH W. destruct (IH W) as [_ IHa]. destruct (unit_scale u d Hu) as [D _]. split; [exact D|].
    intros rho. cbn [eval]. run1 rho. apply (with_unit_mul (TyS (Known (Float f))) d); auto. simpl. ring.
  - intros G u d a s Hu _ IH W. destruct (IH W) as [_ IHa]. destruct (unit_scale u d Hu) as [D _]. split; [exact D|].
    intros rho. cbn [eval]. run1 rho. apply (with_unit_mul (TyS (Known s)) d); auto. simpl. ring.
  - intros G u d a s E. discriminate E.
  - intros G u d a s Hu _ IH W. destruct (IH W) as [_ IHa]. destruct (unit_scale u d Hu) as [D _]. split; [exact D|].
    intros rho. cbn [eval]. run1 rho. apply (unit_with_div (TyS (Known s)) d); [auto|exact I|]. simpl. field.
  - intros G u d a f d1 d2 Hu _ IH E W. destruct (IH W) as [T1 IHa]. destruct (unit_scale u d Hu) as [D _].
    destruct (rescale_add k fields lambda N d1 d d2 T1 D E) as [D2 S]. split; [exact D2|].
    intros rho. cbn [eval]. run1 rho. apply (with_unit_mul (TyQ (Known (Float f)) d1) d); auto.
  - intros G u d a f d1 d2 Hu _ IH E W. destruct (IH W) as [T1 IHa]. destruct (unit_scale u d Hu) as [D _].
    destruct (rescale_add k fields lambda N d d1 d2 D T1 E) as [D2 S]. split; [exact D2|].
    intros rho. cbn [eval]. run1 rho. apply (with_unit_mul (TyQ (Known (Float f)) d1) d); auto.
    cbn [factor]. rewrite S. ring.
  - intros G u d a f d1 d2 Hu _ IH E W. destruct (IH W) as [T1 IHa]. destruct (unit_scale u d Hu) as [D _].
    destruct (rescale_sub k fields lambda N d1 d d2 T1 D E) as [D2 S]. split; [exact D2|].
    intros rho. cbn [eval]. run1 rho. apply (with_unit_div (TyQ (Known (Float f)) d1) d); auto.
  - intros G u d a f d1 d2 E. discriminate E.
  - intros G u d a f d1 Hu _ IH E W. destruct (IH W) as [T1 IHa]. destruct (unit_scale u d Hu) as [D _].
    specialize (E eq_refl). subst d1. split; [exact I|].
    intros rho. cbn [eval]. run1 rho.
    apply (with_unit_div (TyQ (Known (Float f)) d) d (TyS (Known (Float f)))); auto.
    simpl. apply rescale_pos with (lambda := lambda) in D. field. lra.
  - intros G c d f E W. split; [exact (nth_dim constants c d HC E)|]. intros rho. cbn [eval].
    rewrite (scale_table_nth _ _ _ _ E). destruct (nth_error cvals c); reflexivity.
  - intros G op a b b1 b2 s d _ IHa _ IHb H W. destruct (IHa W) as [T1 Ia], (IHb W) as [T2 Ib].
    split; [apply (bin_scale op b1 b2 s d (Sc 0) (Sc 0)); auto|]. intros rho. cbn [eval]. run1 rho. run1 rho.
    rewrite !get_num_scale. destruct (get_num v) as [x|]; [|reflexivity]. destruct (get_num v0) as [y|]; [|reflexivity].
    cbn [option_map]. destruct (bin_scale op b1 b2 s d x y) as [_ ->]; auto.
    destruct (arith op x y); reflexivity.
  - intros G op a b b1 b2 HI _ IHa _ IHb H W. destruct (IHa W) as [T1 Ia], (IHb W) as [T2 Ib].
    split; [exact T1|]. intros rho. cbn [eval]. run1 rho. run1 rho.
    rewrite !get_num_scale. destruct (get_num v) as [x|]; [|reflexivity]. destruct (get_num v0) as [y|]; [|reflexivity].
    cbn [option_map]. rewrite (assign_scale op b1 b2 x y); auto.
    destruct (arith op x y); [|reflexivity]. cbn [option_map]. now rewrite scale_val_num.
  - intros G a s d _ IH W. destruct (IH W) as [T1 Ia]. split; [exact T1|]. intros rho. cbn [eval]. run1 rho.
    unfold quantity. rewrite get_num_scale. destruct (get_num v) as [x|]; [|reflexivity]. cbn [option_map].
    rewrite scale_val_num. now rewrite neg_scale.
  - intros G items s d D _ IH W. split; [exact D|]. intros rho. rewrite !eval_Sum, (IH W rho).
    destruct (run_all rho items) as [vs|]; [|reflexivity]. cbn [option_map]. unfold quantity.
    rewrite mapM_get_num_all. destruct (mapM get_num vs) as [xs|]; [|reflexivity]. cbn [option_map].
    rewrite <- (zero_scale (factor (TyQ (Known s) d)) s) at 1. rewrite sum_scale.
    destruct (sum_nums (zero_of s) xs); [|reflexivity]. cbn [option_map]. now rewrite scale_val_num.
  - intros G m a s d s' d' _ IH H W. destruct (IH W) as [T1 Ia].
    split; [apply (call_quantity_scale m s d s' d' (Sc 0) T1 H)|]. intros rho. cbn [eval]. run1 rho.
    unfold quantity. rewrite get_num_scale. destruct (get_num v) as [x|]; [|reflexivity]. cbn [option_map factor].
    now apply (call_quantity_scale m s d s' d' x T1 H).
  - intros G m a s d s' _ IH H NE W. destruct (IH W) as [T1 Ia]. destruct (NE eq_refl) as [N1 N2].
    split; [exact I|]. intros rho. cbn [eval]. run1 rho.
    unfold quantity. rewrite get_num_scale. destruct (get_num v) as [x|]; [|reflexivity]. cbn [option_map factor].
    rewrite (call_number_scale m s d s' x H N1 N2). destruct (method_real functions m x) as [[]|]; reflexivity.
  - intros G m a s d _ IH H W. destruct (IH W) as [T1 Ia].
    split; [exact I|]. intros rho. cbn [eval]. run1 rho.
    unfold quantity. rewrite get_num_scale. destruct (get_num v) as [x|]; [|reflexivity]. cbn [option_map factor].
    rewrite (call_test_scale m s d x T1 H). destruct (method_real functions m x) as [[]|]; reflexivity.
  - intros G m a b c s d q0 s' d' _ IHa _ IHb _ IHc (_ & IQ & E) W. injection E as -> ->.
    destruct (IHa W) as [T1 Ia], (IHb W) as [_ Ib], (IHc W) as [_ Ic]. split; [exact T1|].
    assert (FQ : factor q0 = rescale d).
    { destruct IQ as [-> |(src & -> & n & E1 & E2)]; [reflexivity|]. injection E2 as _ ->. simpl. symmetry. now apply none_factor. }
    intros rho. cbn [eval]. run1 rho. run1 rho. run1 rho.
    unfold quantity. rewrite !get_num_scale, FQ.
    destruct (get_num v) as [x|]; [|reflexivity]. destruct (get_num v0) as [y|]; [|reflexivity].
    destruct (get_num v1) as [z|]; [|reflexivity]. cbn [option_map factor].
    rewrite call2_scale by (now apply rescale_pos with (fields := fields)).
    destruct (arg_method_real m x y z) as [[]|]; reflexivity.
  - intros G v o args ts r _ IH H TR W. destruct (IH W) as [TS Ia]. split; [exact TR|]. intros rho. rewrite !eval_CallVec.
    destruct (Ia rho) as [-> L]. destruct (run_all rho args) as [vs|]; [|reflexivity]. specialize (L vs eq_refl).
    cbn [option_map]. rewrite mapM_get_num_each by auto.
    destruct (mapM get_num vs) as [xs|] eqn:EX; [|reflexivity]. cbn [option_map].
    apply mapM_length in EX. rewrite (vec_scale v o ts r xs H TS TR) by congruence.
    destruct (vec_real v o xs); [|reflexivity]. cbn [option_map]. now rewrite scale_val_num.
  - intros G r a b b1 b2 _ IHa _ IHb H W. destruct (IHa W) as [T1 Ia], (IHb W) as [T2 Ib].
    split; [exact I|]. intros rho. cbn [eval]. run1 rho. run1 rho. rewrite !get_num_scale.
    destruct (get_num v) as [x|]; [|reflexivity]. destruct (get_num v0) as [y|]; [|reflexivity]. cbn [option_map].
    rewrite (compares_factor r b1 b2 H), compare_scale by now apply factor_pos.
    destruct (compare_num r x y); reflexivity.
  - intros G c a b t _ IHc _ IHa _ IHb W. destruct (IHc W) as [_ Ic], (IHa W) as [T1 Ia], (IHb W) as [_ Ib].
    split; [exact T1|]. intros rho. cbn [eval]. run1 rho. destruct v as [|[]]; simpl; auto.
  - intros G a b t t' _ IHa _ IHb W. destruct (IHa W) as [T1 Ia].
    destruct (IHb (Forall_cons _ T1 W)) as [T2 Ib]. split; [exact T2|].
    intros rho. cbn [eval]. run1 rho. apply (Ib (v :: rho)).
  - intros G n a b t _ IHa _ IHb W. destruct (IHa W) as [T1 Ia].
    destruct (IHb (Forall_cons _ T1 W)) as [_ Ib]. split; [exact T1|].
    intros rho.
    assert (IT : forall F C r m, eval functions F C r (Repeat m a b) =
      match m with O => eval functions F C r a
      | S m => let? v := eval functions F C r (Repeat m a b) in eval functions F C (v :: r) b end) by (intros ? ? ? []; reflexivity).
    induction n; rewrite (IT F' C'), (IT factors cvals); [apply Ia|]. rewrite IHn.
    destruct (run rho (Repeat n a b)) as [v|]; [|reflexivity]. cbn [option_map]. apply (Ib (v :: rho)).
  - intros G t W rho. reflexivity.
  - intros G a rest t _ IHa _ IHr W rho. destruct (IHa W) as [_ Ia]. rewrite !eval_all_Cons, Ia.
    destruct (run rho a); [|reflexivity]. cbn [option_map]. rewrite (IHr W rho).
    destruct (run_all rho rest); reflexivity.
  - intros G W. split; [constructor|]. intros rho. split; [reflexivity|]. intros vs E. now injection E as <-.
  - intros G a rest b bs _ IHa _ IHr W. destruct (IHa W) as [T1 Ia], (IHr W) as [TS Ir].
    split; [now constructor|]. intros rho. rewrite !eval_all_Cons, Ia. destruct (Ir rho) as [-> L].
    destruct (run rho a) as [v|]; cbn [option_map]; [|split; [reflexivity|discriminate]].
    destruct (run_all rho rest) as [vs|]; cbn [option_map]; [|split; [reflexivity|discriminate]].
    split; [reflexivity|]. intros vs' E. injection E as <-. simpl. f_equal. now apply L.
Qed.
End Main.
