(** * Properties of the methods on quantities: C15-C18, and the values of roots (C09)

    Vocabulary.  [method_ok ... m s d r]: method [m] can be called on a quantity with raw type [s] and
    dimension [d], and returns [r]: a quantity ([ResQ]), a raw number or a boolean.
    [method_value M m x]: the result on the stored value [x]; [M] is what std or libm provide. *)
From Coq Require Import String List Bool ZArith QArith Qcanon Reals Lia Lra Psatz.
From Flocq Require Import Core IEEE754.Binary IEEE754.Bits.
From Flocq Require IEEE754.BinarySingleNaN.
From Verif Require Import MachineInt Ratio RatioFacts F64 FloatOps DecimalFacts Magnitude MagnitudeFacts NumericFacts
  FloatFacts FloatAccuracy Exponent ExponentFacts SMap Types CodegenDimension CodegenDimensionFacts CodegenLiteral
  Storage Operators Raw UnitOps FloatMethods Setting ExampleSystems PropertiesNumeric PropertiesDimension PropertiesUnits.
Import ListNotations.
Local Close Scope Q_scope.
Local Close Scope Qc_scope.
Local Open Scope list_scope.
Local Open Scope R_scope.

Section Methods.
Context (k : mode) (fields : list string) (N : NoDup fields) (ft : features) (lib : bool).
Notation method_ok := (method_ok (ops k) fields ft lib).
Notation arg_method_ok := (arg_method_ok (ops k) fields ft).
Definition all_zero (v : string -> Qc) : Prop := forall f, In f fields -> v f = ZQc 0.

Lemma none_iff d v : denotes k fields d v -> (dim_none (ops k) fields = Some d <-> all_zero v).
Proof.
  intros D. destruct (none_stands_for (ops k) fields N (laws k)) as (z & Ez & Dz). rewrite Ez.
  unfold all_zero. rewrite <- (C08_identity k fields d z v _ N D Dz). split; congruence.
Qed.

(** ** C15 *)
(** Raw access to the stored value. *)
Theorem C15_raw_access : forall m s d v,
  In m [MValue; MValueRef; MDeref] -> denotes k fields d v ->
  ((exists r, method_ok m s d r) <-> all_zero v) /\
  (forall r, method_ok m s d r -> r = ResRaw s) /\
  (forall M x, method_value M m x = Some (VRaw x)).
Proof.
  intros m s d v I D. rewrite <- (none_iff d v D). simpl in I.
  destruct I as [<-|[<-|[<-|[]]]]; (split; [split; [intros [r [H _]]; exact H|intros H; eexists; split; [exact H|reflexivity]]|]);
    (split; [intros r [_ H]; exact H|reflexivity]).
Qed.

(** exp, ln, sin, ...: exactly on dimensionless floats, with dimensionless results. *)
Theorem C15_functions : forall g s d v,
  denotes k fields d v ->
  ((exists r, method_ok (MFn g) s d r) <-> lib = true /\ is_float ft s /\ all_zero v) /\
  (forall r, method_ok (MFn g) s d r -> r = ResQ s d) /\
  (forall M x, method_value M (MFn g) (RF64 x) = Some (VQ (RF64 (m_fn (math64 M) g x)))) /\
  (forall M x, method_value M (MFn g) (RF32 x) = Some (VQ (RF32 (m_fn (math32 M) g x)))).
Proof.
  intros g s d v D. rewrite <- (none_iff d v D). split; [split|].
  - intros (r & H1 & H2 & H3 & _). auto.
  - intros (H1 & H2 & H3). eexists. repeat split; eauto.
  - split; [intros r (_ & _ & _ & H); exact H|]. split; reflexivity.
Qed.

(** ** C16 *)
Definition power (m : method) : option Z :=
  match m with MSquared => Some 2%Z | MCubed => Some 3%Z | MPowi i => Some i | _ => None end.
Theorem C16_dimension : forall m i s d v r,
  power m = Some i -> denotes k fields d v -> method_ok m s d r ->
  exists d', r = ResQ s d' /\ denotes k fields d' (fun f => (v f * ZQc i)%Qc).
Proof.
  intros m i s d v r P D H. destruct m; try discriminate P; injection P as <-.
  - destruct H as (_ & d' & E & ->). exists d'. split; [reflexivity|]. eapply dim_mul_spec; eauto.
  - destruct H as (_ & d' & E & ->). exists d'. split; [reflexivity|]. eapply dim_mul_spec; eauto.
  - destruct H as (_ & _ & d' & E & ->). exists d'. split; [reflexivity|]. eapply dim_mul_spec; eauto.
Qed.
(** The call compiles unless the multiple of the dimension overflows. *)
Theorem C16_exists : forall m i s d,
  power m = Some i -> (- 2 ^ 31 <= i < 2 ^ 31)%Z -> is_float ft s ->
  ((exists r, method_ok m s d r) <-> exists d', dmul k fields d i = Some d').
Proof.
  intros m i s d P I F. destruct m; try discriminate P; injection P as <-; split.
  - intros (r & _ & d' & E & _). eauto.
  - intros (d' & E). eexists. split; [exact F|eauto].
  - intros (r & _ & d' & E & _). eauto.
  - intros (d' & E). eexists. split; [exact F|eauto].
  - intros (r & _ & _ & d' & E & _). eauto.
  - intros (d' & E). eexists. split; [exact I|]. split; [exact F|eauto].
Qed.

(** ** C17: types *)
(** The argument of min, max and clamp has the same dimension (a bare number counts as dimensionless)
    and the same raw type; the result is of the receiver's type. *)
Theorem C17_same_dimension : forall m s d v q r,
  denotes k fields d v -> is_float ft s ->
  (arg_method_ok m s d q r <->
     r = ResQ s d /\ (q = TyQ s d \/ (q = TyS s /\ all_zero v))).
Proof.
  intros m s d v q r D F. rewrite <- (none_iff d v D). unfold FloatMethods.arg_method_ok, into_quantity, from_number_compiles.
  split.
  - intros (_ & [-> |(src & -> & n & E & H)] & ->); split; auto. injection H as -> ->. auto.
  - intros (-> & [-> |[-> E]]); split; auto; split; auto. right. exists s. split; [reflexivity|]. eauto.
Qed.
Theorem C17_other_dimension_rejected : forall m s d v s' d' v' r,
  denotes k fields d v -> denotes k fields d' v' ->
  arg_method_ok m s d (TyQ s' d') r -> forall f, In f fields -> v f = v' f.
Proof.
  intros m s d v s' d' v' r D D' (_ & [H|(src & H & _)] & _); [|discriminate].
  injection H as _ ->. now apply (C08_identity k fields d d v v' N D D').
Qed.
Theorem C17_abs_and_tests : forall m s d r,
  (method_ok MAbs s d r <-> is_storage_ty ft s /\ r = ResQ s d) /\
  (In m [MIsPositive; MIsPositiveOrZero; MIsNegative; MIsNegativeOrZero; MIsNan] ->
     (method_ok m s d r <-> is_float ft s /\ r = ResBool)).
Proof.
  intros m s d r. split; [reflexivity|]. simpl. intros [<-|[<-|[<-|[<-|[<-|[]]]]]]; reflexivity.
Qed.
End Methods.
Print Assumptions C15_raw_access.
Print Assumptions C15_functions.
Print Assumptions C16_dimension.
Print Assumptions C16_exists.
Print Assumptions C17_same_dimension.
Print Assumptions C17_other_dimension_rejected.
Print Assumptions C17_abs_and_tests.

(** ** C16: values *)
(** [squared], [cubed] and [powi] raise the stored value to the same power: over std's powi
    (compiler-rt), up to [2 (|i| + 1)] half units in the last place. *)
Theorem C16_accuracy64 : forall M m i x,
  m_powi (math64 M) = powi_rt -> power m = Some i -> (- 2 ^ 31 <= i < 2 ^ 31)%Z ->
  fin64 x -> bpow radix2 (-1021) <= Rabs (v64 x) ^ Z.to_nat (Z.abs i) <= bpow radix2 1021 ->
  exists z, method_value M m (RF64 x) = Some (VQ (RF64 z)) /\ fin64 z /\
    Rabs (v64 z - powerRZ (v64 x) i) <= 2 * (IZR (Z.abs i) + 1) * u64 * Rabs (powerRZ (v64 x) i).
Proof.
  intros M m i x EM P I F B.
  assert (A := gpowi_accurate 53 1024 eq_refl eq_refl ltac:(lia) binop_nan_pl64 binop_nan_pl64 binop_nan_pl64 f64_one x i
    eq_refl ltac:(compute; lra) F).
  cbv zeta in A. destruct A as [A1 A2].
  - apply Rle_trans with (IZR (2 ^ 31) * u64).
    + apply Rmult_le_compat_r; [apply bpow_ge_0|]. apply IZR_le. lia.
    + change (IZR (2 ^ 31)) with (bpow radix2 31). rewrite <- bpow_plus. change (/ 2) with (bpow radix2 (-1)).
      apply bpow_le. lia.
  - exact B.
  - exists (powi_rt x i). rewrite powi_rt_eq. split; [|split; [exact A1|exact A2]].
    destruct m; try discriminate P; injection P as <-; cbn [method_value on_float]; now rewrite EM, powi_rt_eq.
Qed.
Print Assumptions C16_accuracy64.
Theorem C16_accuracy32 : forall M m i x,
  m_powi (math32 M) = powi_rt32 -> power m = Some i -> (Z.abs i <= 2 ^ 23)%Z ->
  fin32 x -> bpow radix2 (-125) <= Rabs (v32 x) ^ Z.to_nat (Z.abs i) <= bpow radix2 125 ->
  exists z, method_value M m (RF32 x) = Some (VQ (RF32 z)) /\ fin32 z /\
    Rabs (v32 z - powerRZ (v32 x) i) <= 2 * (IZR (Z.abs i) + 1) * u32 * Rabs (powerRZ (v32 x) i).
Proof.
  intros M m i x EM P I F B.
  assert (A := gpowi_accurate 24 128 eq_refl eq_refl ltac:(lia) binop_nan_pl32 binop_nan_pl32 binop_nan_pl32 f32_one x i
    eq_refl ltac:(compute; lra) F).
  cbv zeta in A. destruct A as [A1 A2].
  - apply Rle_trans with (IZR (2 ^ 23) * u32).
    + apply Rmult_le_compat_r; [apply bpow_ge_0|]. apply IZR_le. lia.
    + change (IZR (2 ^ 23)) with (bpow radix2 23). rewrite <- bpow_plus. change (/ 2) with (bpow radix2 (-1)).
      apply bpow_le. lia.
  - exact B.
  - exists (powi_rt32 x i). split; [|split; [exact A1|exact A2]].
    destruct m; try discriminate P; injection P as <-; cbn [method_value on_float]; now rewrite EM.
Qed.
Print Assumptions C16_accuracy32.

(** Power zero gives one. *)
Theorem C16_zero_power : forall M x,
  m_powi (math64 M) = powi_rt -> method_value M (MPowi 0) (RF64 x) = Some (VQ (RF64 f64_one)).
Proof. intros M x E. cbn [method_value on_float]. now rewrite E. Qed.

(** ** C17: values *)
Section Order.
Context {prec emax : Z}.
Notation fl := (binary_float prec emax).
Notation val := (B2R prec emax).
Notation fin x := (is_finite prec emax x = true).
Notation nan x := (is_nan prec emax x = true).

Lemma flt_iff (x y : fl) : fin x -> fin y -> (flt x y = true <-> val x < val y).
Proof.
  intros Fx Fy. unfold flt, fcmp. rewrite Bcompare_correct by auto.
  destruct (Rcompare_spec (val x) (val y)); split; intros; try discriminate; auto; lra.
Qed.
Lemma fle_iff (x y : fl) : fin x -> fin y -> (fle x y = true <-> val x <= val y).
Proof.
  intros Fx Fy. unfold fle, fcmp. rewrite Bcompare_correct by auto.
  destruct (Rcompare_spec (val x) (val y)); split; intros; try discriminate; auto; lra.
Qed.
Lemma fcmp_fin (x y : fl) : fin x -> fin y -> fcmp x y = Some (Rcompare (val x) (val y)).
Proof. intros. now apply Bcompare_correct. Qed.

Lemma min_finite fmin (x y : fl) : min_contract fmin -> fin x -> fin y ->
  (fmin x y = x \/ fmin x y = y) /\ val (fmin x y) = Rmin (val x) (val y).
Proof.
  intros C Fx Fy. pose proof (fcmp_fin x y Fx Fy) as E.
  destruct (Rcompare_spec (val x) (val y)) as [H|H|H].
  - rewrite (min_lt _ C x y E). split; auto. rewrite Rmin_left; lra.
  - destruct (min_eq _ C x y E) as [-> | ->]; split; auto; [rewrite Rmin_left|rewrite Rmin_right]; lra.
  - rewrite (min_gt _ C x y E). split; auto. rewrite Rmin_right; lra.
Qed.
Lemma max_finite fmax (x y : fl) : max_contract fmax -> fin x -> fin y ->
  (fmax x y = x \/ fmax x y = y) /\ val (fmax x y) = Rmax (val x) (val y).
Proof.
  intros C Fx Fy. pose proof (fcmp_fin x y Fx Fy) as E.
  destruct (Rcompare_spec (val x) (val y)) as [H|H|H].
  - rewrite (max_lt _ C x y E). split; auto. rewrite Rmax_right; lra.
  - destruct (max_eq _ C x y E) as [-> | ->]; split; auto; [rewrite Rmax_left|rewrite Rmax_right]; lra.
  - rewrite (max_gt _ C x y E). split; auto. rewrite Rmax_left; lra.
Qed.
Lemma clamp_finite (x lo hi : fl) : fin x -> fin lo -> fin hi ->
  (val hi < val lo -> fclamp x lo hi = None) /\
  (val lo <= val hi -> exists z, fclamp x lo hi = Some z /\ (z = x \/ z = lo \/ z = hi) /\
     val z = Rmin (val hi) (Rmax (val lo) (val x))).
Proof.
  intros Fx Fl Fh. split; intros H; unfold fclamp.
  - destruct (fle lo hi) eqn:E; auto. apply fle_iff in E; auto. lra.
  - rewrite (proj2 (fle_iff lo hi Fl Fh) H). destruct (flt x lo) eqn:E1.
    + apply flt_iff in E1; auto. rewrite Rmax_left by lra. rewrite Rmin_right by lra.
      destruct (flt hi lo) eqn:E2; [apply flt_iff in E2; auto; lra|]. exists lo. auto.
    + assert (E1' : val lo <= val x) by (apply Rnot_lt_le; intros L; apply flt_iff in L; auto; congruence).
      rewrite Rmax_right by lra. destruct (flt hi x) eqn:E2.
      * apply flt_iff in E2; auto. rewrite Rmin_left by lra. exists hi. auto.
      * assert (val x <= val hi) by (apply Rnot_lt_le; intros L; apply flt_iff in L; auto; congruence).
        rewrite Rmin_right by lra. exists x. auto.
Qed.
Lemma min_impl_ok : min_contract (@min_impl prec emax).
Proof.
  split; unfold min_impl.
  - intros x y -> _. reflexivity.
  - intros x y Ny Nx. rewrite Nx. unfold fcmp. destruct y; try discriminate. destruct x; reflexivity.
  - intros x y -> Ny. exact Ny.
  - intros x y E. destruct (is_nan prec emax x) eqn:F; [destruct x; try discriminate F; destruct y; discriminate E|].
    now rewrite E.
  - intros x y E. destruct (is_nan prec emax x) eqn:F; auto. now rewrite E.
  - intros x y E. destruct (is_nan prec emax x) eqn:F; auto. rewrite E. auto.
Qed.
Lemma max_impl_ok : max_contract (@max_impl prec emax).
Proof.
  split; unfold max_impl.
  - intros x y -> _. reflexivity.
  - intros x y Ny Nx. rewrite Nx. unfold fcmp. destruct y; try discriminate. destruct x; reflexivity.
  - intros x y -> Ny. exact Ny.
  - intros x y E. destruct (is_nan prec emax x) eqn:F; auto. now rewrite E.
  - intros x y E. destruct (is_nan prec emax x) eqn:F; [destruct x; try discriminate F; destruct y; discriminate E|].
    now rewrite E.
  - intros x y E. destruct (is_nan prec emax x) eqn:F; auto. rewrite E. auto.
Qed.
Lemma fabs_val (x : fl) : val (fabs x) = Rabs (val x) /\ is_finite prec emax (fabs x) = is_finite prec emax x /\
  is_nan prec emax (fabs x) = is_nan prec emax x.
Proof.
  destruct x as [s|s|s pl H|s m e H]; cbn [fabs B2R is_finite is_nan]; rewrite ?Rabs_R0; auto.
  split; auto. rewrite <- F2R_Zabs, abs_cond_Zopp. reflexivity.
Qed.
End Order.

(** What core guarantees of min and max. *)
Definition good_math (M : math) : Prop :=
  min_contract (m_min (math64 M)) /\ max_contract (m_max (math64 M)) /\
  min_contract (m_min (math32 M)) /\ max_contract (m_max (math32 M)).

Theorem C17_min_max : forall p M x y a b,
  good_math M -> stored p x a -> stored p y b ->
  (exists z, arg_method_value M MMin x y y = Some (Done z) /\ (z = x \/ z = y) /\ stored p z (Rmin a b)) /\
  (exists z, arg_method_value M MMax x y y = Some (Done z) /\ (z = x \/ z = y) /\ stored p z (Rmax a b)).
Proof.
  intros p M x y a b (C1 & C2 & C3 & C4) Sx Sy.
  destruct p, x, y; cbn in Sx, Sy; try contradiction; destruct Sx as [Fx ->], Sy as [Fy ->]; cbn [arg_method_value].
  - destruct (min_finite _ _ _ C3 Fx Fy) as [H1 H2], (max_finite _ _ _ C4 Fx Fy) as [H3 H4].
    split; eexists; (split; [reflexivity|]); (split; [|split]);
      try (destruct H1 as [-> | ->]; auto; fail); try (destruct H3 as [-> | ->]; auto; fail); auto.
  - destruct (min_finite _ _ _ C1 Fx Fy) as [H1 H2], (max_finite _ _ _ C2 Fx Fy) as [H3 H4].
    split; eexists; (split; [reflexivity|]); (split; [|split]);
      try (destruct H1 as [-> | ->]; auto; fail); try (destruct H3 as [-> | ->]; auto; fail); auto.
Qed.
Print Assumptions C17_min_max.

(** A NaN argument is ignored. *)
Theorem C17_min_max_nan : forall M x y, good_math M -> is_nan 53 1024 x = true -> is_nan 53 1024 y = false ->
  arg_method_value M MMin (RF64 x) (RF64 y) (RF64 y) = Some (Done (RF64 y)) /\
  arg_method_value M MMin (RF64 y) (RF64 x) (RF64 x) = Some (Done (RF64 y)) /\
  arg_method_value M MMax (RF64 x) (RF64 y) (RF64 y) = Some (Done (RF64 y)) /\
  arg_method_value M MMax (RF64 y) (RF64 x) (RF64 x) = Some (Done (RF64 y)).
Proof.
  intros M x y (C1 & C2 & _ & _) Nx Ny. cbn [arg_method_value].
  rewrite (min_nan_l _ C1), (min_nan_r _ C1), (max_nan_l _ C2), (max_nan_r _ C2); auto.
Qed.
Print Assumptions C17_min_max_nan.

(** clamp panics if the bounds are the wrong way round, and otherwise limits the value. *)
Theorem C17_clamp : forall p M x l h a b c,
  stored p x a -> stored p l b -> stored p h c ->
  (c < b -> arg_method_value M MClamp x l h = Some Panics) /\
  (b <= c -> exists z, arg_method_value M MClamp x l h = Some (Done z) /\ (z = x \/ z = l \/ z = h) /\
     stored p z (Rmin c (Rmax b a))).
Proof.
  intros p M x l h a b c Sx Sl Sh.
  destruct p, x, l, h; cbn in Sx, Sl, Sh; try contradiction; destruct Sx as [Fx ->], Sl as [Fl ->], Sh as [Fh ->];
    cbn [arg_method_value]; match type of Fx with is_finite _ _ ?x = _ => match type of Fl with is_finite _ _ ?l = _ =>
      match type of Fh with is_finite _ _ ?h = _ => destruct (clamp_finite x l h Fx Fl Fh) as [H1 H2] end end end;
    (split; [intros H; now rewrite (H1 H)|]); intros H; destruct (H2 H) as (z & -> & Hz & Vz);
    eexists; (split; [reflexivity|]); (split; [destruct Hz as [-> |[-> | ->]]; auto|]);
    (split; [destruct Hz as [-> |[-> | ->]]; auto|auto]).
Qed.
Print Assumptions C17_clamp.

(** abs, for numbers and component by component for vectors. *)
Theorem C17_abs : forall M,
  (forall p x a, stored p x a -> exists y, method_value M MAbs x = Some (VQ y) /\ stored p y (Rabs a)) /\
  (forall xs, exists ys, method_value M MAbs (RVec64 xs) = Some (VQ (RVec64 ys)) /\
     map v64 ys = map (fun x => Rabs (v64 x)) xs) /\
  (forall xs, exists ys, method_value M MAbs (RVec32 xs) = Some (VQ (RVec32 ys)) /\
     map v32 ys = map (fun x => Rabs (v32 x)) xs).
Proof.
  intros M. split; [|split].
  - intros p x a S. destruct p, x; cbn in S; try contradiction; destruct S as [F ->];
      (eexists; split; [reflexivity|]); cbn [stored];
      match goal with |- context [fabs ?x] => destruct (fabs_val x) as (V & Fi & _) end; rewrite Fi; auto.
  - intros xs. eexists. split; [reflexivity|]. rewrite map_map. apply map_ext. intros x. apply fabs_val.
  - intros xs. eexists. split; [reflexivity|]. rewrite map_map. apply map_ext. intros x. apply fabs_val.
Qed.
Print Assumptions C17_abs.

(** The sign predicates look at the stored value only. *)
Definition sign_test (m : method) : option (R -> Prop) :=
  match m with
  | MIsPositive => Some (fun a => 0 < a)
  | MIsPositiveOrZero => Some (fun a => 0 <= a)
  | MIsNegative => Some (fun a => a < 0)
  | MIsNegativeOrZero => Some (fun a => a <= 0)
  | MIsNan => Some (fun _ => False)
  | _ => None
  end.
Lemma zero64_val : fin64 f64_zero /\ v64 f64_zero = 0. Proof. split; [reflexivity|]. compute; lra. Qed.
Lemma zero32_val : fin32 f32_zero /\ v32 f32_zero = 0. Proof. split; [reflexivity|]. compute; lra. Qed.
Theorem C17_sign_tests : forall p M m P x a,
  sign_test m = Some P -> stored p x a ->
  exists b, method_value M m x = Some (VBool b) /\ (b = true <-> P a).
Proof.
  intros p M m P x a H S. destruct zero64_val as [F0 V0], zero32_val as [F0' V0'].
  destruct p, x; cbn in S; try contradiction; destruct S as [F ->];
    destruct m; try discriminate H; injection H as <-; eexists; (split; [reflexivity|]).
  - rewrite flt_iff by auto. now rewrite V0'.
  - rewrite fle_iff by auto. now rewrite V0'.
  - rewrite flt_iff by auto. now rewrite V0'.
  - rewrite fle_iff by auto. now rewrite V0'.
  - destruct x; try discriminate F; split; intros; try discriminate; contradiction.
  - rewrite flt_iff by auto. now rewrite V0.
  - rewrite fle_iff by auto. now rewrite V0.
  - rewrite flt_iff by auto. now rewrite V0.
  - rewrite fle_iff by auto. now rewrite V0.
  - destruct x; try discriminate F; split; intros; try discriminate; contradiction.
Qed.
Print Assumptions C17_sign_tests.
(** On NaN only [is_nan] holds. *)
Theorem C17_sign_tests_nan : forall M m P x,
  sign_test m = Some P -> is_nan 53 1024 x = true ->
  method_value M m (RF64 x) = Some (VBool (match m with MIsNan => true | _ => false end)).
Proof.
  intros M m P x H F. destruct x; try discriminate F. destruct m; try discriminate H; reflexivity.
Qed.
Print Assumptions C17_sign_tests_nan.
(** Rescaling the base units by a positive factor changes neither the choice of min, max and clamp nor
    the predicates. *)
Theorem C17_rescaling : forall c a b d, 0 < c ->
  Rmin (c * a) (c * b) = c * Rmin a b /\ Rmax (c * a) (c * b) = c * Rmax a b /\
  Rmin (c * d) (Rmax (c * b) (c * a)) = c * Rmin d (Rmax b a) /\ Rabs (c * a) = c * Rabs a /\
  (forall m P, sign_test m = Some P -> (P (c * a) <-> P a)).
Proof.
  intros c a b d Hc.
  assert (Mi : forall x y, Rmin (c * x) (c * y) = c * Rmin x y).
  { intros x y. unfold Rmin. destruct (Rle_dec (c * x) (c * y)), (Rle_dec x y); auto; nra. }
  assert (Ma : forall x y, Rmax (c * x) (c * y) = c * Rmax x y).
  { intros x y. unfold Rmax. destruct (Rle_dec (c * x) (c * y)), (Rle_dec x y); auto; nra. }
  split; [apply Mi|]. split; [apply Ma|]. split; [rewrite Ma; apply Mi|]. split.
  - rewrite Rabs_mult, (Rabs_pos_eq c); lra.
  - intros m P H. destruct m; try discriminate H; injection H as <-; split; intros; try contradiction; nra.
Qed.
Print Assumptions C17_rescaling.

(** ** C18 *)
(** Whatever the raw type and its [+=]: the sum starts from the default and adds the items in
    order. *)
Theorem C18_fold : forall V (arith : trait -> V -> V -> V) default,
  sum_body arith default [] = default /\
  (forall items x, sum_body arith default (items ++ [x]) = arith TAddAssign (sum_body arith default items) x) /\
  (forall x items, sum_body arith default (x :: items) = sum_body arith (arith TAddAssign default x) items).
Proof.
  intros V arith default. unfold sum_body. split; [reflexivity|]. split; [|reflexivity].
  intros items x. rewrite fold_left_app. reflexivity.
Qed.
Print Assumptions C18_fold.

(** Doubles: if the items and the result are finite, the result differs from the exact sum by at most
    [(1 + 2^-53)^n - 1] times the sum of the absolute values. *)
Lemma raw_sum64 xs : raw_sum (Float F64) (map RF64 xs) = Some (RF64 (fold_left f64_add xs f64_zero)).
Proof.
  unfold raw_sum. cbn [raw_default]. generalize f64_zero. induction xs as [|x xs IH]; intros a; [reflexivity|].
  cbn [map sum_from raw_add fold_left]. apply IH.
Qed.
Lemma raw_sum32 xs : raw_sum (Float F32) (map RF32 xs) = Some (RF32 (fold_left f32_add xs f32_zero)).
Proof.
  unfold raw_sum. cbn [raw_default]. generalize f32_zero. induction xs as [|x xs IH]; intros a; [reflexivity|].
  cbn [map sum_from raw_add fold_left]. apply IH.
Qed.
Definition storage_of (p : precision) : storage := match p with P64 => Float F64 | P32 => Float F32 end.
Theorem C18_accuracy : forall p xs rs s r,
  Forall2 (stored p) xs rs -> raw_sum (storage_of p) xs = Some s -> stored p s r ->
  Rabs (r - total rs) <= ((1 + half_ulp p) ^ length xs - 1) * total (map Rabs rs).
Proof.
  intros p xs rs s r F E S. destruct p.
  - assert (X : exists ys, xs = map RF32 ys /\ Forall (fun y => fin32 y) ys /\ rs = map v32 ys).
    { clear E S. induction F as [|x a xs rs H F IH]; [exists []; auto|].
      destruct IH as (ys & -> & H1 & ->). destruct x; cbn in H; try contradiction. destruct H as [H ->].
      exists (x :: ys). repeat split; auto. }
    destruct X as (ys & -> & H1 & ->). cbn [storage_of] in E. rewrite raw_sum32 in E. injection E as <-.
    destruct S as [Fs ->]. rewrite !map_length.
    assert (B := sum_error 24 128 eq_refl eq_refl binop_nan_pl32 ys f32_zero eq_refl H1 Fs).
    destruct zero32_val as [_ V0]. rewrite V0, Rabs_R0, !Rplus_0_l in B. rewrite map_map. exact B.
  - assert (X : exists ys, xs = map RF64 ys /\ Forall (fun y => fin64 y) ys /\ rs = map v64 ys).
    { clear E S. induction F as [|x a xs rs H F IH]; [exists []; auto|].
      destruct IH as (ys & -> & H1 & ->). destruct x; cbn in H; try contradiction. destruct H as [H ->].
      exists (x :: ys). repeat split; auto. }
    destruct X as (ys & -> & H1 & ->). cbn [storage_of] in E. rewrite raw_sum64 in E. injection E as <-.
    destruct S as [Fs ->]. rewrite !map_length.
    assert (B := sum_error 53 1024 eq_refl eq_refl binop_nan_pl64 ys f64_zero eq_refl H1 Fs).
    destruct zero64_val as [_ V0]. rewrite V0, Rabs_R0, !Rplus_0_l in B. rewrite map_map. exact B.
Qed.
Print Assumptions C18_accuracy.

(** Vectors are summed component by component. *)
Theorem C18_vectors : forall v xss,
  component v = F64 -> Forall (fun xs => length xs = num_dims v) xss ->
  exists ys, raw_sum (Vector v) (map RVec64 xss) = Some (RVec64 ys) /\ length ys = num_dims v /\
    forall i, (i < num_dims v)%nat ->
      raw_sum (Float F64) (map (fun xs => RF64 (nth i xs f64_zero)) xss) = Some (RF64 (nth i ys f64_zero)).
Proof.
  intros v xss C F.
  assert (G : forall acc, length acc = num_dims v ->
    exists ys, sum_from (RVec64 acc) (map RVec64 xss) = Some (RVec64 ys) /\ length ys = num_dims v /\
      forall i, (i < num_dims v)%nat ->
        sum_from (RF64 (nth i acc f64_zero)) (map (fun xs => RF64 (nth i xs f64_zero)) xss) = Some (RF64 (nth i ys f64_zero))).
  { induction F as [|xs xss H F IH]; intros acc L; [exists acc; auto|].
    cbn [map sum_from raw_add].
    set (acc' := map (fun p => f64_add (fst p) (snd p)) (combine acc xs)).
    assert (L' : length acc' = num_dims v) by (unfold acc'; rewrite map_length, combine_length; lia).
    destruct (IH acc' L') as (ys & E & Ly & Hy). exists ys. split; [exact E|]. split; [exact Ly|].
    intros i Hi. rewrite <- (Hy i Hi). f_equal. f_equal.
    rewrite (nth_indep acc' f64_zero (f64_add (fst (f64_zero, f64_zero)) (snd (f64_zero, f64_zero)))) by lia.
    etransitivity; [|symmetry; exact (map_nth (fun p => f64_add (fst p) (snd p)) (combine acc xs) (f64_zero, f64_zero) i)].
    rewrite combine_nth by congruence. reflexivity. }
  unfold raw_sum. cbn [raw_default]. rewrite C.
  destruct (G (repeat f64_zero (num_dims v)) (repeat_length _ _)) as (ys & E & L & H). exists ys.
  split; [exact E|]. split; [exact L|]. intros i Hi. specialize (H i Hi). rewrite nth_repeat in H. exact H.
Qed.
Print Assumptions C18_vectors.
Theorem C18_vectors_f32 : forall v xss,
  component v = F32 -> Forall (fun xs => length xs = num_dims v) xss ->
  exists ys, raw_sum (Vector v) (map RVec32 xss) = Some (RVec32 ys) /\ length ys = num_dims v /\
    forall i, (i < num_dims v)%nat ->
      raw_sum (Float F32) (map (fun xs => RF32 (nth i xs f32_zero)) xss) = Some (RF32 (nth i ys f32_zero)).
Proof.
  intros v xss C F.
  assert (G : forall acc, length acc = num_dims v ->
    exists ys, sum_from (RVec32 acc) (map RVec32 xss) = Some (RVec32 ys) /\ length ys = num_dims v /\
      forall i, (i < num_dims v)%nat ->
        sum_from (RF32 (nth i acc f32_zero)) (map (fun xs => RF32 (nth i xs f32_zero)) xss) = Some (RF32 (nth i ys f32_zero))).
  { induction F as [|xs xss H F IH]; intros acc L; [exists acc; auto|].
    cbn [map sum_from raw_add].
    set (acc' := map (fun p => f32_add (fst p) (snd p)) (combine acc xs)).
    assert (L' : length acc' = num_dims v) by (unfold acc'; rewrite map_length, combine_length; lia).
    destruct (IH acc' L') as (ys & E & Ly & Hy). exists ys. split; [exact E|]. split; [exact Ly|].
    intros i Hi. rewrite <- (Hy i Hi). f_equal. f_equal.
    rewrite (nth_indep acc' f32_zero (f32_add (fst (f32_zero, f32_zero)) (snd (f32_zero, f32_zero)))) by lia.
    etransitivity; [|symmetry; exact (map_nth (fun p => f32_add (fst p) (snd p)) (combine acc xs) (f32_zero, f32_zero) i)].
    rewrite combine_nth by congruence. reflexivity. }
  unfold raw_sum. cbn [raw_default]. rewrite C.
  destruct (G (repeat f32_zero (num_dims v)) (repeat_length _ _)) as (ys & E & L & H). exists ys.
  split; [exact E|]. split; [exact L|]. intros i Hi. specialize (H i Hi). rewrite nth_repeat in H. exact H.
Qed.
Print Assumptions C18_vectors_f32.

(** ** C09: the value of a square root *)
Lemma sqrt_finite prec emax Hp He nan (x : binary_float prec emax) :
  is_finite prec emax x = true -> 0 <= B2R prec emax x ->
  let y := Bsqrt prec emax Hp He nan mode_NE x in
  is_finite prec emax y = true /\ B2R prec emax y = round radix2 (SpecFloat.fexp prec emax) (round_mode mode_NE) (sqrt (B2R prec emax x))
  /\ Rabs (B2R prec emax y) < bpow radix2 emax.
Proof.
  intros F H y. destruct (Bsqrt_correct prec emax Hp He nan mode_NE x) as (E & Fy & _). fold y in E, Fy.
  assert (F' : is_finite prec emax y = true).
  { rewrite Fy. destruct x as [s|s|s n e|[] m e b]; try reflexivity; try discriminate F.
    exfalso. cbn in H. revert H. apply Rlt_not_le. apply F2R_lt_0. reflexivity. }
  split; [exact F'|]. split; [exact E|]. apply abs_B2R_lt_emax.
Qed.
Theorem C09_sqrt_value : forall p M x a,
  stored p x a -> 0 <= a -> exists y, method_value M MSqrt x = Some (VQ y) /\ nearest_raw p (sqrt a) y.
Proof.
  intros p M x a S H. destruct p, x; cbn in S; try contradiction; destruct S as [F ->];
    (eexists; split; [reflexivity|]); cbn [nearest_raw].
  - destruct (sqrt_finite 24 128 eq_refl eq_refl unop_nan_pl32 x F H) as (F' & E & B).
    unfold nearest32, rnd32, f32_sqrt, b32_sqrt. rewrite <- E. rewrite Rlt_bool_true by exact B. now split.
  - destruct (sqrt_finite 53 1024 eq_refl eq_refl unop_nan_pl64 x F H) as (F' & E & B).
    unfold nearest, rnd64, f64_sqrt, b64_sqrt. rewrite <- E. rewrite Rlt_bool_true by exact B. now split.
Qed.
Print Assumptions C09_sqrt_value.

(** ** C09: the calls *)
(** [sqrt] and [cbrt] are the second and the third root. *)
Definition root (m : method) : option Z :=
  match m with MSqrt => Some 2%Z | MCbrt => Some 3%Z | _ => None end.
(** Integer exponents: the call compiles exactly when every exponent is divisible (and the raw type is a
    float type and std or libm is there). *)
Theorem C09_calls_iff : forall fields ft lib m i s (d : list (string * Z)), NoDup fields ->
  root m = Some i -> map fst d = fields -> all_fields (fun x => fits x) d ->
  ((exists r, method_ok (ops IntegerExponents) fields ft lib m s d r) <->
   lib = true /\ is_float ft s /\ all_fields (fun x => (i | x)%Z) d).
Proof.
  intros fields ft lib m i s d N P Hd R. destruct (C09_roots_iff fields d N Hd R) as [R2 R3].
  destruct m; try discriminate P; injection P as <-; cbn [method_ok]; [rewrite <- R2|rewrite <- R3]; split.
  - intros (r & L & F & d' & E & _). eauto.
  - intros (L & F & d' & E). eexists. split; [exact L|]. split; [exact F|]. eauto.
  - intros (r & L & F & d' & E & _). eauto.
  - intros (L & F & d' & E). eexists. split; [exact L|]. split; [exact F|]. eauto.
Qed.
Print Assumptions C09_calls_iff.
(** Both builds: the exponents of the result times two (three) are those of the argument. *)
Theorem C09_calls_dimension : forall k fields ft lib m i s d v r, NoDup fields ->
  root m = Some i -> denotes k fields d v -> method_ok (ops k) fields ft lib m s d r ->
  exists d' v', r = ResQ s d' /\ denotes k fields d' v' /\ forall f, In f fields -> (v' f * ZQc i)%Qc = v f.
Proof.
  intros k fields ft lib m i s d v r N P D H.
  destruct m; try discriminate P; injection P as <-; destruct H as (_ & _ & d' & E & ->); exists d'.
  - destruct (proj1 (C09_roots_value k fields d d' v N D) E) as (v' & D' & H). exists v'.
    split; [reflexivity|]. split; [exact D'|]. intros f I. rewrite <- (H f I). change (ZQc 2) with (1 + 1)%Qc. ring.
  - destruct (proj2 (C09_roots_value k fields d d' v N D) E) as (v' & D' & H). exists v'.
    split; [reflexivity|]. split; [exact D'|]. intros f I. rewrite <- (H f I). change (ZQc 3) with (1 + 1 + 1)%Qc. ring.
Qed.
Print Assumptions C09_calls_dimension.
(** The square root of a square and the cube root of a cube have the original type. *)
Theorem C09_calls_undo : forall k fields ft lib m p i s d v r r', NoDup fields ->
  root m = Some i -> power p = Some i -> denotes k fields d v ->
  method_ok (ops k) fields ft lib p s d (ResQ s r) -> method_ok (ops k) fields ft lib m s r r' -> r' = ResQ s d.
Proof.
  intros k fields ft lib m p i s d v r r' N P Q D H1 H2.
  destruct (C16_dimension k fields N ft lib p i s d v _ Q D H1) as (d1 & E & D1). injection E as <-.
  destruct (C09_calls_dimension k fields ft lib m i s r _ r' N P D1 H2) as (d2 & v2 & -> & D2 & Hv).
  f_equal. apply (C08_identity k fields d2 d v2 v N D2 D). intros f I. specialize (Hv f I).
  assert (NZ : ZQc i <> 0%Qc) by (apply ZQc_nz; destruct m; try discriminate P; injection P as <-; lia).
  apply (f_equal (fun q => (q * / ZQc i)%Qc)) in Hv.
  rewrite <- !Qcmult_assoc, !Qcmult_inv_r, !Qcmult_1_r in Hv by exact NZ. exact Hv.
Qed.
Print Assumptions C09_calls_undo.

(** ** The hypotheses can be met *)
Definition methods_features : features := Build_features true true true true true true.
Definition math0 : math :=
  Build_math (Build_float_math f32 powi_rt32 (fun _ x => x) (fun x => x) min_impl max_impl)
             (Build_float_math f64 powi_rt (fun _ x => x) (fun x => x) min_impl max_impl).
Lemma math0_good : good_math math0.
Proof. split; [apply min_impl_ok|]. split; [apply max_impl_ok|]. split; [apply min_impl_ok|apply max_impl_ok]. Qed.

(** A length squared is an area; its raw value and its exponential are refused; a length and a time
    have no minimum. *)
Example C15_applies :
  denotes IntegerExponents lt d_length (exps 1%Z 0%Z) /\
  (forall m r, In m [MValue; MValueRef; MDeref] ->
     ~ method_ok (ops IntegerExponents) lt methods_features true m (Known (Float F64)) d_length r) /\
  (forall g r, ~ method_ok (ops IntegerExponents) lt methods_features true (MFn g) (Known (Float F64)) d_length r).
Proof.
  assert (Z : ~ all_zero lt (exps 1%Z 0%Z)).
  { intros H. specialize (H "length"%string (or_introl eq_refl)). discriminate H. }
  split; [apply denotes_lt|]. split.
  - intros m r I H. apply Z.
    apply (proj1 (C15_raw_access IntegerExponents lt lt_NoDup methods_features true m (Known (Float F64)) d_length _ I (denotes_lt 1%Z 0%Z))).
    exists r. exact H.
  - intros g r H. apply Z.
    apply (proj1 (C15_functions IntegerExponents lt lt_NoDup methods_features true g (Known (Float F64)) d_length _ (denotes_lt 1%Z 0%Z))).
    exists r. exact H.
Qed.
Example C16_applies :
  (exists r, method_ok (ops IntegerExponents) lt methods_features true MSquared (Known (Float F64)) d_length r) /\
  exists z, method_value math0 (MPowi (-2)) (RF64 two) = Some (VQ (RF64 z)) /\ v64 z = / 4.
Proof.
  split.
  - eexists. split; [exists F64; split; [reflexivity|simpl; tauto]|]. eexists. split; reflexivity.
  - eexists. split; [reflexivity|]. compute. lra.
Qed.
Lemma two_stored : stored P64 (RF64 two) 2.
Proof. destruct two_value as [F V]. split; [exact F|symmetry; exact V]. Qed.
Example C17_applies :
  good_math math0 /\ stored P64 (RF64 two) 2 /\
  (forall r, ~ arg_method_ok (ops IntegerExponents) lt methods_features MMin (Known (Float F64)) d_length
     (TyQ (Known (Float F64)) d_time) r) /\
  arg_method_ok (ops IntegerExponents) lt methods_features MMin (Known (Float F64)) d_length
     (TyQ (Known (Float F64)) d_length) (ResQ (Known (Float F64)) d_length).
Proof.
  split; [exact math0_good|]. split; [exact two_stored|]. split.
  - intros r H.
    pose proof (C17_other_dimension_rejected IntegerExponents lt lt_NoDup methods_features _ _ _ _ _ _ _ _
      (denotes_lt 1%Z 0%Z) (denotes_lt 0%Z 1%Z) H "length"%string (or_introl eq_refl)) as E. discriminate E.
  - apply (C17_same_dimension IntegerExponents lt lt_NoDup methods_features MMin (Known (Float F64)) d_length _ _ _ (denotes_lt 1%Z 0%Z)).
    + exists F64. split; [reflexivity|simpl; tauto].
    + auto.
Qed.
Example C18_applies : Forall2 (stored P64) [RF64 two; RF64 two] [2; 2] /\
  exists s, raw_sum (storage_of P64) [RF64 two; RF64 two] = Some s /\ stored P64 s 4.
Proof.
  split.
  - constructor; [exact two_stored|]. constructor; [exact two_stored|constructor].
  - eexists. split; [reflexivity|]. split; [reflexivity|compute; lra].
Qed.
Example C09_calls_applies :
  root MSqrt = Some 2%Z /\ root MCbrt = Some 3%Z /\
  (exists r, method_ok (ops IntegerExponents) lt methods_features true MCbrt (Known (Float F64))
     [("length"%string, 3%Z); ("time"%string, (-6)%Z)] r) /\
  (forall r, ~ method_ok (ops IntegerExponents) lt methods_features true MCbrt (Known (Float F64))
     [("length"%string, 4%Z); ("time"%string, (-6)%Z)] r).
Proof.
  split; [reflexivity|]. split; [reflexivity|]. split.
  - apply (C09_calls_iff lt methods_features true MCbrt 3 (Known (Float F64))
      [("length"%string, 3%Z); ("time"%string, (-6)%Z)] lt_NoDup eq_refl eq_refl).
    + intros f e [E|[E|[]]]; injection E as <- <-; lia.
    + split; [reflexivity|]. split; [exists F64; split; [reflexivity|simpl; tauto]|].
      intros f e [E|[E|[]]]; injection E as <- <-; [exists 1%Z|exists (-2)%Z]; reflexivity.
  - intros r H.
    assert (A : all_fields (fun x => (3 | x)%Z) [("length"%string, 4%Z); ("time"%string, (-6)%Z)]).
    { apply (C09_calls_iff lt methods_features true MCbrt 3 (Known (Float F64))
        [("length"%string, 4%Z); ("time"%string, (-6)%Z)] lt_NoDup eq_refl eq_refl).
      - intros f e [E|[E|[]]]; injection E as <- <-; lia.
      - eauto. }
    destruct (A "length"%string 4%Z (or_introl eq_refl)) as [x Hx]. lia.
Qed.
