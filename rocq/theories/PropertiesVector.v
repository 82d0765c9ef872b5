(** * Properties of vector quantities: C61

    Vocabulary.  [vec_call v o args r]: method [o] of vectors of type [v] can be called with arguments
    of types [args] (receiver first) and returns [r].  [vec_value M v o args]: the stored result.
    [vector_of v d] / [float_of v d]: the type of a vector (of one component) of dimension [d]. *)
From Coq Require Import String List Bool ZArith QArith Qcanon Reals Lia Lra Psatz.
From Flocq Require Import Core IEEE754.Binary IEEE754.Bits.
From Flocq Require IEEE754.BinarySingleNaN.
From Verif Require Import MachineInt Ratio RatioFacts F64 FloatOps DecimalFacts Magnitude MagnitudeFacts NumericFacts
  FloatFacts FloatAccuracy Exponent ExponentFacts SMap Types CodegenDimension CodegenDimensionFacts CodegenLiteral
  Storage Operators Raw UnitOps FloatMethods Vector VectorFacts Setting ExampleSystems PropertiesNumeric PropertiesDimension
  PropertiesUnits PropertiesMethods.
Import ListNotations.
Local Close Scope Q_scope.
Local Close Scope Qc_scope.
Local Open Scope list_scope.
Local Open Scope R_scope.

(** ** Types *)
Section Types.
Context (k : mode) (fields : list string) (N : NoDup fields) (ft : features).
Notation vec_call := (vec_call (ops k) fields ft).
Notation base_ty := (base_ty (ops k)).
Notation dimval := (dimval (ops k)).
Definition vector_of (v : vector_type) (d : dimval) : base_ty := TyQ (Known (Vector v)) d.
Definition float_of (v : vector_type) (d : dimval) : base_ty := TyQ (Known (Float (component v))) d.

(** Which methods exist, with which arguments and results. *)
Inductive signature (v : vector_type) : vec_op -> list base_ty -> base_ty -> Prop :=
| Sig_new d : signature v VNew (repeat (float_of v d) (num_dims v)) (vector_of v d)
| Sig_new_axis d a : has_axis v a -> signature v (VNewAxis a) [float_of v d] (vector_of v d)
| Sig_get d a : has_axis v a -> signature v (VGet a) [vector_of v d] (float_of v d)
| Sig_set d a : has_axis v a -> signature v (VSet a) [vector_of v d; float_of v d] (vector_of v d)
| Sig_zero d : signature v VZero [] (vector_of v d)
| Sig_min d : signature v VMin [vector_of v d; vector_of v d] (vector_of v d)
| Sig_max d : signature v VMax [vector_of v d; vector_of v d] (vector_of v d)
| Sig_length d : signature v VLength [vector_of v d] (float_of v d)
| Sig_distance d : signature v VDistance [vector_of v d; vector_of v d] (float_of v d)
| Sig_distance_squared d d' w : denotes k fields d w -> denotes k fields d' (fun f => (w f * ZQc 2)%Qc) ->
    signature v VDistanceSquared [vector_of v d; vector_of v d] (float_of v d')
| Sig_normalize d d' : denotes k fields d' (fun _ => ZQc 0) -> signature v VNormalize [vector_of v d] (vector_of v d')
| Sig_dot d dr d' w wr : denotes k fields d w -> denotes k fields dr wr -> denotes k fields d' (fun f => (w f + wr f)%Qc) ->
    signature v VDot [vector_of v d; vector_of v dr] (float_of v d').

(** The dimensions in a list of types mean something (always the case in a program that compiles). *)
Definition meaningful (t : base_ty) : Prop := match t with TyQ _ d => exists w, denotes k fields d w | TyS _ => False end.

Theorem C61_signatures : forall v o args r,
  vec_call v o args r -> Forall meaningful args -> signature v o args r.
Proof.
  intros v o args r (_ & d & H) M. destruct o; cbv zeta in H.
  - destruct H as [-> ->]. constructor.
  - destruct H as (A & -> & ->). now constructor.
  - destruct H as (A & -> & ->). now constructor.
  - destruct H as (A & -> & ->). now constructor.
  - destruct H as [-> ->]. constructor.
  - destruct H as [-> ->]. constructor.
  - destruct H as [-> ->]. constructor.
  - destruct H as [-> ->]. constructor.
  - destruct H as [-> ->]. constructor.
  - destruct H as (-> & d' & E & ->). inversion M as [|? ? M0 _]; subst. destruct M0 as [w W].
    econstructor; [exact W|]. eapply dim_mul_spec; eauto.
  - destruct H as (-> & d' & E & ->). constructor.
    destruct (none_stands_for (ops k) fields N (laws k)) as (z & Ez & Dz). rewrite Ez in E. injection E as <-. exact Dz.
  - destruct H as (dr & d' & -> & E & ->). inversion M as [|? ? M0 M1]; subst. destruct M0 as [w W].
    inversion M1 as [|? ? M2 _]; subst. destruct M2 as [wr Wr].
    econstructor; [exact W|exact Wr|]. eapply dim_add_spec; eauto.
Qed.
(** Conversely every signature is realised, up to overflow of the result's dimension. *)
Theorem C61_exists : forall v o args r,
  In v (vector_types ft) -> signature v o args r ->
  match o with
  | VDistanceSquared => forall d, args = [vector_of v d; vector_of v d] ->
      dmul k fields d 2 <> None -> exists r', vec_call v o args r'
  | VDot => forall d dr, args = [vector_of v d; vector_of v dr] ->
      dadd k fields d dr <> None -> exists r', vec_call v o args r'
  | VNormalize => exists r', vec_call v o args r'
  | _ => vec_call v o args r
  end.
Proof.
  intros v o args r I S.
  destruct S; try (split; [exact I|]; exists d; cbv zeta; auto; fail).
  - intros d0 E Hd. injection E; intros; subst d0. destruct (dmul k fields d 2) as [d1|] eqn:E1; [|congruence].
    eexists. split; [exact I|]. exists d. cbv zeta. split; [reflexivity|]. eauto.
  - destruct (none_stands_for (ops k) fields N (laws k)) as (z & Ez & Dz).
    eexists. split; [exact I|]. exists d. cbv zeta. split; [reflexivity|]. eauto.
  - intros d0 dr0 E Hd. injection E; intros; subst d0 dr0. destruct (dadd k fields d dr) as [d1|] eqn:E1; [|congruence].
    eexists. split; [exact I|]. exists d. cbv zeta. eauto.
Qed.
(** Two vectors of different dimension have no distance, minimum or maximum, and a component cannot be
    set to a value of another dimension. *)
Theorem C61_other_dimension_rejected : forall v o d w d' w' s r,
  In o [VMin; VMax; VDistance; VDistanceSquared; VSet AxX; VSet AxY; VSet AxZ] ->
  denotes k fields d w -> denotes k fields d' w' ->
  vec_call v o [vector_of v d; TyQ s d'] r -> forall f, In f fields -> w f = w' f.
Proof.
  intros v o d w d' w' s r I D D' (_ & e & H) f Hf.
  assert (E : d = d').
  { simpl in I. destruct I as [<-|[<-|[<-|[<-|[<-|[<-|[<-|[]]]]]]]]; cbv zeta in H;
      repeat match type of H with _ /\ _ => destruct H as [? H] | [_; _] = _ /\ _ => fail end;
      match goal with E : [_; _] = [_; _] |- _ => injection E; intros; subst; reflexivity end. }
  subst d'. now apply (proj1 (C08_identity k fields d d w w' N D D')).
Qed.
End Types.
Print Assumptions C61_signatures.
Print Assumptions C61_exists.
Print Assumptions C61_other_dimension_rejected.

(** ** Values *)
Definition precision_of (v : vector_type) : precision := match component v with F32 => P32 | F64 => P64 end.
Definition fl (p : precision) : Type := match p with P32 => f32 | P64 => f64 end.
(** A float, a vector of floats as stored values. *)
Definition scalar {p : precision} : fl p -> raw := match p with P32 => RF32 | P64 => RF64 end.
Definition vector {p : precision} : list (fl p) -> raw := match p with P32 => RVec32 | P64 => RVec64 end.
Definition real {p : precision} : fl p -> R := match p with P32 => v32 | P64 => v64 end.
Definition finite {p : precision} : fl p -> Prop :=
  match p with P32 => fun x => fin32 x | P64 => fun x => fin64 x end.

(** Components are what was given to [new]; setting one changes that one only. *)
Theorem C61_components : forall M v (xs : list (fl (precision_of v))),
  length xs = num_dims v ->
  vec_value M v VNew (map scalar xs) = Some (vector xs) /\
  (forall a, has_axis v a -> exists x, nth_error xs (axis_index a) = Some x /\
     vec_value M v (VGet a) [vector xs] = Some (scalar x)) /\
  (forall a (y : fl (precision_of v)), has_axis v a ->
     exists ys : list (fl (precision_of v)), vec_value M v (VSet a) [vector xs; scalar y] = Some (vector ys) /\ length ys = num_dims v /\
       vec_value M v (VGet a) [vector ys] = Some (scalar y) /\
       forall b, b <> a -> has_axis v b -> vec_value M v (VGet b) [vector ys] = vec_value M v (VGet b) [vector xs]).
Proof.
  intros M v xs L.
  destruct v; unfold has_axis; cbn [precision_of component fl scalar vector num_dims] in *;
    (destruct xs as [|x1 [|x2 [|x3 [|x4 xs]]]]; try discriminate L; clear L);
    (split; [reflexivity|]; split;
      [intros [] H; cbn [axis_index] in H; try lia; eexists; split; reflexivity
      |intros [] y H; cbn [axis_index] in H; try lia; eexists; (split; [reflexivity|]); (split; [reflexivity|]);
       (split; [reflexivity|]); intros [] NB H'; cbn [axis_index] in H'; try lia; try congruence; reflexivity]).
Qed.
Print Assumptions C61_components.

(** [new_x(q)] is the vector (q, 0, 0) for finite q... *)
Lemma fin_not_nan prec emax (x : binary_float prec emax) : is_finite prec emax x = true -> is_nan prec emax x = false.
Proof. destruct x; try discriminate; reflexivity. Qed.
Lemma mul_one64 (x : f64) : fin64 x -> f64_mul x f64_one = x.
Proof.
  intros F. unfold f64_mul, b64_mult.
  pose proof (Bmult_correct 53 1024 eq_refl eq_refl binop_nan_pl64 mode_NE x f64_one) as C.
  assert (V : B2R 53 1024 f64_one = 1) by (compute; lra). rewrite V, Rmult_1_r in C.
  rewrite round_generic in C; [|apply BinarySingleNaN.valid_rnd_round_mode|apply generic_format_B2R].
  rewrite Rlt_bool_true in C by apply abs_B2R_lt_emax. destruct C as (C1 & C2 & C3).
  apply B2R_Bsign_inj; [rewrite C2, F; reflexivity|exact F|exact C1|].
  rewrite C3.
  - change (Bsign 53 1024 f64_one) with false. now destruct (Bsign 53 1024 x).
  - apply fin_not_nan. rewrite C2, F. reflexivity.
Qed.
Lemma mul_one32 (x : f32) : fin32 x -> f32_mul x f32_one = x.
Proof.
  intros F. unfold f32_mul, b32_mult.
  pose proof (Bmult_correct 24 128 eq_refl eq_refl binop_nan_pl32 mode_NE x f32_one) as C.
  assert (V : B2R 24 128 f32_one = 1) by (compute; lra). rewrite V, Rmult_1_r in C.
  rewrite round_generic in C; [|apply BinarySingleNaN.valid_rnd_round_mode|apply generic_format_B2R].
  rewrite Rlt_bool_true in C by apply abs_B2R_lt_emax. destruct C as (C1 & C2 & C3).
  apply B2R_Bsign_inj; [rewrite C2, F; reflexivity|exact F|exact C1|].
  rewrite C3.
  - change (Bsign 24 128 f32_one) with false. now destruct (Bsign 24 128 x).
  - apply fin_not_nan. rewrite C2, F. reflexivity.
Qed.
Lemma mul_zero64 x : fin64 x -> fin64 (f64_mul x f64_zero) /\ 0 = v64 (f64_mul x f64_zero).
Proof. intros F. destruct x; try discriminate F; split; reflexivity. Qed.
Lemma mul_zero32 x : fin32 x -> fin32 (f32_mul x f32_zero) /\ 0 = v32 (f32_mul x f32_zero).
Proof. intros F. destruct x; try discriminate F; split; reflexivity. Qed.
Theorem C61_axis_vectors : forall M v a q r,
  has_axis v a -> stored (precision_of v) q r ->
  exists w, vec_value M v (VNewAxis a) [q] = Some w /\ vec_value M v (VGet a) [w] = Some q /\
    forall b, b <> a -> has_axis v b -> exists z, vec_value M v (VGet b) [w] = Some z /\ stored (precision_of v) z 0.
Proof.
  intros M v a q r H S.
  destruct v, a; unfold has_axis in *; cbn [num_dims axis_index] in H; try lia; clear H;
    destruct q; cbn [precision_of component stored] in S; try contradiction; destruct S as [F ->];
    (eexists; split; [reflexivity|]);
    (split; [unfold vec_value; cbn -[f32_mul f64_mul f64_one f32_one f64_zero f32_zero]; rewrite ?mul_one32, ?mul_one64 by exact F; reflexivity|]);
    intros [] NB H; cbn [num_dims axis_index] in H; try lia; try congruence;
    (eexists; split; [reflexivity|]); cbn [precision_of component stored];
    first [now apply mul_zero64|now apply mul_zero32].
Qed.
Print Assumptions C61_axis_vectors.
(** ... but the other components of an infinite q are NaN, because they are computed as q * 0. *)
Theorem C61_infinite_axis : forall M s,
  exists w z, vec_value M DVec2 (VNewAxis AxX) [RF64 (B754_infinity 53 1024 s)] = Some w /\
    vec_value M DVec2 (VGet AxY) [w] = Some (RF64 z) /\ is_nan 53 1024 z = true.
Proof. intros M s. do 2 eexists. split; [reflexivity|]. split; [reflexivity|]. destruct s; reflexivity. Qed.

(** [min] and [max] work component by component. *)
Lemma zip_real {F} (f : F -> F -> F) (g : R -> R -> R) (val : F -> R) (fin : F -> Prop) :
  (forall x y, fin x -> fin y -> val (f x y) = g (val x) (val y) /\ fin (f x y)) ->
  forall xs ys, Forall fin xs -> Forall fin ys ->
  map val (g_zip f xs ys) = map (fun p => g (val (fst p)) (val (snd p))) (combine xs ys) /\ Forall fin (g_zip f xs ys).
Proof.
  intros H. unfold g_zip. induction xs as [|x xs IH]; intros [|y ys] Fx Fy; try (split; [reflexivity|constructor]).
  inversion Fx; subst. inversion Fy; subst. destruct (IH ys) as [I1 I2]; auto.
  destruct (H x y) as [V1 V2]; auto. cbn [combine map fst snd]. split; [now rewrite V1, I1|now constructor].
Qed.
Theorem C61_min_max : forall M v (xs ys : list (fl (precision_of v))),
  good_math M -> length xs = num_dims v -> length ys = num_dims v ->
  Forall finite xs -> Forall finite ys ->
  (exists zs : list (fl (precision_of v)), vec_value M v VMin [vector xs; vector ys] = Some (vector zs) /\
     map real zs = map (fun p => Rmin (real (fst p)) (real (snd p))) (combine xs ys) /\ Forall finite zs) /\
  (exists zs : list (fl (precision_of v)), vec_value M v VMax [vector xs; vector ys] = Some (vector zs) /\
     map real zs = map (fun p => Rmax (real (fst p)) (real (snd p))) (combine xs ys) /\ Forall finite zs).
Proof.
  intros M v xs ys (C1 & C2 & C3 & C4) Lx Ly Fx Fy.
  assert (A1 : forall x y, fin32 x -> fin32 y -> v32 (m_min (math32 M) x y) = Rmin (v32 x) (v32 y) /\ fin32 (m_min (math32 M) x y)).
  { intros x y F1 F2. destruct (min_finite _ x y C3 F1 F2) as [H V]. split; [exact V|]. destruct H as [-> | ->]; auto. }
  assert (A2 : forall x y, fin32 x -> fin32 y -> v32 (m_max (math32 M) x y) = Rmax (v32 x) (v32 y) /\ fin32 (m_max (math32 M) x y)).
  { intros x y F1 F2. destruct (max_finite _ x y C4 F1 F2) as [H V]. split; [exact V|]. destruct H as [-> | ->]; auto. }
  assert (A3 : forall x y, fin64 x -> fin64 y -> v64 (m_min (math64 M) x y) = Rmin (v64 x) (v64 y) /\ fin64 (m_min (math64 M) x y)).
  { intros x y F1 F2. destruct (min_finite _ x y C1 F1 F2) as [H V]. split; [exact V|]. destruct H as [-> | ->]; auto. }
  assert (A4 : forall x y, fin64 x -> fin64 y -> v64 (m_max (math64 M) x y) = Rmax (v64 x) (v64 y) /\ fin64 (m_max (math64 M) x y)).
  { intros x y F1 F2. destruct (max_finite _ x y C2 F1 F2) as [H V]. split; [exact V|]. destruct H as [-> | ->]; auto. }
  destruct v; cbn [precision_of component fl vector finite real] in *;
    (split; eexists; (split; [reflexivity|]));
    first [exact (zip_real _ _ _ _ A1 xs ys Fx Fy)|exact (zip_real _ _ _ _ A2 xs ys Fx Fy)
          |exact (zip_real _ _ _ _ A3 xs ys Fx Fy)|exact (zip_real _ _ _ _ A4 xs ys Fx Fy)].
Qed.
Print Assumptions C61_min_max.

(** dot, length, distance and normalize are accurate to a few units in the last place, as long as the
    products they are computed from neither overflow nor lose digits to underflow. *)
Definition representable (p : precision) (r : R) : Prop :=
  match p with P32 => range32 r | P64 => range64 r end.
Definition euclid (xs : list R) : R := sqrt (total (map (fun x => x * x) xs)).
Definition sum_products (xs ys : list R) : R := total (map (fun p => fst p * snd p) (combine xs ys)).
Definition sum_abs_products (xs ys : list R) : R := total (map (fun p => Rabs (fst p * snd p)) (combine xs ys)).
Definition differences (xs ys : list R) : list R := map (fun p => fst p - snd p) (combine xs ys).

Lemma pairs_reals {F} (val : F -> R) (P : R -> Prop) : forall xs ys,
  Forall (fun p => P (val (fst p) * val (snd p))) (combine xs ys) ->
  Forall (fun p => P (fst p * snd p)) (combine (map val xs) (map val ys)).
Proof.
  induction xs as [|x xs IH]; intros [|y ys] H; try constructor; simpl in H; inversion H; subst; auto.
Qed.
Theorem C61_dot : forall M v (xs ys : list (fl (precision_of v))),
  length xs = num_dims v -> length ys = num_dims v ->
  Forall (fun p => representable (precision_of v) (real (fst p) * real (snd p))) (combine xs ys) ->
  exists y : fl (precision_of v), vec_value M v VDot [vector xs; vector ys] = Some (scalar y) /\
    (finite y ->
     Rabs (real y - sum_products (map real xs) (map real ys)) <=
       ((1 + half_ulp (precision_of v)) ^ num_dims v - 1) * sum_abs_products (map real xs) (map real ys)).
Proof.
  intros M v xs ys Lx Ly H.
  destruct v; cbn [precision_of component fl scalar vector num_dims finite real representable half_ulp] in *;
    apply pairs_reals in H;
    assert (Nx : xs <> []) by (intros ->; discriminate); assert (Ny : ys <> []) by (intros ->; discriminate);
    eexists; (split; [reflexivity|]); intros F;
    first [assert (D := dot_error 24 128 eq_refl eq_refl binop_nan_pl32 binop_nan_pl32 f32_zero xs ys H Nx Ny F)
          |assert (D := dot_error 53 1024 eq_refl eq_refl binop_nan_pl64 binop_nan_pl64 f64_zero xs ys H Nx Ny F)];
    destruct xs as [|x1 [|x2 [|x3 [|x4 xs]]]]; try discriminate Lx; destruct ys as [|y1 [|y2 [|y3 [|y4 ys]]]]; try discriminate Ly;
    exact D.
Qed.
Print Assumptions C61_dot.

Lemma small_bound (p : precision) (m : nat) : (m <= 8)%nat -> INR m * half_ulp p <= / 8.
Proof.
  intros H. assert (INR m <= 8) by (apply Rle_trans with (INR 8); [now apply le_INR|simpl; lra]).
  destruct p; cbn [half_ulp].
  - apply Rle_trans with (8 * u32); [apply Rmult_le_compat_r; [apply bpow_ge_0|assumption]|].
    change 8 with (bpow radix2 3). rewrite <- bpow_plus. change (/ bpow radix2 3) with (bpow radix2 (-3)). apply bpow_le. lia.
  - apply Rle_trans with (8 * u64); [apply Rmult_le_compat_r; [apply bpow_ge_0|assumption]|].
    change 8 with (bpow radix2 3). rewrite <- bpow_plus. change (/ bpow radix2 3) with (bpow radix2 (-3)). apply bpow_le. lia.
Qed.
Lemma exact_within prec {F} (val : F -> R) xs : Forall2 (fun d x => FloatAccuracy.within prec 0%nat d (val x)) (map val xs) xs.
Proof. induction xs; simpl; constructor; auto. apply within_refl. Qed.

Lemma length_error32 (xs : list f32) n : length xs = n -> (1 <= n <= 3)%nat ->
  Forall (fun x => range32 (v32 x * v32 x)) xs ->
  let y := g_length f32_add f32_mul f32_sqrt f32_zero xs in
  fin32 y -> Rabs (v32 y - euclid (map v32 xs)) <= 2 * INR (n + 1) * u32 * euclid (map v32 xs).
Proof.
  intros Lx Hn H y F. assert (Nx : xs <> []) by (intros ->; simpl in Lx; lia).
  assert (L : @length (binary_float 24 128) xs = n) by exact Lx.
  assert (D := length_within 24 128 eq_refl eq_refl binop_nan_pl32 binop_nan_pl32 unop_nan_pl32 f32_zero 0%nat xs (map v32 xs)
    (exact_within _ _ _) H Nx F).
  rewrite L in D. apply (within_error 24 eq_refl) in D; [|eapply Rle_trans; [apply (small_bound P32); simpl; lia|lra]].
  rewrite (Rabs_pos_eq (norm _)) in D by apply sqrt_pos. rewrite (Nat.add_comm n). exact D.
Qed.
Lemma length_error64 (xs : list f64) n : length xs = n -> (1 <= n <= 3)%nat ->
  Forall (fun x => range64 (v64 x * v64 x)) xs ->
  let y := g_length f64_add f64_mul f64_sqrt f64_zero xs in
  fin64 y -> Rabs (v64 y - euclid (map v64 xs)) <= 2 * INR (n + 1) * u64 * euclid (map v64 xs).
Proof.
  intros Lx Hn H y F. assert (Nx : xs <> []) by (intros ->; simpl in Lx; lia).
  assert (L : @length (binary_float 53 1024) xs = n) by exact Lx.
  assert (D := length_within 53 1024 eq_refl eq_refl binop_nan_pl64 binop_nan_pl64 unop_nan_pl64 f64_zero 0%nat xs (map v64 xs)
    (exact_within _ _ _) H Nx F).
  rewrite L in D. apply (within_error 53 eq_refl) in D; [|eapply Rle_trans; [apply (small_bound P64); simpl; lia|lra]].
  rewrite (Rabs_pos_eq (norm _)) in D by apply sqrt_pos. rewrite (Nat.add_comm n). exact D.
Qed.
Theorem C61_length : forall M v (xs : list (fl (precision_of v))),
  length xs = num_dims v -> Forall (fun x => representable (precision_of v) (real x * real x)) xs ->
  exists y : fl (precision_of v), vec_value M v VLength [vector xs] = Some (scalar y) /\
    (finite y ->
     Rabs (real y - euclid (map real xs)) <=
       2 * INR (num_dims v + 1) * half_ulp (precision_of v) * euclid (map real xs)).
Proof.
  intros M v xs Lx H.
  destruct v; eexists; (split; [reflexivity|]);
    first [exact (length_error32 xs _ Lx ltac:(simpl; lia) H)|exact (length_error64 xs _ Lx ltac:(simpl; lia) H)].
Qed.
Print Assumptions C61_length.

(** For distances: the squares of the exact differences, with a little room. *)
Definition largest_power (p : precision) : Z := match p with P32 => 128 | P64 => 1024 end.
Definition comfortable (p : precision) (r : R) : Prop :=
  r = 0 \/ 4 * smallest_normal p <= Rabs r <= bpow radix2 (largest_power p - 3).
Lemma comfortable_range p (d e : R) : comfortable p (d * d) -> Rabs e <= half_ulp p ->
  representable p ((d * (1 + e)) * (d * (1 + e))).
Proof.
  intros C Be. assert (B8 : Rabs e <= / 8).
  { eapply Rle_trans; [exact Be|]. pose proof (small_bound p 1 ltac:(lia)) as B. simpl in B. lra. }
  apply Rabs_le_inv in B8.
  replace (d * (1 + e) * (d * (1 + e))) with (d * d * ((1 + e) * (1 + e))) by ring.
  assert (Q : / 2 <= (1 + e) * (1 + e) <= 2) by (split; nra).
  destruct C as [Z|[L U]]; [rewrite Z, Rmult_0_l; destruct p; left; reflexivity|].
  assert (G : 2 * smallest_normal p <= Rabs (d * d * ((1 + e) * (1 + e))) <= bpow radix2 (largest_power p - 2)).
  { rewrite Rabs_mult, (Rabs_pos_eq ((1 + e) * (1 + e))) by lra. pose proof (Rabs_pos (d * d)).
    assert (0 < smallest_normal p) by (destruct p; apply bpow_gt_0). split; [nra|].
    replace (largest_power p - 2)%Z with (largest_power p - 3 + 1)%Z by ring. rewrite bpow_plus.
    change (bpow radix2 1) with 2. assert (0 < bpow radix2 (largest_power p - 3)) by apply bpow_gt_0. nra. }
  destruct G as [G1 G2]. destruct p; right; (split; [cbn [smallest_normal] in G1|cbn [largest_power] in G2]).
  - eapply Rle_trans; [|exact G1]. change (3 - 128 - 24 + 24 - 1)%Z with (-126)%Z. pose proof (bpow_gt_0 radix2 (-126)). lra.
  - eapply Rle_trans; [exact G2|]. replace (bpow radix2 128) with (4 * bpow radix2 (128 - 2)) by (change 4 with (bpow radix2 2); rewrite <- bpow_plus; reflexivity).
    pose proof (bpow_gt_0 radix2 (128 - 2)). pose proof (small_bound P32 1 ltac:(lia)) as B. cbn [half_ulp INR] in B. change (- (24))%Z with (-24)%Z.
    set (b := bpow radix2 (128 - 2)) in *. set (w := bpow radix2 (-24)) in *. nra.
  - eapply Rle_trans; [|exact G1]. change (3 - 1024 - 53 + 53 - 1)%Z with (-1022)%Z. pose proof (bpow_gt_0 radix2 (-1022)). lra.
  - eapply Rle_trans; [exact G2|]. replace (bpow radix2 1024) with (4 * bpow radix2 (1024 - 2)) by (change 4 with (bpow radix2 2); rewrite <- bpow_plus; reflexivity).
    pose proof (bpow_gt_0 radix2 (1024 - 2)). pose proof (small_bound P64 1 ltac:(lia)) as B. cbn [half_ulp INR] in B. change (- (53))%Z with (-53)%Z.
    set (b := bpow radix2 (1024 - 2)) in *. set (w := bpow radix2 (-53)) in *. nra.
Qed.
Lemma diffs_range32 xs : forall ys,
  Forall (fun d => comfortable P32 (d * d)) (differences (map v32 xs) (map v32 ys)) ->
  Forall (fun x => fin32 x) (g_zip f32_sub xs ys) ->
  Forall (fun x => range32 (v32 x * v32 x)) (g_zip f32_sub xs ys).
Proof.
  unfold g_zip, differences. induction xs as [|x xs IH]; intros [|y ys] C F; try constructor;
    cbn [map combine fst snd] in *; inversion C; subst; inversion F; subst; [|now apply IH].
  assert (Fxy : fin32 (f32_sub x y)) by assumption. unfold f32_sub, b32_minus in Fxy |- *.
  destruct (sub_finite _ _ _ _ _ _ _ Fxy) as [Fx Fy].
  destruct (sub_error 24 128 eq_refl eq_refl binop_nan_pl32 x y Fx Fy Fxy) as (e & Be & E). rewrite E.
  apply (comfortable_range P32); assumption.
Qed.
Lemma diffs_range64 xs : forall ys,
  Forall (fun d => comfortable P64 (d * d)) (differences (map v64 xs) (map v64 ys)) ->
  Forall (fun x => fin64 x) (g_zip f64_sub xs ys) ->
  Forall (fun x => range64 (v64 x * v64 x)) (g_zip f64_sub xs ys).
Proof.
  unfold g_zip, differences. induction xs as [|x xs IH]; intros [|y ys] C F; try constructor;
    cbn [map combine fst snd] in *; inversion C; subst; inversion F; subst; [|now apply IH].
  assert (Fxy : fin64 (f64_sub x y)) by assumption. unfold f64_sub, b64_minus in Fxy |- *.
  destruct (sub_finite _ _ _ _ _ _ _ Fxy) as [Fx Fy].
  destruct (sub_error 53 1024 eq_refl eq_refl binop_nan_pl64 x y Fx Fy Fxy) as (e & Be & E). rewrite E.
  apply (comfortable_range P64); assumption.
Qed.
Lemma sqrt_arg_fin prec emax Hp He nan (x : binary_float prec emax) :
  is_finite prec emax (Bsqrt prec emax Hp He nan mode_NE x) = true -> is_finite prec emax x = true.
Proof.
  intros F. destruct (Bsqrt_correct prec emax Hp He nan mode_NE x) as (_ & E & _).
  rewrite E in F. destruct x as [| | |[]]; try discriminate F; reflexivity.
Qed.
Lemma zip_length {F} (f : F -> F -> F) n xs ys : length xs = n -> length ys = n -> length (g_zip f xs ys) = n.
Proof. intros. unfold g_zip. rewrite map_length, combine_length. lia. Qed.

Lemma distance_error32 (xs ys : list f32) n : length xs = n -> length ys = n -> (1 <= n <= 3)%nat ->
  Forall (fun d => comfortable P32 (d * d)) (differences (map v32 xs) (map v32 ys)) ->
  let y := g_distance f32_add f32_sub f32_mul f32_sqrt f32_zero xs ys in
  fin32 y -> Rabs (v32 y - euclid (differences (map v32 xs) (map v32 ys)))
    <= 2 * INR (n + 3) * u32 * euclid (differences (map v32 xs) (map v32 ys)).
Proof.
  intros Lx Ly Hn H y F. assert (L := zip_length f32_sub n xs ys Lx Ly).
  assert (Nz : g_zip f32_sub xs ys <> []) by (intros E; rewrite E in L; simpl in L; lia).
  assert (FZ : Forall (fun x => fin32 x) (g_zip f32_sub xs ys)).
  { unfold y, g_distance, g_length in F. apply sqrt_arg_fin in F. apply dot_self_fin in F. exact F. }
  assert (D := distance_within 24 128 eq_refl eq_refl binop_nan_pl32 binop_nan_pl32 binop_nan_pl32 unop_nan_pl32 f32_zero xs ys
    (diffs_range32 xs ys H FZ) Nz F).
  change (length (g_zip (Bminus 24 128 eq_refl eq_refl binop_nan_pl32 mode_NE) xs ys)) with (length (g_zip f32_sub xs ys)) in D.
  rewrite L in D. apply (within_error 24 eq_refl) in D; [|eapply Rle_trans; [apply (small_bound P32); lia|lra]].
  rewrite (Rabs_pos_eq (norm _)) in D by apply sqrt_pos. rewrite (Nat.add_comm n). exact D.
Qed.
Lemma distance_squared_error32 (xs ys : list f32) n : length xs = n -> length ys = n -> (1 <= n <= 3)%nat ->
  Forall (fun d => comfortable P32 (d * d)) (differences (map v32 xs) (map v32 ys)) ->
  let y := g_distance_squared f32_add f32_sub f32_mul f32_zero xs ys in
  fin32 y -> Rabs (v32 y - sumsq (differences (map v32 xs) (map v32 ys)))
    <= 2 * INR (n + 2) * u32 * sumsq (differences (map v32 xs) (map v32 ys)).
Proof.
  intros Lx Ly Hn H y F. assert (L := zip_length f32_sub n xs ys Lx Ly).
  assert (Nz : g_zip f32_sub xs ys <> []) by (intros E; rewrite E in L; simpl in L; lia).
  assert (FZ : Forall (fun x => fin32 x) (g_zip f32_sub xs ys)).
  { unfold y, g_distance_squared in F. cbv zeta in F. apply dot_self_fin in F. exact F. }
  assert (D := distance_squared_within 24 128 eq_refl eq_refl binop_nan_pl32 binop_nan_pl32 binop_nan_pl32 f32_zero xs ys
    (diffs_range32 xs ys H FZ) Nz F).
  change (length (g_zip (Bminus 24 128 eq_refl eq_refl binop_nan_pl32 mode_NE) xs ys)) with (length (g_zip f32_sub xs ys)) in D.
  rewrite L in D. apply (within_error 24 eq_refl) in D; [|eapply Rle_trans; [apply (small_bound P32); lia|lra]].
  rewrite (Rabs_pos_eq (sumsq _)) in D by apply sumsq_nonneg. rewrite (Nat.add_comm n). exact D.
Qed.
Lemma distance_error64 (xs ys : list f64) n : length xs = n -> length ys = n -> (1 <= n <= 3)%nat ->
  Forall (fun d => comfortable P64 (d * d)) (differences (map v64 xs) (map v64 ys)) ->
  let y := g_distance f64_add f64_sub f64_mul f64_sqrt f64_zero xs ys in
  fin64 y -> Rabs (v64 y - euclid (differences (map v64 xs) (map v64 ys)))
    <= 2 * INR (n + 3) * u64 * euclid (differences (map v64 xs) (map v64 ys)).
Proof.
  intros Lx Ly Hn H y F. assert (L := zip_length f64_sub n xs ys Lx Ly).
  assert (Nz : g_zip f64_sub xs ys <> []) by (intros E; rewrite E in L; simpl in L; lia).
  assert (FZ : Forall (fun x => fin64 x) (g_zip f64_sub xs ys)).
  { unfold y, g_distance, g_length in F. apply sqrt_arg_fin in F. apply dot_self_fin in F. exact F. }
  assert (D := distance_within 53 1024 eq_refl eq_refl binop_nan_pl64 binop_nan_pl64 binop_nan_pl64 unop_nan_pl64 f64_zero xs ys
    (diffs_range64 xs ys H FZ) Nz F).
  change (length (g_zip (Bminus 53 1024 eq_refl eq_refl binop_nan_pl64 mode_NE) xs ys)) with (length (g_zip f64_sub xs ys)) in D.
  rewrite L in D. apply (within_error 53 eq_refl) in D; [|eapply Rle_trans; [apply (small_bound P64); lia|lra]].
  rewrite (Rabs_pos_eq (norm _)) in D by apply sqrt_pos. rewrite (Nat.add_comm n). exact D.
Qed.
Lemma distance_squared_error64 (xs ys : list f64) n : length xs = n -> length ys = n -> (1 <= n <= 3)%nat ->
  Forall (fun d => comfortable P64 (d * d)) (differences (map v64 xs) (map v64 ys)) ->
  let y := g_distance_squared f64_add f64_sub f64_mul f64_zero xs ys in
  fin64 y -> Rabs (v64 y - sumsq (differences (map v64 xs) (map v64 ys)))
    <= 2 * INR (n + 2) * u64 * sumsq (differences (map v64 xs) (map v64 ys)).
Proof.
  intros Lx Ly Hn H y F. assert (L := zip_length f64_sub n xs ys Lx Ly).
  assert (Nz : g_zip f64_sub xs ys <> []) by (intros E; rewrite E in L; simpl in L; lia).
  assert (FZ : Forall (fun x => fin64 x) (g_zip f64_sub xs ys)).
  { unfold y, g_distance_squared in F. cbv zeta in F. apply dot_self_fin in F. exact F. }
  assert (D := distance_squared_within 53 1024 eq_refl eq_refl binop_nan_pl64 binop_nan_pl64 binop_nan_pl64 f64_zero xs ys
    (diffs_range64 xs ys H FZ) Nz F).
  change (length (g_zip (Bminus 53 1024 eq_refl eq_refl binop_nan_pl64 mode_NE) xs ys)) with (length (g_zip f64_sub xs ys)) in D.
  rewrite L in D. apply (within_error 53 eq_refl) in D; [|eapply Rle_trans; [apply (small_bound P64); lia|lra]].
  rewrite (Rabs_pos_eq (sumsq _)) in D by apply sumsq_nonneg. rewrite (Nat.add_comm n). exact D.
Qed.
Theorem C61_distance : forall M v (xs ys : list (fl (precision_of v))),
  length xs = num_dims v -> length ys = num_dims v ->
  Forall (fun d => comfortable (precision_of v) (d * d)) (differences (map real xs) (map real ys)) ->
  exists y : fl (precision_of v), vec_value M v VDistance [vector xs; vector ys] = Some (scalar y) /\
    (finite y ->
     Rabs (real y - euclid (differences (map real xs) (map real ys))) <=
       2 * INR (num_dims v + 3) * half_ulp (precision_of v) * euclid (differences (map real xs) (map real ys))).
Proof.
  intros M v xs ys Lx Ly H.
  destruct v; eexists; (split; [reflexivity|]);
    first [exact (distance_error32 xs ys _ Lx Ly ltac:(simpl; lia) H)|exact (distance_error64 xs ys _ Lx Ly ltac:(simpl; lia) H)].
Qed.
Print Assumptions C61_distance.
Theorem C61_distance_squared : forall M v (xs ys : list (fl (precision_of v))),
  length xs = num_dims v -> length ys = num_dims v ->
  Forall (fun d => comfortable (precision_of v) (d * d)) (differences (map real xs) (map real ys)) ->
  exists y : fl (precision_of v), vec_value M v VDistanceSquared [vector xs; vector ys] = Some (scalar y) /\
    (finite y ->
     Rabs (real y - (euclid (differences (map real xs) (map real ys))) ^ 2) <=
       2 * INR (num_dims v + 2) * half_ulp (precision_of v) * (euclid (differences (map real xs) (map real ys))) ^ 2).
Proof.
  intros M v xs ys Lx Ly H.
  assert (SQ : forall ds, (euclid ds) ^ 2 = sumsq ds).
  { intros ds. simpl. rewrite Rmult_1_r. apply sqrt_sqrt. apply sumsq_nonneg. }
  rewrite SQ.
  destruct v; eexists; (split; [reflexivity|]);
    first [exact (distance_squared_error32 xs ys _ Lx Ly ltac:(simpl; lia) H)
          |exact (distance_squared_error64 xs ys _ Lx Ly ltac:(simpl; lia) H)].
Qed.
Print Assumptions C61_distance_squared.

Lemma normalize_error32 (xs : list f32) n : length xs = n -> (1 <= n <= 3)%nat ->
  Forall (fun x => range32 (v32 x * v32 x)) xs ->
  fin32 (g_length f32_add f32_mul f32_sqrt f32_zero xs) ->
  bpow radix2 (3 - 128) <= euclid (map v32 xs) <= bpow radix2 (128 - 3) ->
  (forall x, In x xs -> v32 x = 0 \/ 4 * bpow radix2 (2 - 128) <= Rabs (v32 x / euclid (map v32 xs))) ->
  forall i x, nth_error xs i = Some x ->
  exists y, nth_error (g_normalize f32_add f32_mul f32_div f32_sqrt f32_zero f32_one xs) i = Some y /\ fin32 y /\
    Rabs (v32 y - v32 x / euclid (map v32 xs)) <= 4 * INR (4 + n) * u32 * Rabs (v32 x / euclid (map v32 xs)).
Proof.
  intros Lx Hn H FL BL HX i x Hx.
  assert (L : @length (binary_float 24 128) xs = n) by exact Lx.
  assert (Nx : xs <> []) by (intros ->; simpl in Lx; lia).
  assert (D := normalize_accurate 24 128 eq_refl eq_refl binop_nan_pl32 binop_nan_pl32 binop_nan_pl32 unop_nan_pl32 f32_zero f32_one xs).
  rewrite L in D. rewrite (plus_INR 4 n). replace (INR 4) with 4 by (simpl; ring).
  apply D; auto.
  - compute; lra.
  - replace 4 with (INR 4) by (simpl; ring). rewrite <- plus_INR. apply (small_bound P32). lia.
  - lia.
Qed.
Lemma normalize_error64 (xs : list f64) n : length xs = n -> (1 <= n <= 3)%nat ->
  Forall (fun x => range64 (v64 x * v64 x)) xs ->
  fin64 (g_length f64_add f64_mul f64_sqrt f64_zero xs) ->
  bpow radix2 (3 - 1024) <= euclid (map v64 xs) <= bpow radix2 (1024 - 3) ->
  (forall x, In x xs -> v64 x = 0 \/ 4 * bpow radix2 (2 - 1024) <= Rabs (v64 x / euclid (map v64 xs))) ->
  forall i x, nth_error xs i = Some x ->
  exists y, nth_error (g_normalize f64_add f64_mul f64_div f64_sqrt f64_zero f64_one xs) i = Some y /\ fin64 y /\
    Rabs (v64 y - v64 x / euclid (map v64 xs)) <= 4 * INR (4 + n) * u64 * Rabs (v64 x / euclid (map v64 xs)).
Proof.
  intros Lx Hn H FL BL HX i x Hx.
  assert (L : @length (binary_float 53 1024) xs = n) by exact Lx.
  assert (Nx : xs <> []) by (intros ->; simpl in Lx; lia).
  assert (D := normalize_accurate 53 1024 eq_refl eq_refl binop_nan_pl64 binop_nan_pl64 binop_nan_pl64 unop_nan_pl64 f64_zero f64_one xs).
  rewrite L in D. rewrite (plus_INR 4 n). replace (INR 4) with 4 by (simpl; ring).
  apply D; auto.
  - compute; lra.
  - replace 4 with (INR 4) by (simpl; ring). rewrite <- plus_INR. apply (small_bound P64). lia.
  - lia.
Qed.
Lemma get32 o len : o = Some (RF32 len) -> fin32 len -> match o with Some (RF32 y) => fin32 y | _ => False end.
Proof. intros ->. auto. Qed.
Lemma get64 o len : o = Some (RF64 len) -> fin64 len -> match o with Some (RF64 y) => fin64 y | _ => False end.
Proof. intros ->. auto. Qed.
(** Each component of a normalized vector is the component divided by the length, as long as the length
    is of moderate size and no component is lost to underflow. *)
Theorem C61_normalize : forall M v (xs : list (fl (precision_of v))),
  length xs = num_dims v -> Forall (fun x => representable (precision_of v) (real x * real x)) xs ->
  bpow radix2 (3 - largest_power (precision_of v)) <= euclid (map real xs) <= bpow radix2 (largest_power (precision_of v) - 3) ->
  (forall x, In x xs -> real x = 0 \/ 4 * smallest_normal (precision_of v) <= Rabs (real x / euclid (map real xs))) ->
  (exists len : fl (precision_of v), vec_value M v VLength [vector xs] = Some (scalar len) /\ finite len) ->
  exists ys : list (fl (precision_of v)), vec_value M v VNormalize [vector xs] = Some (vector ys) /\
    length ys = num_dims v /\
    forall i x, nth_error xs i = Some x -> exists y, nth_error ys i = Some y /\ finite y /\
      Rabs (real y - real x / euclid (map real xs)) <=
        4 * INR (4 + num_dims v) * half_ulp (precision_of v) * Rabs (real x / euclid (map real xs)).
Proof.
  intros M v xs Lx H BL HX (len & VL & FL).
  destruct v; eexists; (split; [reflexivity|]); (split; [etransitivity; [apply map_length|exact Lx]|]).
  - exact (normalize_error32 xs _ Lx ltac:(simpl; lia) H (get32 _ _ VL FL) BL HX).
  - exact (normalize_error64 xs _ Lx ltac:(simpl; lia) H (get64 _ _ VL FL) BL HX).
  - exact (normalize_error32 xs _ Lx ltac:(simpl; lia) H (get32 _ _ VL FL) BL HX).
  - exact (normalize_error64 xs _ Lx ltac:(simpl; lia) H (get64 _ _ VL FL) BL HX).
Qed.
Print Assumptions C61_normalize.

(** ** The hypotheses can be met: the vector (3, 4) *)
Example C61_applies :
  let xs := [f64_of_Z 3; f64_of_Z 4] in
  vec_value math0 DVec2 VNew (map RF64 xs) = Some (RVec64 xs) /\
  (exists y, vec_value math0 DVec2 VLength [RVec64 xs] = Some (RF64 y) /\ v64 y = 5) /\
  (exists y, vec_value math0 DVec2 VDot [RVec64 xs; RVec64 xs] = Some (RF64 y) /\ v64 y = 25) /\
  vec_call (ops IntegerExponents) lt methods_features DVec2 VDistanceSquared
    [vector_of IntegerExponents DVec2 d_length; vector_of IntegerExponents DVec2 d_length]
    (float_of IntegerExponents DVec2 [("length", 2%Z); ("time", 0%Z)]%string).
Proof.
  cbv zeta. split; [reflexivity|]. split; [|split].
  - eexists. split; [reflexivity|]. compute. lra.
  - eexists. split; [reflexivity|]. compute. lra.
  - split; [simpl; tauto|]. exists d_length. cbv zeta. split; [reflexivity|]. eexists. split; reflexivity.
Qed.
Example C61_range_applies : forall x : f64, x = f64_of_Z 3 -> representable P64 (v64 x * v64 x) /\ comfortable P64 (v64 x * v64 x).
Proof.
  intros x ->. replace (v64 (f64_of_Z 3)) with 3 by (compute; lra).
  assert (A : Rabs (3 * 3) = 9) by (rewrite Rabs_pos_eq; lra).
  assert (B : bpow radix2 (-1022) <= 1) by (change 1 with (bpow radix2 0); apply bpow_le; lia).
  assert (C : 32 <= bpow radix2 1000) by (change 32 with (bpow radix2 5); apply bpow_le; lia).
  assert (D : bpow radix2 1000 <= bpow radix2 (1024 - 3)) by (apply bpow_le; lia).
  assert (E : bpow radix2 (1024 - 3) <= bpow radix2 1024) by (apply bpow_le; lia).
  assert (G : bpow radix2 (-53) <= / 2) by (change (/ 2) with (bpow radix2 (-1)); apply bpow_le; lia).
  split; right; rewrite A.
  - change (3 - 1024 - 53 + 53 - 1)%Z with (-1022)%Z. change (- (53))%Z with (-53)%Z.
    set (a := bpow radix2 1024) in *. set (b := bpow radix2 (-53)) in *. split; [lra|]. assert (0 < a) by lra. nra.
  - cbn [smallest_normal largest_power]. split; lra.
Qed.
