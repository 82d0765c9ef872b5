(** * Properties of units: C10-C14

    Vocabulary.  A [thing] is a unit ([UnitC] compile-time, [UnitR] built at run time, both with
    dimension and factor), a quantity [Quant d x] or a bare number.  [unit_mul l r = Some t]: [l * r]
    compiles and gives [t].  [has t v r]: [t] has exponents [v] and (double precision) value [r]: a
    unit counts with its factor, a bare number is dimensionless. *)
From Coq Require Import String List Bool ZArith QArith Qcanon Reals Lia Lra Psatz Permutation.
From Flocq Require Import Core IEEE754.Binary IEEE754.Bits.
From Verif Require Import MachineInt Ratio RatioFacts F64 DecimalFacts Magnitude MagnitudeFacts NumericFacts
  FloatFacts Exponent ExponentFacts SMap Types CodegenDimension CodegenDimensionFacts CodegenLiteral
  Storage Raw UnitOps Setting ExampleSystems PropertiesNumeric PropertiesDimension.
Import ListNotations.
Local Close Scope Q_scope.
Local Close Scope Qc_scope.
Local Open Scope list_scope.
Local Open Scope R_scope.

Notation unit_mul k fields env := (unit_mul (ops k) fields env).
Notation unit_div k fields env := (unit_div (ops k) fields env).
Notation unit_new k env := (unit_new (ops k) env).
Notation value_in k env := (value_in (ops k) env).
Notation thing k := (thing (ops k)).

(** Results in single or double precision. *)
Inductive precision := P32 | P64.
Definition stored (p : precision) (x : raw) (r : R) : Prop :=
  match p, x with
  | P64, RF64 x => fin64 x /\ r = v64 x
  | P32, RF32 x => fin32 x /\ r = v32 x
  | _, _ => False
  end.
Definition factor (p : precision) env (f : magnitude) (r : R) : Prop :=
  match p with
  | P64 => stored P64 (RF64 (into_f64 env f)) r
  | P32 => stored P32 (RF32 (into_f32 env f)) r
  end.
Definition has (p : precision) k fields env (t : thing k) (v : string -> Qc) (r : R) : Prop :=
  match t with
  | UnitC d f | UnitR d f => denotes k fields d v /\ factor p env f r
  | Quant d x => denotes k fields d v /\ stored p x r
  | Number x => (forall f, v f = ZQc 0) /\ stored p x r
  end.
(** [t] is a quantity with exponents [v] whose value is the float nearest to [r]. *)
Definition nearest_raw (p : precision) (r : R) (y : raw) : Prop :=
  match p, y with
  | P64, RF64 y => nearest r y
  | P32, RF32 y => nearest32 r y
  | _, _ => False
  end.
Definition rounds_to (p : precision) k fields (t : thing k) (v : string -> Qc) (r : R) : Prop :=
  exists d y, t = Quant d y /\ denotes k fields d v /\ nearest_raw p r y.

Lemma denotes_same k fields d v w : NoDup fields -> (forall f, In f fields -> v f = w f) ->
  denotes k fields d v -> denotes k fields d w.
Proof. intros. eapply stands_for_proper; eauto. Qed.

Lemma zero_add (x : Qc) : (x + ZQc 0 = x)%Qc. Proof. rewrite DimensionMathFacts.ZQc_0. ring. Qed.
Lemma zero_add_l (x : Qc) : (ZQc 0 + x = x)%Qc. Proof. rewrite DimensionMathFacts.ZQc_0. ring. Qed.
Lemma zero_sub (x : Qc) : (x - ZQc 0 = x)%Qc. Proof. rewrite DimensionMathFacts.ZQc_0. ring. Qed.

Lemma quant_inv k d x (t : thing k) :
  quant (ops k) d x = Some t -> exists d' y, d = Some d' /\ x = Some y /\ t = Quant d' y.
Proof. destruct d, x; try discriminate. intros H. injection H as <-. eauto. Qed.

(** Products and quotients of stored values by factors. *)
Lemma raw_mul_mag_near p env x f y a b : stored p x a -> factor p env f b ->
  raw_mul_mag env x f = Some y -> nearest_raw p (a * b) y.
Proof.
  destruct p, x; cbn [stored factor]; try contradiction; intros [F1 ->] [F2 ->] H; injection H as <-.
  - now apply f32_mul_nearest.
  - now apply f64_mul_nearest.
Qed.
Lemma raw_div_mag_near p env x f y a b : stored p x a -> factor p env f b -> b <> 0 ->
  raw_div_mag env x f = Some y -> nearest_raw p (a / b) y.
Proof.
  destruct p, x; cbn [stored factor]; try contradiction; intros [F1 ->] [F2 ->] N H; injection H as <-.
  - now apply f32_div_nearest.
  - now apply f64_div_nearest.
Qed.
Lemma raw_mul_near p x y z a b : stored p x a -> stored p y b ->
  raw_mul x y = Some z -> nearest_raw p (a * b) z.
Proof.
  destruct p, x, y; cbn [stored]; try contradiction; intros [F1 ->] [F2 ->] H; injection H as <-.
  - now apply f32_mul_nearest.
  - now apply f64_mul_nearest.
Qed.
Lemma raw_div_near p x y z a b : stored p x a -> stored p y b -> b <> 0 ->
  raw_div x y = Some z -> nearest_raw p (a / b) z.
Proof.
  destruct p, x, y; cbn [stored]; try contradiction; intros [F1 ->] [F2 ->] N H; injection H as <-.
  - now apply f32_div_nearest.
  - now apply f64_div_nearest.
Qed.
Lemma conversion_stored p env x f a b : stored p x a -> factor p env f b -> stored p (conversion env x f) b.
Proof. destruct p, x; cbn; tauto. Qed.

(** ** C10 *)
(** Every product with a unit (quantity or number on either side) has the product of the values and
    the sum of the exponents. *)
Theorem C10_products : forall p k fields env l r t vl vr a b,
  NoDup fields -> has p k fields env l vl a -> has p k fields env r vr b ->
  unit_mul k fields env l r = Some t -> (forall d f, t <> UnitR d f) ->
  rounds_to p k fields t (fun f => (vl f + vr f)%Qc) (a * b).
Proof.
  intros p k fields env l r t vl vr a b N Hl Hr H NU.
  destruct l as [dl fl|dl fl|dl x|x], r as [dr fr|dr fr|dr y|y]; try discriminate H;
    cbn [has] in Hl, Hr; destruct Hl as (Dl & Vl), Hr as (Dr & Vr); unfold UnitOps.unit_mul in H.
  - destruct (dim_add _ _ dl dr) as [d|]; [|discriminate]. injection H as <-. exfalso. eapply NU; reflexivity.
  - apply quant_inv in H as (d & z & E1 & E2 & ->). do 2 eexists. split; [reflexivity|].
    split; [eapply dim_add_spec; eauto|]. rewrite Rmult_comm. eapply raw_mul_mag_near; eauto.
  - apply quant_inv in H as (d & z & E1 & E2 & ->). injection E1 as <-. do 2 eexists. split; [reflexivity|]. split.
    + eapply denotes_same; [auto| |exact Dl]. intros f _. now rewrite Dr, zero_add.
    + eapply raw_mul_near; [|exact Vr|exact E2]. eapply conversion_stored; eauto.
  - apply quant_inv in H as (d & z & E1 & E2 & ->). do 2 eexists. split; [reflexivity|].
    split; [eapply dim_add_spec; eauto|]. rewrite Rmult_comm. eapply raw_mul_mag_near; eauto.
  - apply quant_inv in H as (d & z & E1 & E2 & ->). injection E1 as <-. do 2 eexists. split; [reflexivity|]. split.
    + eapply denotes_same; [auto| |exact Dl]. intros f _. now rewrite Dr, zero_add.
    + eapply raw_mul_near; [|exact Vr|exact E2]. eapply conversion_stored; eauto.
  - apply quant_inv in H as (d & z & E1 & E2 & ->). do 2 eexists. split; [reflexivity|].
    split; [eapply dim_add_spec; eauto|]. eapply raw_mul_mag_near; eauto.
  - apply quant_inv in H as (d & z & E1 & E2 & ->). do 2 eexists. split; [reflexivity|].
    split; [eapply dim_add_spec; eauto|]. eapply raw_mul_mag_near; eauto.
  - apply quant_inv in H as (d & z & E1 & E2 & ->). injection E1 as <-. do 2 eexists. split; [reflexivity|]. split.
    + eapply denotes_same; [auto| |exact Dr]. intros f _. now rewrite Dl, zero_add_l.
    + eapply raw_mul_near; [exact Vl| |exact E2]. eapply conversion_stored; eauto.
  - apply quant_inv in H as (d & z & E1 & E2 & ->). injection E1 as <-. do 2 eexists. split; [reflexivity|]. split.
    + eapply denotes_same; [auto| |exact Dr]. intros f _. now rewrite Dl, zero_add_l.
    + eapply raw_mul_near; [exact Vl| |exact E2]. eapply conversion_stored; eauto.
Qed.
Print Assumptions C10_products.

(** A quantity divided by a unit. *)
Theorem C10_C11_quantity_by_unit : forall p k fields env d x u t vl vr a b,
  has p k fields env (Quant d x) vl a -> has p k fields env u vr b -> b <> 0 ->
  (exists d f, u = UnitC d f \/ u = UnitR d f) -> NoDup fields ->
  unit_div k fields env (Quant d x) u = Some t ->
  rounds_to p k fields t (fun f => (vl f - vr f)%Qc) (a / b).
Proof.
  intros p k fields env d x u t vl vr a b (Dl & Vl) Hr NB (dr & f & U) N H.
  assert (R : exists z d', dsub k fields d dr = Some d' /\ raw_div_mag env x f = Some z /\ t = Quant d' z).
  { destruct U as [-> | ->]; simpl in H; apply quant_inv in H as (d' & z & ? & ? & ->); eauto. }
  assert (D : denotes k fields dr vr /\ factor p env f b) by (destruct U as [-> | ->]; exact Hr).
  destruct R as (z & d' & E1 & E2 & ->), D as (Dr & Vr). do 2 eexists. split; [reflexivity|].
  split; [eapply dim_sub_spec; eauto|]. eapply raw_div_mag_near; eauto.
Qed.
Print Assumptions C10_C11_quantity_by_unit.

Definition is_unit k (u : thing k) (d : dimval (ops k)) (f : magnitude) : Prop := u = UnitC d f \/ u = UnitR d f.

Lemma factor_not_nan env lo f : good_platform env lo -> encoded f -> is_nan 53 1024 (into_f64 env f) = false.
Proof.
  intros G [x ->]. rewrite (C37_roundtrip env lo) by auto.
  destruct (is_finite 53 1024 x) eqn:E; [|reflexivity].
  destruct (Rlt_bool _ _); [reflexivity|]. destruct x; simpl in *; congruence.
Qed.
Lemma to_f32_not_nan x : is_nan 53 1024 x = false -> is_nan 24 128 (f64_to_f32 x) = false.
Proof.
  intros N. destruct (is_finite 53 1024 x) eqn:F.
  - pose proof (f64_to_f32_nearest x F) as H. unfold nearest32 in H.
    destruct (Rlt_bool _ _); [destruct H as [H _]|rewrite H; reflexivity].
    destruct (f64_to_f32 x); simpl in *; congruence.
  - destruct x; try discriminate; reflexivity.
Qed.

(** [x * u], [u * x] and [u.new(x)] agree, for doubles and floats, with exactly the unit's
    dimension. *)
Theorem C10_three_ways : forall k fields env lo u d f x,
  good_platform env lo -> encoded f -> is_unit k u d f ->
  (exists a, x = RF64 a) \/ (exists a, x = RF32 a) ->
  exists y, unit_mul k fields env (Number x) u = Some (Quant d y) /\
            unit_mul k fields env u (Number x) = Some (Quant d y) /\
            unit_new k env u x = Some (Quant d y) /\
            (forall a, x = RF64 a -> exists b, y = RF64 b /\
               (fin64 a -> fin64 (into_f64 env f) -> nearest (v64 a * v64 (into_f64 env f)) b)) /\
            (forall a, x = RF32 a -> exists b, y = RF32 b /\
               (fin32 a -> fin32 (into_f32 env f) -> nearest32 (v32 a * v32 (into_f32 env f)) b)).
Proof.
  intros k fields env lo u d f x G E U X. pose proof (factor_not_nan env lo f G E) as NN.
  destruct X as [[a ->]|[a ->]].
  - exists (RF64 (f64_mul a (into_f64 env f))).
    assert (C : f64_mul (into_f64 env f) a = f64_mul a (into_f64 env f)).
    { apply f64_mul_comm. now rewrite NN. }
    destruct U as [-> | ->]; simpl; rewrite C; repeat split; try (intros a' Ha; discriminate Ha);
      (intros a' Ha; injection Ha as <-; eexists; split; [reflexivity|]; intros; now apply f64_mul_nearest).
  - exists (RF32 (f32_mul a (into_f32 env f))).
    assert (C : f32_mul (into_f32 env f) a = f32_mul a (into_f32 env f)).
    { apply f32_mul_comm. unfold into_f32. now rewrite (to_f32_not_nan _ NN). }
    destruct U as [-> | ->]; simpl; rewrite C; repeat split; try (intros a' Ha; discriminate Ha);
      (intros a' Ha; injection Ha as <-; eexists; split; [reflexivity|]; intros; now apply f32_mul_nearest).
Qed.
Print Assumptions C10_three_ways.

(** Vectors: both products agree and scale every component; [u.new(vector)] does not exist. *)
Theorem C10_vectors : forall k fields env lo u d f,
  good_platform env lo -> encoded f -> is_unit k u d f ->
  (forall xs, exists ys,
     unit_mul k fields env (Number (RVec64 xs)) u = Some (Quant d (RVec64 ys)) /\
     unit_mul k fields env u (Number (RVec64 xs)) = Some (Quant d (RVec64 ys)) /\
     ys = map (fun x => f64_mul x (into_f64 env f)) xs /\ unit_new k env u (RVec64 xs) = None) /\
  (forall xs, exists ys,
     unit_mul k fields env (Number (RVec32 xs)) u = Some (Quant d (RVec32 ys)) /\
     unit_mul k fields env u (Number (RVec32 xs)) = Some (Quant d (RVec32 ys)) /\
     ys = map (fun x => f32_mul x (into_f32 env f)) xs /\ unit_new k env u (RVec32 xs) = None).
Proof.
  intros k fields env lo u d f G E U. pose proof (factor_not_nan env lo f G E) as NN. split; intros xs.
  - exists (map (fun x => f64_mul x (into_f64 env f)) xs).
    assert (C : map (fun y => f64_mul (into_f64 env f) y) xs = map (fun x => f64_mul x (into_f64 env f)) xs).
    { apply map_ext. intros a. apply f64_mul_comm. now rewrite NN. }
    destruct U as [-> | ->]; simpl; rewrite C; auto.
  - exists (map (fun x => f32_mul x (into_f32 env f)) xs).
    assert (C : map (fun y => f32_mul (into_f32 env f) y) xs = map (fun x => f32_mul x (into_f32 env f)) xs).
    { apply map_ext. intros a. apply f32_mul_comm. unfold into_f32. now rewrite (to_f32_not_nan _ NN). }
    destruct U as [-> | ->]; simpl; rewrite C; auto.
Qed.
Print Assumptions C10_vectors.

(** Products with quantities compile whenever the sum of the dimensions exists. *)
Theorem C10_products_exist : forall p k fields env dq x u du f a,
  stored p x a -> is_unit k u du f ->
  (forall d, dadd k fields dq du = Some d -> exists y, unit_mul k fields env (Quant dq x) u = Some (Quant d y)) /\
  (forall d, dadd k fields du dq = Some d -> exists y, unit_mul k fields env u (Quant dq x) = Some (Quant d y)) /\
  (forall d, dsub k fields dq du = Some d -> exists y, unit_div k fields env (Quant dq x) u = Some (Quant d y)).
Proof.
  intros p k fields env dq x u du f a S U.
  assert (M : (exists y, raw_mul_mag env x f = Some y) /\ (exists y, raw_div_mag env x f = Some y)).
  { destruct p, x; cbn in S; try contradiction; split; eexists; reflexivity. }
  destruct M as [[y M1] [z M2]].
  split; [|split]; intros d E; destruct U as [-> | ->]; cbn [UnitOps.unit_mul UnitOps.unit_div];
    rewrite ?E, ?M1, ?M2; eexists; reflexivity.
Qed.
Print Assumptions C10_products_exist.

(** ** C11: false for numbers divided by units and for units divided by quantities *)
Definition C11_statement (shape : forall k, thing k -> thing k -> Prop) : Prop :=
  forall p k fields env l r t vl vr a b,
  NoDup fields -> has p k fields env l vl a -> has p k fields env r vr b -> b <> 0 ->
  shape k l r -> unit_div k fields env l r = Some t -> (forall d f, t <> UnitR d f) ->
  rounds_to p k fields t (fun f => (vl f - vr f)%Qc) (a / b).

Definition unit_like k (u : thing k) : Prop := exists d f, is_unit k u d f.
Definition number_by_compile_time_unit k (l r : thing k) : Prop := (exists x, l = Number x) /\ exists d f, r = UnitC d f.
Definition number_by_run_time_unit k (l r : thing k) : Prop := (exists x, l = Number x) /\ exists d f, r = UnitR d f.
Definition compile_time_unit_by_quantity k (l r : thing k) : Prop := (exists d f, l = UnitC d f) /\ exists d x, r = Quant d x.
Definition run_time_unit_by_quantity k (l r : thing k) : Prop := (exists d f, l = UnitR d f) /\ exists d x, r = Quant d x.

(** Witnesses: [2.0 / kilometers] and [kilometers / (2 s)], double precision. *)
Definition lt : list string := ["length"; "time"]%string.
Definition d_length : dimval (ops IntegerExponents) := [("length", 1%Z); ("time", 0%Z)]%string.
Definition d_time : dimval (ops IntegerExponents) := [("length", 0%Z); ("time", 1%Z)]%string.
Definition d_speed : dimval (ops IntegerExponents) := [("length", 1%Z); ("time", (-1)%Z)]%string.
Definition km : magnitude := from_f64 (f64_of_Z 1000).
Definition two : f64 := f64_of_Z 2.
Definition exps (a b : Z) : string -> Qc := fun f => if String.eqb f "length" then ZQc a else ZQc b.

Lemma lt_NoDup : NoDup lt.
Proof. apply nodupb_iff. reflexivity. Qed.
Lemma denotes_lt a b :
  denotes IntegerExponents lt [("length"%string, a); ("time"%string, b)] (exps a b).
Proof.
  split; [reflexivity|]. intros f e [H|[H|[]]]; injection H as <- <-; split; simpl; auto.
Qed.
Lemma thousand_value : fin64 (f64_of_Z 1000) /\ v64 (f64_of_Z 1000) = 1000.
Proof. split; [reflexivity|]. compute; lra. Qed.
Lemma two_value : fin64 two /\ v64 two = 2.
Proof. split; [reflexivity|]. compute; lra. Qed.
Lemma km_factor : into_f64 env0 km = f64_of_Z 1000.
Proof. apply (C37_unchanged env0 (-1023)); [apply good0|]. apply Expansion.expo_ge_stable. reflexivity. Qed.
Lemma km_has : factor P64 env0 km 1000.
Proof. unfold factor. rewrite km_factor. destruct thousand_value as [F V]. split; [exact F|symmetry; exact V]. Qed.

Lemma number_by_unit_wrong u : is_unit IntegerExponents u d_length km ->
  exists t, unit_div IntegerExponents lt env0 (Number (RF64 two)) u = Some t /\
            (forall d f, t <> UnitR d f) /\
            ~ rounds_to P64 IntegerExponents lt t (fun f => (ZQc 0 - exps 1%Z 0%Z f)%Qc) (2 / 1000).
Proof.
  intros U. exists (Quant d_length (RF64 (f64_div two (into_f64 env0 km)))).
  split; [destruct U as [-> | ->]; reflexivity|]. split; [discriminate|].
  intros (d & y & E & D & _). injection E as <- <-.
  pose proof (proj1 (C08_identity IntegerExponents lt d_length d_length _ _ lt_NoDup D (denotes_lt 1%Z 0%Z)) eq_refl
                "length"%string ltac:(simpl; auto)) as E.
  unfold exps in E. simpl in E. rewrite <- ZQc_sub in E. apply ZQc_inj in E. discriminate E.
Qed.

Lemma unit_by_quantity_wrong u : is_unit IntegerExponents u d_length km ->
  exists t, unit_div IntegerExponents lt env0 u (Quant d_time (RF64 two)) = Some t /\
            (forall d f, t <> UnitR d f) /\
            ~ rounds_to P64 IntegerExponents lt t (fun f => (exps 1%Z 0%Z f - exps 0%Z 1%Z f)%Qc) (1000 / 2).
Proof.
  intros U. exists (Quant d_speed (RF64 (f64_div two (into_f64 env0 km)))).
  split; [destruct U as [-> | ->]; reflexivity|]. split; [discriminate|].
  intros (d & y & E & _ & H). injection E as _ <-. unfold nearest_raw, nearest in H.
  replace (rnd64 (1000 / 2)) with 500 in H.
  2:{ symmetry. unfold rnd64. replace (1000 / 2) with (v64 (f64_of_Z 500)); [|compute; lra].
      rewrite round_B2R. compute; lra. }
  rewrite Rlt_bool_true in H.
  2:{ rewrite Rabs_pos_eq by lra. apply Rlt_trans with (bpow radix2 9); [compute; lra|]. now apply bpow_lt. }
  destruct H as [_ H]. rewrite km_factor in H. destruct two_value as [F2 V2], thousand_value as [F3 V3].
  destruct (f64_div_error two (f64_of_Z 1000)) as (_ & e & B & Q); rewrite ?V3; auto; try lra.
  - rewrite V2. right. split.
    + rewrite Rabs_pos_eq by lra. apply Rle_trans with (bpow radix2 (-9)); [apply bpow_le; lia|compute; lra].
    + rewrite Rabs_pos_eq by lra. apply Rle_trans with (1 / 2 * 1); [lra|].
      apply Rmult_le_compat; try lra.
      * assert (bpow radix2 (- 53) <= bpow radix2 (-1)) by (apply bpow_le; lia).
        assert (bpow radix2 (-1) = / 2) by reflexivity. change (- (53))%Z with (-53)%Z. lra.
      * change 1 with (bpow radix2 0). apply bpow_le. lia.
  - rewrite H, V2, V3 in Q. assert (u64 <= 1) by (change 1 with (bpow radix2 0); apply bpow_le; lia).
    apply Rabs_le_inv in B. nra.
Qed.

Theorem C11_number_by_unit_refuted :
  ~ C11_statement number_by_compile_time_unit /\ ~ C11_statement number_by_run_time_unit.
Proof.
  destruct two_value as [F2 V2].
  split; intros S;
  [destruct (number_by_unit_wrong (UnitC d_length km)) as (t & E & NU & W); [now left|]
  |destruct (number_by_unit_wrong (UnitR d_length km)) as (t & E & NU & W); [now right|]];
  apply W; eapply S with (env := env0) (r := _) (l := Number (RF64 two)); eauto;
    try apply lt_NoDup; try (split; [intros; reflexivity|split; [exact F2|now rewrite V2]]);
    try (split; [apply (denotes_lt 1%Z 0%Z)|apply km_has]); try lra; try (split; eauto).
Qed.
Print Assumptions C11_number_by_unit_refuted.

Theorem C11_unit_by_quantity_refuted :
  ~ C11_statement compile_time_unit_by_quantity /\ ~ C11_statement run_time_unit_by_quantity.
Proof.
  destruct two_value as [F2 V2].
  split; intros S;
  [destruct (unit_by_quantity_wrong (UnitC d_length km)) as (t & E & NU & W); [now left|]
  |destruct (unit_by_quantity_wrong (UnitR d_length km)) as (t & E & NU & W); [now right|]];
  apply W; eapply S with (env := env0) (r := Quant d_time (RF64 two)); eauto;
    try apply lt_NoDup; try (split; [apply (denotes_lt 0%Z 1%Z)|split; [exact F2|now rewrite V2]]);
    try (split; [apply (denotes_lt 1%Z 0%Z)|apply km_has]); try lra; try (split; eauto).
Qed.
Print Assumptions C11_unit_by_quantity_refuted.

(** What the two impls compute instead: a number divided by a unit keeps the unit's dimension (not its
    inverse); a unit divided by a quantity has the inverted value. *)
Theorem C11_actual : forall p k fields env u d f,
  is_unit k u d f ->
  (forall x t a b, stored p x a -> factor p env f b -> b <> 0 ->
     unit_div k fields env (Number x) u = Some t ->
     exists y, t = Quant d y /\ nearest_raw p (a / b) y) /\
  (forall dq x t a b, stored p x a -> factor p env f b -> b <> 0 ->
     unit_div k fields env u (Quant dq x) = Some t ->
     exists d' y, dsub k fields d dq = Some d' /\ t = Quant d' y /\ nearest_raw p (a / b) y).
Proof.
  intros p k fields env u d f U. split.
  - intros x t a b S F N H.
    assert (E : exists y, raw_div x (conversion env x f) = Some y /\ t = Quant d y).
    { destruct U as [-> | ->]; cbn [UnitOps.unit_div] in H;
        apply quant_inv in H as (d' & y & E1 & E2 & ->); injection E1 as <-; eauto. }
    destruct E as (y & E & ->). exists y. split; auto.
    eapply raw_div_near; eauto. eapply conversion_stored; eauto.
  - intros dq x t a b S F N H.
    assert (E : exists d' y, dsub k fields d dq = Some d' /\ raw_div_mag env x f = Some y /\ t = Quant d' y).
    { destruct U as [-> | ->]; cbn [UnitOps.unit_div] in H;
        apply quant_inv in H as (d' & y & E1 & E2 & ->); eauto. }
    destruct E as (d' & y & E1 & E2 & ->). exists d', y. repeat split; auto.
    eapply raw_div_mag_near; eauto.
Qed.
Print Assumptions C11_actual.

(** What holds: units divided by numbers (and quantities by units, C10_C11_quantity_by_unit; units
    by units, C12). *)
Theorem C11_unit_by_number_partial : forall p k fields env u d f x t v a b,
  is_unit k u d f -> denotes k fields d v -> factor p env f a -> stored p x b -> b <> 0 ->
  unit_div k fields env u (Number x) = Some t ->
  rounds_to p k fields t v (a / b).
Proof.
  intros p k fields env u d f x t v a b U D F S N H.
  assert (E : exists y, raw_div (conversion env x f) x = Some y /\ t = Quant d y).
  { destruct U as [-> | ->]; cbn [UnitOps.unit_div] in H;
      apply quant_inv in H as (d' & y & E1 & E2 & ->); injection E1 as <-; eauto. }
  destruct E as (y & E & ->). exists d, y. split; [reflexivity|]. split; [exact D|].
  eapply raw_div_near; [|exact S|exact N|exact E]. eapply conversion_stored; eauto.
Qed.
Print Assumptions C11_unit_by_number_partial.

(** The hypotheses are met: kilometers over 2 s, 2 over kilometers, kilometers over 2. *)
Example C11_applies :
  is_unit IntegerExponents (UnitC d_length km) d_length km /\ factor P64 env0 km 1000 /\ stored P64 (RF64 two) 2 /\
  (exists t, unit_div IntegerExponents lt env0 (UnitC d_length km) (Number (RF64 two)) = Some t) /\
  (exists t, unit_div IntegerExponents lt env0 (UnitC d_length km) (Quant d_time (RF64 two)) = Some t) /\
  (exists t, unit_div IntegerExponents lt env0 (Quant d_length (RF64 two)) (UnitC d_time km) = Some t) /\
  (exists t, unit_div IntegerExponents lt env0 (Number (RF64 two)) (UnitR d_length km) = Some t).
Proof.
  destruct two_value as [F V].
  split; [now left|]. split; [apply km_has|]. split; [split; [exact F|now rewrite V]|].
  repeat split; eexists; reflexivity.
Qed.

(** ** C12 *)
(** A result above the subnormal range carries a relative error of at most one rounding. *)
Definition smallest_normal (p : precision) : R :=
  match p with P64 => bpow radix2 (-1022) | P32 => bpow radix2 (-126) end.
Definition half_ulp (p : precision) : R := match p with P64 => u64 | P32 => u32 end.
Definition normal (p : precision) (x : raw) : Prop := exists r, stored p x r /\ smallest_normal p < Rabs r.

Lemma stored_unique p x a b : stored p x a -> stored p x b -> a = b.
Proof. destruct p, x; cbn; try contradiction; intros [_ ->] [_ ->]; reflexivity. Qed.

Lemma near_error p r y : nearest_raw p r y -> normal p y ->
  exists e, Rabs e <= half_ulp p /\ stored p y (r * (1 + e)).
Proof.
  destruct p, y; cbn [nearest_raw]; try contradiction; intros H (q & [F ->] & B); cbn [stored half_ulp] in *.
  - unfold nearest32 in H. destruct (Rlt_bool _ _); [|subst; discriminate]. destruct H as [_ E].
    cbn [smallest_normal] in B. rewrite E in B. destruct (rnd32_error r B) as (e & Be & Ee).
    exists e. rewrite E, Ee. auto.
  - unfold nearest in H. destruct (Rlt_bool _ _); [|subst; discriminate]. destruct H as [_ E].
    cbn [smallest_normal] in B. rewrite E in B. destruct (rnd64_error r B) as (e & Be & Ee).
    exists e. rewrite E, Ee. auto.
Qed.
Lemma nearest_finite p r y a : nearest_raw p r y -> stored p y a ->
  a = (match p with P32 => rnd32 | P64 => rnd64 end) r.
Proof.
  destruct p, y; cbn; try contradiction; intros H [F ->].
  - unfold nearest32 in H. destruct (Rlt_bool _ _); [tauto|subst; discriminate].
  - unfold nearest in H. destruct (Rlt_bool _ _); [tauto|subst; discriminate].
Qed.

(** The product (quotient) of two units: sum (difference) of the exponents, and as factor the double
    nearest to the product (quotient) of the factors, unless that underflows. *)
Theorem C12_unit_products : forall k fields env lo dl fl dr fr vl vr a b,
  good_platform env lo -> NoDup fields ->
  denotes k fields dl vl -> denotes k fields dr vr -> factor P64 env fl a -> factor P64 env fr b ->
  (forall t, unit_mul k fields env (UnitC dl fl) (UnitC dr fr) = Some t ->
     exists d y, t = UnitR d (from_f64 y) /\ denotes k fields d (fun n => (vl n + vr n)%Qc) /\
       nearest (a * b) y /\ (stable lo y -> into_f64 env (from_f64 y) = y)) /\
  (b <> 0 -> forall t, unit_div k fields env (UnitC dl fl) (UnitC dr fr) = Some t ->
     exists d y, t = UnitR d (from_f64 y) /\ denotes k fields d (fun n => (vl n - vr n)%Qc) /\
       nearest (a / b) y /\ (stable lo y -> into_f64 env (from_f64 y) = y)).
Proof.
  intros k fields env lo dl fl dr fr vl vr a b G N Dl Dr [Fa ->] [Fb ->]. split.
  - intros t H. unfold UnitOps.unit_mul in H. destruct (dim_add _ _ dl dr) as [d|] eqn:E; [|discriminate].
    injection H as <-. exists d, (f64_mul (into_f64 env fl) (into_f64 env fr)).
    split; [reflexivity|]. split; [eapply dim_add_spec; eauto|].
    split; [now apply f64_mul_nearest|]. intros S. now apply (C37_unchanged env lo).
  - intros NB t H. unfold UnitOps.unit_div in H. destruct (dim_sub _ _ dl dr) as [d|] eqn:E; [|discriminate].
    injection H as <-. exists d, (f64_div (into_f64 env fl) (into_f64 env fr)).
    split; [reflexivity|]. split; [eapply dim_sub_spec; eauto|].
    split; [now apply f64_div_nearest|]. intros S. now apply (C37_unchanged env lo).
Qed.
Print Assumptions C12_unit_products.

(** Any sequence of multiplications and divisions by units, applied to a quantity. *)
Inductive step k := Times (u : thing k) | Over (u : thing k).
Arguments Times {k}. Arguments Over {k}.
Definition do_step k fields env (q : thing k) (s : step k) : option (thing k) :=
  match s with Times u => unit_mul k fields env q u | Over u => unit_div k fields env q u end.
(** All intermediate results. *)
Fixpoint do_steps k fields env (q : thing k) (ss : list (step k)) : option (list (thing k)) :=
  match ss with
  | [] => Some [q]
  | s :: ss =>
      match do_step k fields env q s with
      | Some q' => match do_steps k fields env q' ss with Some qs => Some (q :: qs) | None => None end
      | None => None
      end
  end.
(** A step as seen by the user: multiply or divide by a unit of exponents [v] and factor [r]. *)
Record meaning := { sign : Z; unit_exps : string -> Qc; unit_factor : R }.
Definition step_means p k fields env (s : step k) (m : meaning) : Prop :=
  match s with
  | Times u => sign m = 1%Z /\ unit_like k u /\ has p k fields env u (unit_exps m) (unit_factor m)
  | Over u => sign m = (-1)%Z /\ unit_like k u /\ has p k fields env u (unit_exps m) (unit_factor m)
  end /\ unit_factor m <> 0.
Fixpoint exponents_after (v : string -> Qc) (ms : list meaning) : string -> Qc :=
  match ms with
  | [] => v
  | m :: ms => exponents_after (fun f => (v f + ZQc (sign m) * unit_exps m f)%Qc) ms
  end.
Fixpoint product (rs : list R) : R := match rs with [] => 1 | r :: rs => r * product rs end.
Definition exact_factor (ms : list meaning) : R := product (map (fun m => powerRZ (unit_factor m) (sign m)) ms).

Lemma exponents_after_eq v ms f :
  exponents_after v ms f = (v f + fold_right (fun m s => ZQc (sign m) * unit_exps m f + s) 0 ms)%Qc.
Proof.
  revert v. induction ms as [|m ms IH]; intros v; simpl; [ring|]. rewrite IH. ring.
Qed.

Lemma ZQc_1 : ZQc 1 = 1%Qc.
Proof. now apply Qc_is_canon. Qed.
(** One step. *)
Lemma one_step p k fields env d x s m v a t :
  NoDup fields -> has p k fields env (Quant d x) v a -> step_means p k fields env s m ->
  do_step k fields env (Quant d x) s = Some t ->
  rounds_to p k fields t (fun f => (v f + ZQc (sign m) * unit_exps m f)%Qc) (a * powerRZ (unit_factor m) (sign m)).
Proof.
  intros N H [M NZ] D. destruct s as [u|u]; destruct M as (-> & (du & f & U) & Hu); cbn [do_step] in D.
  - assert (R : rounds_to p k fields t (fun f => (v f + unit_exps m f)%Qc) (a * unit_factor m)).
    { eapply C10_products; eauto. destruct U as [-> | ->]; unfold UnitOps.unit_mul in D;
        apply quant_inv in D as (? & ? & _ & _ & ->); discriminate. }
    destruct R as (d' & y & -> & R1 & R2). exists d', y. split; [reflexivity|]. split.
    + eapply denotes_same; [auto| |exact R1]. intros g _. rewrite ZQc_1. ring.
    + rewrite powerRZ_1. exact R2.
  - assert (R : rounds_to p k fields t (fun f => (v f - unit_exps m f)%Qc) (a / unit_factor m)).
    { eapply C10_C11_quantity_by_unit; eauto. }
    destruct R as (d' & y & -> & R1 & R2). exists d', y. split; [reflexivity|]. split.
    + eapply denotes_same; [auto| |exact R1]. intros g _. rewrite (ZQc_neg 1 : ZQc (-1) = _), ZQc_1. ring.
    + replace (powerRZ (unit_factor m) (-1)) with (/ unit_factor m); [exact R2|].
      simpl. now rewrite Rmult_1_r.
Qed.

Lemma last_default A (x : A) l a b : last (x :: l) a = last (x :: l) b.
Proof. revert x. induction l as [|y l IH]; intros x; [reflexivity|]. apply (IH y). Qed.

Theorem C12_chain : forall p k fields env ss ms d x v a qs,
  NoDup fields -> has p k fields env (Quant d x) v a -> Forall2 (step_means p k fields env) ss ms ->
  do_steps k fields env (Quant d x) ss = Some qs ->
  Forall (fun q => exists d y, q = Quant d y /\ normal p y) qs ->
  exists d' y es, last qs (Quant d x) = Quant d' y /\
    denotes k fields d' (exponents_after v ms) /\
    length es = length ms /\ Forall (fun e => Rabs e <= half_ulp p) es /\
    stored p y (a * exact_factor ms * product (map (fun e => 1 + e) es)).
Proof.
  intros p k fields env ss. induction ss as [|s ss IH]; intros ms d x v a qs N H F E A; inversion F; subst.
  - cbn [do_steps] in E. injection E as <-. exists d, x, []. cbn [last]. destruct H as [D S].
    split; [reflexivity|]. split; [exact D|]. split; [reflexivity|]. split; [constructor|].
    unfold exact_factor; cbn [map product]. now replace (a * 1 * 1) with a by ring.
  - rename l' into ms. cbn [do_steps] in E. destruct (do_step k fields env (Quant d x) s) as [q'|] eqn:E1; [|discriminate].
    destruct (do_steps k fields env q' ss) as [qs'|] eqn:E2; [|discriminate]. injection E as <-.
    pose proof (one_step _ _ _ _ _ _ _ _ _ _ _ N H H2 E1) as (d1 & y1 & -> & D1 & R1).
    assert (I : exists q0 qq, qs' = q0 :: qq /\ q0 = Quant d1 y1).
    { destruct ss; cbn [do_steps] in E2.
      - injection E2 as <-. eauto.
      - destruct (do_step _ _ _ _ s0); [|discriminate]. destruct (do_steps _ _ _ _ ss); [|discriminate].
        injection E2 as <-. eauto. }
    destruct I as (q0 & qq & -> & ->).
    inversion A as [|? ? _ A']; subst. inversion A' as [|? ? (d2 & y2 & Q & Ny) _]; subst. injection Q as <- <-.
    destruct (near_error _ _ _ R1 Ny) as (e & Be & Se).
    destruct (IH ms d1 y1 _ _ _ N (conj D1 Se) H4 E2 A') as (d' & y' & es & L & D' & LE & FE & S').
    exists d', y', (e :: es). split; [|split; [|split; [|split]]].
    + change (last (Quant d1 y1 :: qq) (Quant d x) = Quant d' y'). rewrite <- L. apply last_default.
    + exact D'.
    + simpl; congruence.
    + now constructor.
    + replace (a * exact_factor (y :: ms) * product (map (fun e => 1 + e) (e :: es)))
        with (a * powerRZ (unit_factor y) (sign y) * (1 + e) * exact_factor ms * product (map (fun e => 1 + e) es));
        [exact S'|]. unfold exact_factor; simpl. ring.
Qed.
Print Assumptions C12_chain.

(** The order of the steps does not matter: same exponents and same exact factor. *)
Theorem C12_order : forall ms ms', Permutation ms ms' ->
  exact_factor ms = exact_factor ms' /\ forall v f, exponents_after v ms f = exponents_after v ms' f.
Proof.
  intros ms ms' H. split.
  - unfold exact_factor. induction H; cbn [map product]; [reflexivity|now rewrite IHPermutation|ring|congruence].
  - intros v f. rewrite !exponents_after_eq. f_equal.
    induction H; cbn [fold_right]; [reflexivity|now rewrite IHPermutation|ring|congruence].
Qed.
Print Assumptions C12_order.

(** Two orders of the same steps give quantities of the same type, with values that differ by at most
    the roundings of the steps. *)
Lemma Forall2_len A B (R : A -> B -> Prop) l l' : Forall2 R l l' -> length l = length l'.
Proof. induction 1; simpl; congruence. Qed.

Theorem C12_chain_order : forall p k fields env ss ss' ms ms' d x v a qs qs',
  NoDup fields -> has p k fields env (Quant d x) v a ->
  Forall2 (step_means p k fields env) ss ms -> Forall2 (step_means p k fields env) ss' ms' -> Permutation ms ms' ->
  do_steps k fields env (Quant d x) ss = Some qs -> do_steps k fields env (Quant d x) ss' = Some qs' ->
  Forall (fun q => exists d y, q = Quant d y /\ normal p y) qs ->
  Forall (fun q => exists d y, q = Quant d y /\ normal p y) qs' ->
  exists d' y y' r es es', last qs (Quant d x) = Quant d' y /\ last qs' (Quant d x) = Quant d' y' /\
    length es = length ss /\ length es' = length ss /\
    Forall (fun e => Rabs e <= half_ulp p) es /\ Forall (fun e => Rabs e <= half_ulp p) es' /\
    stored p y (r * product (map (fun e => 1 + e) es)) /\
    stored p y' (r * product (map (fun e => 1 + e) es')).
Proof.
  intros p k fields env ss ss' ms ms' d x v a qs qs' N H M M' P E E' A A'.
  destruct (C12_order _ _ P) as [PF PE].
  destruct (C12_chain _ _ _ _ _ _ _ _ _ _ _ N H M E A) as (d1 & y1 & es1 & L1 & D1 & LE1 & F1 & S1).
  destruct (C12_chain _ _ _ _ _ _ _ _ _ _ _ N H M' E' A') as (d2 & y2 & es2 & L2 & D2 & LE2 & F2 & S2).
  assert (d1 = d2) as <-.
  { apply (C08_identity k fields d1 d2 _ _ N D1 D2). intros f _. apply PE. }
  exists d1, y1, y2, (a * exact_factor ms), es1, es2.
  pose proof (Forall2_len _ _ _ _ _ M). pose proof (Permutation_length P). rewrite <- PF in S2.
  repeat split; auto; congruence.
Qed.
Print Assumptions C12_chain_order.

(** A composed factor that is read back as a normal number is the rounded product. *)
Lemma roundtrip_normal env lo y : good_platform env lo -> normal P64 (RF64 (into_f64 env (from_f64 y))) ->
  into_f64 env (from_f64 y) = y.
Proof.
  intros G (r & [F ->] & B). revert F B. rewrite (C37_roundtrip env lo) by auto.
  destruct (is_finite 53 1024 y) eqn:Fy; [|discriminate]. destruct (Rlt_bool _ _); [|reflexivity].
  intros _ B. cbn [B2R] in B. rewrite Rabs_R0 in B. pose proof (bpow_gt_0 radix2 (-1022)).
  cbn [smallest_normal] in B. lra.
Qed.

(** Multiplying by a composed unit is multiplying by its parts, up to two roundings. *)
Theorem C12_composed : forall k fields env lo l d1 g1 d2 g2 v v1 v2 a f1 f2 q q1 q2 u12,
  good_platform env lo -> NoDup fields -> ~ unit_like k l ->
  has P64 k fields env l v a ->
  has P64 k fields env (UnitC d1 g1) v1 f1 -> has P64 k fields env (UnitC d2 g2) v2 f2 ->
  unit_mul k fields env l (UnitC d1 g1) = Some q -> unit_mul k fields env q (UnitC d2 g2) = Some q1 ->
  unit_mul k fields env (UnitC d1 g1) (UnitC d2 g2) = Some u12 -> unit_mul k fields env l u12 = Some q2 ->
  (forall d y, In (Quant d y) [q; q1; q2] -> normal P64 y) ->
  (forall d f, u12 = UnitR d f -> normal P64 (RF64 (into_f64 env f))) ->
  exists d y1 y2 e1 e2 e3 e4, q1 = Quant d y1 /\ q2 = Quant d y2 /\
    Rabs e1 <= u64 /\ Rabs e2 <= u64 /\ Rabs e3 <= u64 /\ Rabs e4 <= u64 /\
    stored P64 y1 (a * f1 * f2 * (1 + e1) * (1 + e2)) /\
    stored P64 y2 (a * f1 * f2 * (1 + e3) * (1 + e4)).
Proof.
  intros k fields env lo l d1 g1 d2 g2 v v1 v2 a f1 f2 q q1 q2 u12 G N NL Hl H1 H2 E1 E2 E3 E4 NQ NU.
  assert (NR : forall l u t, ~ unit_like k l -> unit_mul k fields env l u = Some t -> forall d f, t <> UnitR d f).
  { intros l0 u0 t L0 M d f ->. destruct l0; try (apply L0; do 2 eexists; unfold is_unit; eauto; fail);
      destruct u0; try discriminate M; unfold UnitOps.unit_mul in M; apply quant_inv in M as (? & ? & _ & _ & W); discriminate W. }
  pose proof (C10_products _ _ _ _ _ _ _ _ _ _ _ N Hl H1 E1 (NR _ _ _ NL E1)) as (d & y & -> & D & R).
  assert (Ny : normal P64 y) by (apply (NQ d); simpl; auto).
  destruct (near_error _ _ _ R Ny) as (e1 & B1 & S1).
  assert (NL' : ~ unit_like k (Quant d y)) by (intros (? & ? & [C|C]); discriminate C).
  pose proof (C10_products _ _ _ _ _ _ _ _ _ _ _ N (conj D S1 : has P64 k fields env (Quant d y) _ _) H2 E2 (NR _ _ _ NL' E2)) as (d' & y1 & -> & D' & R').
  assert (Ny1 : normal P64 y1) by (apply (NQ d'); simpl; auto).
  destruct (near_error _ _ _ R' Ny1) as (e2 & B2 & S2).
  destruct H1 as [D1 F1], H2 as [D2 F2].
  destruct (proj1 (C12_unit_products k fields env lo d1 g1 d2 g2 v1 v2 f1 f2 G N D1 D2 F1 F2) _ E3)
    as (d12 & w & -> & D12 & Rz & _).
  assert (Nf := NU _ _ eq_refl). pose proof Nf as Nf'. rewrite (roundtrip_normal env lo) in Nf' by auto.
  destruct (near_error P64 _ (RF64 w) Rz Nf') as (e3 & B3 & S3).
  assert (Hu : has P64 k fields env (UnitR d12 (from_f64 w)) (fun n => (v1 n + v2 n)%Qc) (f1 * f2 * (1 + e3))).
  { split; [exact D12|]. unfold factor. rewrite (roundtrip_normal env lo) by auto. exact S3. }
  pose proof (C10_products _ _ _ _ _ _ _ _ _ _ _ N Hl Hu E4 (NR _ _ _ NL E4)) as (d'' & y2 & -> & D'' & R'').
  assert (Ny2 : normal P64 y2) by (apply (NQ d''); simpl; auto).
  destruct (near_error _ _ _ R'' Ny2) as (e4 & B4 & S4).
  assert (d' = d'') as <-.
  { apply (C08_identity k fields d' d'' _ _ N D' D''). intros n _. cbn beta. ring. }
  exists d', y1, y2, e1, e2, e3, e4. repeat split; auto.
  - replace (a * f1 * f2 * (1 + e1) * (1 + e2)) with (a * f1 * (1 + e1) * f2 * (1 + e2)) by ring. exact S2.
  - replace (a * f1 * f2 * (1 + e3) * (1 + e4)) with (a * (f1 * f2 * (1 + e3)) * (1 + e4)) by ring. exact S4.
Qed.
Print Assumptions C12_composed.

(** [u1 * u2] and [u2 * u1] are the same unit. *)
Theorem C12_commutes : forall k fields env lo d1 g1 d2 g2 v1 v2 t t',
  good_platform env lo -> NoDup fields -> encoded g1 -> encoded g2 ->
  denotes k fields d1 v1 -> denotes k fields d2 v2 ->
  unit_mul k fields env (UnitC d1 g1) (UnitC d2 g2) = Some t ->
  unit_mul k fields env (UnitC d2 g2) (UnitC d1 g1) = Some t' -> t = t'.
Proof.
  intros k fields env lo d1 g1 d2 g2 v1 v2 t t' G N E1 E2 D1 D2 H H'. unfold UnitOps.unit_mul in H, H'.
  destruct (dim_add _ _ d1 d2) as [d|] eqn:A; [|discriminate].
  destruct (dim_add _ _ d2 d1) as [d'|] eqn:A'; [|discriminate].
  assert (d = d') as <-.
  { assert (S : denotes k fields d (fun n => (v1 n + v2 n)%Qc)) by (eapply dim_add_spec; eauto).
    assert (S' : denotes k fields d' (fun n => (v2 n + v1 n)%Qc)) by (eapply dim_add_spec; eauto).
    apply (C08_identity k fields d d' _ _ N S S'). intros f _. cbn beta. ring. }
  assert (M : mag_mul env g1 g2 = mag_mul env g2 g1).
  { unfold mag_mul. f_equal. apply f64_mul_comm. now rewrite (factor_not_nan env lo). }
  rewrite M in H. congruence.
Qed.
Print Assumptions C12_commutes.

(** 2 m times kilometers over kiloseconds (units with factor 1000). *)
Example C12_applies :
  exists qs, do_steps IntegerExponents lt env0 (Quant d_length (RF64 two))
               [Times (UnitC d_length km); Over (UnitC d_time km)] = Some qs /\
    length qs = 3%nat /\
    Forall (fun q => exists d y, q = Quant d y /\ normal P64 y) qs /\
    Forall2 (step_means P64 IntegerExponents lt env0)
      [Times (UnitC d_length km); Over (UnitC d_time km)]
      [{| sign := 1; unit_exps := exps 1 0; unit_factor := 1000 |};
       {| sign := -1; unit_exps := exps 0 1; unit_factor := 1000 |}].
Proof.
  cbn [do_steps do_step UnitOps.unit_mul UnitOps.unit_div raw_mul_mag raw_div_mag].
  unfold f64_mul_mag, f64_div_mag. rewrite km_factor.
  eexists. split; [reflexivity|]. split; [reflexivity|]. split.
  - assert (L : forall x, fin64 x -> bpow radix2 (-1022) < Rabs (v64 x) -> normal P64 (RF64 x)).
    { intros x F B. exists (v64 x). split; [split; auto|exact B]. }
    assert (B : forall r, 1 <= Rabs r -> bpow radix2 (-1022) < Rabs r).
    { intros r H. eapply Rlt_le_trans; [|exact H]. apply (bpow_lt radix2 (-1022) 0). reflexivity. }
    repeat constructor; do 2 eexists; (split; [reflexivity|]); apply L; try reflexivity; apply B;
      rewrite Rabs_pos_eq; compute; lra.
  - constructor; [|constructor; [|constructor]]; (split; [split; [reflexivity|]|cbn [unit_factor]; lra]).
    + split; [exists d_length, km; now left|]. split; [apply (denotes_lt 1%Z 0%Z)|apply km_has].
    + split; [exists d_time, km; now left|]. split; [apply (denotes_lt 0%Z 1%Z)|apply km_has].
Qed.

(** ** C13 *)
Definition in_range_of (p : precision) : R -> Prop := match p with P64 => range64 | P32 => range32 end.

Theorem C13_roundtrip : forall p k env u d f x a b,
  is_unit k u d f -> stored p x a -> factor p env f b -> b <> 0 ->
  exists z y, unit_new k env u x = Some (Quant d z) /\ value_in k env (Quant d z) u = Some y /\
    (normal p z -> normal p y ->
     exists e1 e2, Rabs e1 <= half_ulp p /\ Rabs e2 <= half_ulp p /\ stored p y (a * (1 + e1) * (1 + e2))).
Proof.
  intros p k env u d f x a b U S F NB.
  assert (M : exists z, raw_mul_mag env x f = Some z) by (destruct p, x; cbn in S; try contradiction; eexists; reflexivity).
  destruct M as [z Z]. pose proof (raw_mul_mag_near _ _ _ _ _ _ _ S F Z) as NZ.
  assert (M : exists y, raw_div_mag env z f = Some y) by (destruct p, z; cbn in NZ; try contradiction; eexists; reflexivity).
  destruct M as [y Y]. exists z, y. split; [|split].
  - destruct U as [-> | ->]; cbn [UnitOps.unit_new]; rewrite Z; reflexivity.
  - destruct U as [-> | ->]; cbn [UnitOps.value_in UnitOps.into_magnitude]; rewrite Y; reflexivity.
  - intros Nz Ny. destruct (near_error _ _ _ NZ Nz) as (e1 & B1 & S1).
    pose proof (raw_div_mag_near _ _ _ _ _ _ _ S1 F NB Y) as NY.
    destruct (near_error _ _ _ NY Ny) as (e2 & B2 & S2). exists e1, e2. repeat split; auto.
    replace (a * (1 + e1) * (1 + e2)) with (a * b * (1 + e1) / b * (1 + e2)) by (field; exact NB). exact S2.
Qed.
Print Assumptions C13_roundtrip.

(** Exact for power-of-two factors. *)
Theorem C13_exact : forall p k env u d f x a e,
  is_unit k u d f -> stored p x a -> factor p env f (bpow radix2 e) -> in_range_of p (a * bpow radix2 e) ->
  exists q, unit_new k env u x = Some q /\ value_in k env q u = Some x.
Proof.
  intros p k env u d f x a e U S F H.
  assert (M : exists z, raw_mul_mag env x f = Some z /\ raw_div_mag env z f = Some x).
  { destruct p, x; cbn in S; try contradiction; destruct S as [Fx ->], F as [Ff Ef]; cbn [in_range_of] in H; rewrite Ef in H.
    - eexists. split; [reflexivity|]. cbn [raw_div_mag]. unfold f32_div_mag, f32_mul_mag.
      rewrite (f32_scale_back _ _ e); auto.
    - eexists. split; [reflexivity|]. cbn [raw_div_mag]. unfold f64_div_mag, f64_mul_mag.
      rewrite (f64_scale_back _ _ e); auto. }
  destruct M as (z & Z & Y). exists (Quant d z).
  split; destruct U as [-> | ->]; cbn [UnitOps.unit_new UnitOps.value_in UnitOps.into_magnitude]; rewrite ?Z, ?Y; reflexivity.
Qed.
Print Assumptions C13_exact.

(** Base units (factor one): exact for all normal values. *)
Definition one : magnitude := from_f64 f64_one.
Lemma one_factor env lo : good_platform env lo -> into_f64 env one = f64_one.
Proof. intros G. apply (C37_unchanged env lo); [exact G|]. apply one_stable. destruct G. lia. Qed.
Lemma one32 : f64_to_f32 f64_one = f64_to_f32 f64_one /\ fin32 (f64_to_f32 f64_one) /\ v32 (f64_to_f32 f64_one) = 1.
Proof. split; [reflexivity|]. split; [reflexivity|]. compute; lra. Qed.
Theorem C13_base_units : forall p k env lo u d x,
  good_platform env lo -> is_unit k u d one -> normal p x ->
  exists q, unit_new k env u x = Some q /\ value_in k env q u = Some x.
Proof.
  intros p k env lo u d x G U (a & S & B). eapply C13_exact with (e := 0%Z); eauto.
  - unfold factor, into_f32. rewrite (one_factor env lo) by auto. destruct p; cbn [stored bpow].
    + destruct one32 as (_ & F & V). rewrite V. auto.
    + split; [reflexivity|]. compute; lra.
  - cbn [bpow]. rewrite Rmult_1_r. destruct p, x; cbn in S; try contradiction; destruct S as [Fx ->]; right; split;
      try (left; exact B).
    + replace ((1 - bpow radix2 (- (24))) * bpow radix2 128) with (bpow radix2 128 - bpow radix2 (128 - 24)).
      * apply abs_B2R_le_emax_minus_prec. reflexivity.
      * change (128 - 24)%Z with (-24 + 128)%Z. rewrite bpow_plus. change (- (24))%Z with (-24)%Z. ring.
    + replace ((1 - bpow radix2 (- (53))) * bpow radix2 1024) with (bpow radix2 1024 - bpow radix2 (1024 - 53)).
      * apply abs_B2R_le_emax_minus_prec. reflexivity.
      * change (1024 - 53)%Z with (-53 + 1024)%Z. rewrite bpow_plus. change (- (53))%Z with (-53)%Z. ring.
Qed.
Print Assumptions C13_base_units.

Example C13_applies :
  is_unit IntegerExponents (UnitC d_length km) d_length km /\ stored P64 (RF64 two) 2 /\
  factor P64 env0 km 1000 /\ factor P64 env0 one 1 /\ normal P64 (RF64 two).
Proof.
  destruct two_value as [F V].
  split; [now left|]. split; [split; [exact F|now rewrite V]|]. split; [apply km_has|]. split.
  - unfold factor. rewrite (one_factor env0 (-1023)) by apply good0. split; [reflexivity|]. compute; lra.
  - exists 2. split; [split; [exact F|now rewrite V]|]. rewrite Rabs_pos_eq by lra.
    apply Rlt_trans with (bpow radix2 0); [now apply bpow_lt|]. compute; lra.
Qed.

(** ** C14: false *)
Definition C14_statement : Prop :=
  forall k fields env d x u d' f y vd vu, NoDup fields -> is_unit k u d' f ->
    denotes k fields d vd -> denotes k fields d' vu ->
    value_in k env (Quant d x) u = Some y -> forall n, In n fields -> vd n = vu n.
Theorem C14_refuted : ~ C14_statement.
Proof.
  intros S.
  specialize (S IntegerExponents lt env0 d_length (RF64 two) (UnitC d_time km) d_time km _ (exps 1%Z 0%Z) (exps 0%Z 1%Z)
    lt_NoDup (or_introl eq_refl) (denotes_lt 1%Z 0%Z) (denotes_lt 0%Z 1%Z) eq_refl "length"%string (or_introl eq_refl)).
  unfold exps in S. simpl in S. apply ZQc_inj in S. discriminate S.
Qed.
Print Assumptions C14_refuted.

(** The dimensions are not looked at: any unit is accepted, with the same result as for a unit of the
    quantity's dimension.  Only units are accepted. *)
Theorem C14_partial : forall k env d x t y,
  value_in k env (Quant d x) t = Some y ->
  exists d' f, is_unit k t d' f /\ value_in k env (Quant d x) (UnitC d f) = Some y /\
    forall d'', value_in k env (Quant d'' x) t = Some y.
Proof.
  intros k env d x t y H. destruct t as [d' f|d' f| |]; try discriminate H; exists d', f.
  - split; [now left|]. split; [exact H|intros; exact H].
  - split; [now right|]. split; [exact H|intros; exact H].
Qed.
Print Assumptions C14_partial.
