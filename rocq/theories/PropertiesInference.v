(** * C89, C90: the type of an expression

    [typed G p t]: with variables of the types [G], the expression [p] is accepted by the impls the
    macro generates and has the type [t] (Programs.v).  Bare numbers carry their type in the model
    ([1.0_f32] rather than [1.0]). *)
From Coq Require Import String List Bool ZArith QArith Qcanon Reals Lia.
From Verif Require Import MachineInt Ratio F64 Magnitude Exponent ExponentFacts SMap Types CodegenDimension
  Setting Storage Operators OperatorSpec OperatorFacts FloatMethods Vector CodegenDimensionFacts PropertiesDebug PropertiesDimension
  PropertiesOperators Programs PropertiesEquivariance Inference InferenceFacts.
Import ListNotations.
Local Close Scope Q_scope.
Local Close Scope Qc_scope.
Local Close Scope R_scope.
Local Open Scope list_scope.

(** ** C89: every expression has one type, and it can be computed *)

Theorem C89_one_type : forall k fields ft math units constants strict G p t t',
  NoDup fields -> determined k p = true ->
  typed k fields ft math units constants strict G p t ->
  typed k fields ft math units constants strict G p t' -> t = t'.
Proof.
  intros k fields ft math units constants strict G p t t' N D H H'.
  apply infer_iff in H; [|exact N|exact D]. apply infer_iff in H'; [|exact N|exact D]. congruence.
Qed.
Print Assumptions C89_one_type.

(** [infer] (Inference.v) finds the type, or finds out that there is none. *)
Theorem C89_checker : forall k fields ft math units constants strict G p t,
  NoDup fields -> determined k p = true ->
  infer k fields ft math units strict G p = Some t <-> typed k fields ft math units constants strict G p t.
Proof. intros k fields ft math units constants strict G p t N D. symmetry. now apply infer_iff. Qed.
Print Assumptions C89_checker.

(** The expressions left out say nothing about their type by themselves: [Vec3::zero()] is a vector
    of any dimension, a constant is a quantity of either float type. *)
Theorem C89_needs_annotation :
  (exists t t', t <> t' /\
     typed IntegerExponents two_fields all_features true [] [] true [] (CallVec Vec3 VZero Nil) t /\
     typed IntegerExponents two_fields all_features true [] [] true [] (CallVec Vec3 VZero Nil) t') /\
  (exists t t', t <> t' /\
     typed IntegerExponents two_fields all_features true [] [length_] true [] (Constant 0) t /\
     typed IntegerExponents two_fields all_features true [] [length_] true [] (Constant 0) t').
Proof.
  split.
  - exists (quantity (Vector Vec3) length_), (quantity (Vector Vec3) time_).
    split; [discriminate|]. split; (eapply T_CallVec; [constructor| |apply is_dimension_two]);
      (split; [simpl; auto|eexists; split; reflexivity]).
  - exists (quantity (Float F32) length_), (quantity (Float F64) length_).
    split; [discriminate|]. split; now constructor.
Qed.

(** Turning on more features, and adding units and constants, changes the type of no accepted expression. *)
Definition more_features (ft ft' : features) : Prop :=
  (ft_f32 ft = true -> ft_f32 ft' = true) /\ (ft_f64 ft = true -> ft_f64 ft' = true) /\
  (ft_vec2 ft = true -> ft_vec2 ft' = true) /\ (ft_dvec2 ft = true -> ft_dvec2 ft' = true) /\
  (ft_vec3 ft = true -> ft_vec3 ft' = true) /\ (ft_dvec3 ft = true -> ft_dvec3 ft' = true).

Lemma more_floats ft ft' f : more_features ft ft' -> In f (float_types ft) -> In f (float_types ft').
Proof.
  intros (A & B & _). unfold float_types. rewrite !in_app_iff.
  destruct (ft_f32 ft); [rewrite (A eq_refl)|]; (destruct (ft_f64 ft); [rewrite (B eq_refl)|]); simpl; tauto.
Qed.
Lemma more_vectors ft ft' v : more_features ft ft' -> In v (vector_types ft) -> In v (vector_types ft').
Proof.
  intros (_ & _ & A & B & C & D). unfold vector_types. rewrite !in_app_iff.
  destruct (ft_vec2 ft); [rewrite (A eq_refl)|]; (destruct (ft_dvec2 ft); [rewrite (B eq_refl)|]);
    (destruct (ft_vec3 ft); [rewrite (C eq_refl)|]); (destruct (ft_dvec3 ft); [rewrite (D eq_refl)|]); simpl; tauto.
Qed.
Lemma more_storages ft ft' s : more_features ft ft' -> In s (storage_types ft) -> In s (storage_types ft').
Proof.
  intros M. unfold storage_types. rewrite !in_app_iff, !in_map_iff. intros [(f & E & H)|(v & E & H)]; [left|right].
  - exists f. split; [exact E|]. now apply (more_floats ft).
  - exists v. split; [exact E|]. now apply (more_vectors ft).
Qed.

Section More.
Context (k : mode) (fields : list string) (ft ft' : features) (math math' : bool)
  (units units' constants constants' : list (dimval (ops k))) (strict : bool).
Context (Hft : more_features ft ft') (Hm : math = true -> math' = true)
  (Hu : forall i d, nth_error units i = Some d -> nth_error units' i = Some d)
  (Hc : forall i d, nth_error constants i = Some d -> nth_error constants' i = Some d).
Lemma more_compiles op a b out :
  compiles (ops k) fields std_raw_op std_raw_copy ft op a b out -> compiles (ops k) fields std_raw_op std_raw_copy ft' op a b out.
Proof.
  intros (t & I & E & H). exists t. split; [|auto]. unfold numeric_traits in *. apply in_app_iff in I as [I|I]; apply in_app_iff; [now left|right].
  apply in_flat_map in I as (s & Hs & I). apply in_flat_map. exists s. split; [|exact I]. now apply (more_storages ft).
Qed.
Lemma more_is_float s : is_float ft s -> is_float ft' s.
Proof. intros (f & E & I). exists f. split; [exact E|]. now apply (more_floats ft). Qed.
Lemma more_method m s d r : method_ok (ops k) fields ft math m s d r -> method_ok (ops k) fields ft' math' m s d r.
Proof.
  pose proof more_is_float as F.
  destruct m; cbn [method_ok]; try tauto; try (intros (A & B); split; auto; fail);
    try (intros (A & B & C); split; [|split]; auto; fail).
  - intros ((c & E & I) & B). split; [|exact B]. exists c. split; [exact E|]. now apply (more_storages ft).
Qed.
Lemma more_unit u d : unit_typed k fields units u d -> unit_typed k fields units' u d.
Proof. intros H. destruct H; econstructor; eauto. Qed.
Lemma more_typed : forall G,
  (forall p t, typed k fields ft math units constants strict G p t -> typed k fields ft' math' units' constants' strict G p t) /\
  (forall ps t, typed_all k fields ft math units constants strict G ps t -> typed_all k fields ft' math' units' constants' strict G ps t) /\
  (forall ps bs, typed_each k fields ft math units constants strict G ps bs -> typed_each k fields ft' math' units' constants' strict G ps bs).
Proof.
  apply (typed_mutind k fields ft math units constants strict
    (fun G p t => typed k fields ft' math' units' constants' strict G p t)
    (fun G ps t => typed_all k fields ft' math' units' constants' strict G ps t)
    (fun G ps bs => typed_each k fields ft' math' units' constants' strict G ps bs)); intros;
    try (econstructor; eauto using more_unit, more_compiles, more_method; fail).
  - match goal with H : arg_method_ok _ _ _ _ _ _ _ _ |- _ => destruct H as (A & B & C) end.
    eapply T_Call2; eauto. split; [now apply more_is_float|auto].
  - match goal with H : vec_call _ _ _ _ _ _ _ |- _ => destruct H as (A & B) end.
    eapply T_CallVec; eauto. split; [now apply (more_vectors ft)|exact B].
  - eapply T_Compare; eauto. match goal with H : compares _ _ _ _ _ _ _ _ |- _ => destruct H as [A|(A & B & C)] end;
      [left; now apply more_compiles|right; auto using more_compiles].
Qed.
End More.

Theorem C89_more_features : forall k fields ft ft' math math' units units' constants constants' strict G p t,
  more_features ft ft' -> (math = true -> math' = true) ->
  typed k fields ft math units constants strict G p t ->
  typed k fields ft' math' (units ++ units') (constants ++ constants') strict G p t.
Proof.
  intros k fields ft ft' math math' units units' constants constants' strict G p t Hft Hm.
  apply (more_typed k fields ft ft' math math' units (units ++ units') constants (constants ++ constants') strict Hft Hm).
  - intros i d E. rewrite nth_error_app1; [exact E|]. apply nth_error_Some. congruence.
  - intros i d E. rewrite nth_error_app1; [exact E|]. apply nth_error_Some. congruence.
Qed.
Print Assumptions C89_more_features.

(** ** C90: the precision of the numbers does not matter *)

(** The same expression in the other float type: [f32] and [f64], [Vec3] and [DVec3], ... *)
Definition float_vector (f : float_type) (v : vector_type) : vector_type :=
  match f, v with
  | F32, (Vec2 | DVec2) => Vec2 | F64, (Vec2 | DVec2) => DVec2
  | F32, (Vec3 | DVec3) => Vec3 | F64, (Vec3 | DVec3) => DVec3
  end.
Definition float_storage (f : float_type) (s : storage) : storage :=
  match s with Float _ => Float f | Vector v => Vector (float_vector f v) end.
Definition float_sty (f : float_type) (s : sty) : sty :=
  match s with Known s => Known (float_storage f s) | Foreign n => Foreign n end.
Definition in_float {k} (f : float_type) (t : type k) : type k :=
  match t with
  | T (TyQ s d) => T (TyQ (float_sty f s) d)
  | T (TyS s) => T (TyS (float_sty f s))
  | Bool => Bool
  end.
Fixpoint rewrite_in {k} (f : float_type) (p : prog k) : prog k :=
  match p with
  | Var i => Var i
  | Lit s a => Lit (float_storage f s) a
  | Convert a => Convert (rewrite_in f a)
  | Zero s d => Zero (float_storage f s) d
  | New u a => New u (rewrite_in f a)
  | NumberTimes a u => NumberTimes (rewrite_in f a) u
  | NumberOver a u => NumberOver (rewrite_in f a) u
  | UnitOverNumber u a => UnitOverNumber u (rewrite_in f a)
  | Times a u => Times (rewrite_in f a) u
  | TimesLeft u a => TimesLeft u (rewrite_in f a)
  | Over a u => Over (rewrite_in f a) u
  | UnitOver u a => UnitOver u (rewrite_in f a)
  | ValueIn a u => ValueIn (rewrite_in f a) u
  | Constant c => Constant c
  | Bin op a b => Bin op (rewrite_in f a) (rewrite_in f b)
  | Neg a => Neg (rewrite_in f a)
  | Sum s d items => Sum (float_storage f s) d (rewrite_all f items)
  | Call m a => Call m (rewrite_in f a)
  | Call2 m a b c => Call2 m (rewrite_in f a) (rewrite_in f b) (rewrite_in f c)
  | CallVec v o args => CallVec (float_vector f v) o (rewrite_all f args)
  | Compare r a b => Compare r (rewrite_in f a) (rewrite_in f b)
  | If c a b => If (rewrite_in f c) (rewrite_in f a) (rewrite_in f b)
  | Let a b => Let (rewrite_in f a) (rewrite_in f b)
  | Repeat n a b => Repeat n (rewrite_in f a) (rewrite_in f b)
  end
with rewrite_all {k} (f : float_type) (ps : progs k) : progs k :=
  match ps with Nil => Nil | Cons a rest => Cons (rewrite_in f a) (rewrite_all f rest) end.

(** The features the rewritten expression needs. *)
Definition available_in (f : float_type) (ft ft' : features) : Prop :=
  forall s, In s (storage_types ft) -> In (float_storage f s) (storage_types ft').

Lemma map_of_repeat {B C} (g : B -> C) x n : map g (repeat x n) = repeat (g x) n.
Proof. induction n as [|n IH]; simpl; [reflexivity|now rewrite IH]. Qed.
Lemma float_component f v : component (float_vector f v) = f.
Proof. destruct f, v; reflexivity. Qed.
Lemma float_num_dims f v : num_dims (float_vector f v) = num_dims v.
Proof. destruct f, v; reflexivity. Qed.
Section Precision.
Context (k : mode) (fields : list string) (f : float_type) (ft ft' : features) (math : bool)
  (units constants : list (dimval (ops k))) (strict : bool) (A : available_in f ft ft').
Notation X := (ops k).
Definition in_float_base (b : base_ty X) : base_ty X :=
  match b with TyQ s d => TyQ (float_sty f s) d | TyS s => TyS (float_sty f s) end.
Lemma in_float_T b : in_float f (T b) = T (in_float_base b).
Proof. destruct b; reflexivity. Qed.
Lemma in_float_raw op s s' o : std_raw_op op s s' = Some o -> std_raw_op op (float_sty f s) (float_sty f s') = Some (float_sty f o).
Proof. destruct s as [[[]|[]]|], s' as [[[]|[]]|], op; intros E; try discriminate E; injection E as <-; destruct f; reflexivity. Qed.
Lemma in_float_supported s : supported (storage_types ft) s -> supported (storage_types ft') (float_sty f s).
Proof. intros (c & -> & I). exists (float_storage f c). split; [reflexivity|]. now apply A. Qed.
Lemma in_storage_float g : In (Float g) (storage_types ft) <-> In g (float_types ft).
Proof.
  unfold storage_types. rewrite in_app_iff, !in_map_iff. split; [|eauto].
  intros [(x & E & H)|(x & E & H)]; [congruence|discriminate].
Qed.
Lemma in_float_is_float s : is_float ft s -> is_float ft' (float_sty f s).
Proof.
  intros (g & -> & I). exists f. split; [reflexivity|]. apply in_storage_float in I. apply A in I.
  cbn [float_storage] in I. unfold storage_types in I. apply in_app_iff in I as [I|I]; apply in_map_iff in I as (x & E & I); congruence.
Qed.
Lemma in_float_vector v : In v (vector_types ft) -> In (float_vector f v) (vector_types ft').
Proof.
  intros I. assert (J : In (Vector v) (storage_types ft)) by (apply in_app_iff; right; now apply in_map).
  apply A in J. apply in_app_iff in J as [J|J]; apply in_map_iff in J as (x & E & J); [discriminate|]. injection E as <-. exact J.
Qed.
Definition in_float_out (o : option (sty * dimval X)) := option_map (fun p => (float_sty f (fst p), snd p)) o.
Lemma in_float_compiles op a b out :
  compiles X fields std_raw_op std_raw_copy ft op (Value, a) (Value, b) out ->
  compiles X fields std_raw_op std_raw_copy ft' op (Value, in_float_base a) (Value, in_float_base b) (in_float_out out).
Proof.
  rewrite !(compiles_iff_spec _ _ _ _ _ _ _ _ _ (std_storages_ok _)). unfold spec.
  assert (RS : forall s s' o, raw_supports std_raw_op std_raw_copy op Value s Value s' o ->
    raw_supports std_raw_op std_raw_copy op Value (float_sty f s) Value (float_sty f s') (float_sty f o)).
  { intros s s' o (E & _). split; [now apply in_float_raw|]. split; congruence. }
  pose proof in_float_supported as SS.
  destruct a as [s d|s], b as [s' d'|s']; cbn [in_float_base]; [| | |intros []].
  - intros (o & Ho & H). exists (float_sty f o). split; [now apply RS|].
    destruct op; parts; subst out; cbn [in_float_out option_map fst snd]; eauto 10.
  - intros (o & Ho & H). exists (float_sty f o). split; [now apply RS|].
    destruct op; parts; subst out; try (match goal with E : s = s' |- _ => rewrite <- E in * end);
      cbn [in_float_out option_map fst snd]; eauto 10.
  - intros (o & Ho & Hs & H). exists (float_sty f o). split; [now apply RS|]. split; [auto|].
    destruct op; parts; subst out; try (match goal with E : s = s' |- _ => rewrite <- E in * end);
      cbn [in_float_out option_map fst snd]; eauto 10.
Qed.
Lemma in_float_method m s d r : method_ok X fields ft math m s d r ->
  method_ok X fields ft' math m (float_sty f s) d
    (match r with ResQ s d => ResQ (float_sty f s) d | ResRaw s => ResRaw (float_sty f s) | ResBool => ResBool end).
Proof.
  pose proof in_float_is_float as F.
  destruct m; cbn [method_ok]; intros H; parts; subst; auto 10; try (split; eauto 10; fail).
  all: try (unfold is_storage_ty in *; parts; subst).
  split; [|reflexivity]. match goal with I : In ?c (storage_types ft) |- _ => exists (float_storage f c); split; [reflexivity|now apply A] end.
Qed.
Lemma in_float_vec_call v o args r : vec_call X fields ft v o args r ->
  vec_call X fields ft' (float_vector f v) o (map in_float_base args) (in_float_base r).
Proof.
  unfold vec_call. intros (I & d & H). split; [now apply in_float_vector|]. exists d. cbv zeta in *.
  rewrite float_component.
  destruct o; unfold has_axis in *; rewrite ?float_num_dims; parts; subst; cbn [map in_float_base float_sty float_storage]; eauto 10.
  - split; [|reflexivity]. rewrite map_of_repeat. reflexivity.
Qed.
Lemma in_float_typed : forall G,
  (forall p t, typed k fields ft math units constants strict G p t ->
     typed k fields ft' math units constants strict (map (in_float f) G) (rewrite_in f p) (in_float f t)) /\
  (forall ps t, typed_all k fields ft math units constants strict G ps t ->
     typed_all k fields ft' math units constants strict (map (in_float f) G) (rewrite_all f ps) (in_float f t)) /\
  (forall ps bs, typed_each k fields ft math units constants strict G ps bs ->
     typed_each k fields ft' math units constants strict (map (in_float f) G) (rewrite_all f ps) (map in_float_base bs)).
Proof.
  apply (typed_mutind k fields ft math units constants strict
    (fun G p t => typed k fields ft' math units constants strict (map (in_float f) G) (rewrite_in f p) (in_float f t))
    (fun G ps t => typed_all k fields ft' math units constants strict (map (in_float f) G) (rewrite_all f ps) (in_float f t))
    (fun G ps bs => typed_each k fields ft' math units constants strict (map (in_float f) G) (rewrite_all f ps) (map in_float_base bs)));
    intros; cbn [rewrite_in rewrite_all map]; rewrite ?in_float_T in *;
    cbn [in_float_base float_sty float_storage] in *.
  all: unfold quantity, number in *; cbn [in_float in_float_base float_sty float_storage] in *.
  all: try (econstructor; eauto; fail).
  - constructor. rewrite nth_error_map. match goal with H : nth_error G i = Some t |- _ => now rewrite H end.
  - eapply T_Convert; [eassumption|]. match goal with H : from_number_compiles _ _ _ _ |- _ => destruct H as (n & Hn & ->) end.
    exists n. auto.
  - eapply T_Bin; [eassumption|eassumption|].
    match goal with H : compiles _ _ _ _ _ _ _ _ _ |- _ => exact (in_float_compiles _ _ _ _ H) end.
  - eapply T_Assign; [assumption|eassumption|eassumption|].
    match goal with H : compiles _ _ _ _ _ _ _ _ _ |- _ => exact (in_float_compiles _ _ _ _ H) end.
  - eapply T_Call_quantity; [eassumption|]. match goal with H : method_ok _ _ _ _ _ _ _ _ |- _ => exact (in_float_method _ _ _ _ H) end.
  - eapply T_Call_number; [eassumption| |assumption].
    match goal with H : method_ok _ _ _ _ _ _ _ _ |- _ => exact (in_float_method _ _ _ _ H) end.
  - eapply T_Call_test; [eassumption|]. match goal with H : method_ok _ _ _ _ _ _ _ _ |- _ => exact (in_float_method _ _ _ _ H) end.
  - match goal with H : arg_method_ok _ _ _ _ _ _ _ _ |- _ => destruct H as (Hf & Hi & E) end. injection E as -> ->.
    eapply T_Call2; [eassumption|eassumption|eassumption|]. split; [exact (in_float_is_float _ Hf)|]. split; [|reflexivity].
    destruct Hi as [->|(src & -> & n & Hn & E)]; [now left|]. right. injection E as E1 E2. subst src n. eexists. split; [reflexivity|].
    eexists. split; [exact Hn|reflexivity].
  - eapply T_CallVec; [eassumption| |].
    + now apply in_float_vec_call.
    + destruct r; assumption.
  - eapply T_Compare; [eassumption|eassumption|].
    match goal with H : compares _ _ _ _ _ _ _ _ |- _ => destruct H as [H|[H _]]; [left|discriminate] end.
    match goal with H : compiles _ _ _ _ _ _ _ _ _ |- _ => exact (in_float_compiles _ _ _ _ H) end.
Qed.
End Precision.

(** An accepted expression, rewritten in the other precision, is accepted and has the same dimension. *)
Theorem C90_precision : forall k fields f ft ft' math units constants strict G p t,
  available_in f ft ft' ->
  typed k fields ft math units constants strict G p t ->
  typed k fields ft' math units constants strict (map (in_float f) G) (rewrite_in f p) (in_float f t).
Proof.
  intros k fields f ft ft' math units constants strict G p t A H.
  exact (proj1 (in_float_typed k fields f ft ft' math units constants strict A G) p t H).
Qed.
Print Assumptions C90_precision.

Lemma float_storage_twice f g s : float_storage f (float_storage g s) = float_storage f s.
Proof. destruct s as [|[]], f, g; reflexivity. Qed.
Lemma float_vector_twice f g v : float_vector f (float_vector g v) = float_vector f v.
Proof. destruct v, f, g; reflexivity. Qed.
Lemma in_float_twice {k} f g (t : type k) : in_float f (in_float g t) = in_float f t.
Proof. destruct t as [[[s|n] d|[s|n]]|]; cbn [in_float float_sty]; rewrite ?float_storage_twice; reflexivity. Qed.
Lemma rewrite_twice {k} f g : (forall p : prog k, rewrite_in f (rewrite_in g p) = rewrite_in f p) /\
  (forall ps : progs k, rewrite_all f (rewrite_all g ps) = rewrite_all f ps).
Proof.
  apply prog_mutind; intros; cbn [rewrite_in rewrite_all]; rewrite ?float_storage_twice, ?float_vector_twice; congruence.
Qed.

(** An expression in one precision is accepted exactly if it is accepted in the other. *)
Theorem C90_both_ways : forall k fields f g ft ft' math units constants strict G p t,
  available_in g ft ft' -> available_in f ft' ft ->
  map (in_float f) G = G -> rewrite_in f p = p -> in_float f t = t ->
  typed k fields ft math units constants strict G p t <->
  typed k fields ft' math units constants strict (map (in_float g) G) (rewrite_in g p) (in_float g t).
Proof.
  intros k fields f g ft ft' math units constants strict G p t A A' EG Ep Et. split.
  - now apply C90_precision.
  - intros H. apply (C90_precision k fields f ft' ft) in H; [|exact A'].
    assert (M : map (in_float f) (map (in_float g) G) = map (in_float f) G)
      by (rewrite map_map; apply map_ext; intros x; apply in_float_twice).
    rewrite (proj1 (rewrite_twice f g)), Ep, in_float_twice, Et, M, EG in H. exact H.
Qed.
Print Assumptions C90_both_ways.

(** Over exact numbers it has the same value: the two precisions differ in rounding only. *)
Lemma rewrite_value {k} f functions factors cvals :
  (forall (p : prog k) rho, eval functions factors cvals rho (rewrite_in f p) = eval functions factors cvals rho p) /\
  (forall (ps : progs k) rho, eval_all functions factors cvals rho (rewrite_all f ps) = eval_all functions factors cvals rho ps).
Proof.
  assert (Z0 : forall s, zero_of (float_storage f s) = zero_of s).
  { intros [|v]; [reflexivity|]. cbn [float_storage zero_of]. now rewrite float_num_dims. }
  assert (V : forall v o args, vec_real (float_vector f v) o args = vec_real v o args).
  { intros v o args. unfold vec_real. now rewrite float_num_dims. }
  apply prog_mutind; intros; cbn [rewrite_in rewrite_all]; try reflexivity.
  all: try (cbn [eval eval_all]; repeat match goal with IH : forall rho, _ = _ |- _ => rewrite IH; clear IH end; rewrite ?Z0; reflexivity).
  - change (eval functions factors cvals rho (CallVec (float_vector f v) o (rewrite_all f args)))
      with (let? vs := eval_all functions factors cvals rho (rewrite_all f args) in
            let? xs := mapM get_num vs in option_map VNum (vec_real (float_vector f v) o xs)).
    rewrite H. destruct (eval_all functions factors cvals rho args) as [vs|] eqn:E.
    + change (eval functions factors cvals rho (CallVec v o args))
        with (let? vs := eval_all functions factors cvals rho args in
              let? xs := mapM get_num vs in option_map VNum (vec_real v o xs)).
      rewrite E. destruct (mapM get_num vs); [|reflexivity]. now rewrite V.
    + change (eval functions factors cvals rho (CallVec v o args))
        with (let? vs := eval_all functions factors cvals rho args in
              let? xs := mapM get_num vs in option_map VNum (vec_real v o xs)).
      now rewrite E.
  - cbn [eval]. rewrite H. destruct (eval functions factors cvals rho a); [apply H0|reflexivity].
  - cbn [eval]. rewrite H. generalize (eval functions factors cvals rho a) as x. unfold Nat.iter. induction n as [|n IH]; intros x; [reflexivity|].
    cbn [nat_rect]. rewrite IH.
    match goal with |- (let? v := ?y in _) = _ => destruct y as [v|]; [apply H0|reflexivity] end.
Qed.
Theorem C90_exact_value : forall k f functions factors cvals rho (p : prog k),
  eval functions factors cvals rho (rewrite_in f p) = eval functions factors cvals rho p.
Proof. intros. apply (proj1 (rewrite_value f functions factors cvals)). Qed.
Print Assumptions C90_exact_value.

(** ** The hypotheses are met *)
(** The larger of the speeds [x / t] and [5 m / 2 s], for a length [x] and a time [t]. *)
Notation f64_ := (Float F64).
Definition fastest : prog IntegerExponents :=
  Let (Bin TDiv (NumberTimes (Lit f64_ (Sc 5)) (U 0)) (NumberTimes (Lit f64_ (Sc 2)) (U 1)))
      (Call2 MMax (Bin TDiv (Var 1) (Var 2)) (Var 0) (Var 0)).
(** The same with a length added to a time. *)
Definition faulty : prog IntegerExponents :=
  Let (Bin TAdd (NumberTimes (Lit f64_ (Sc 5)) (U 0)) (NumberTimes (Lit f64_ (Sc 2)) (U 1)))
      (Call2 MMax (Bin TDiv (Var 1) (Var 2)) (Var 0) (Var 0)).
Notation inferred := (infer IntegerExponents two_fields all_features true [length_; time_] true).
Notation accepted := (typed IntegerExponents two_fields all_features true [length_; time_] [] true).
Example C89_applies :
  accepted example_inputs fastest (quantity f64_ speed) /\
  (forall t, accepted example_inputs fastest t -> t = quantity f64_ speed) /\
  ~ (exists t, accepted example_inputs faulty t) /\
  (* a quantity of a dimension with an odd exponent has no square root *)
  ~ (exists t, accepted example_inputs (Call MSqrt fastest) t) /\
  accepted example_inputs (Call MSqrt (Call MSquared fastest)) (quantity f64_ speed) /\
  determined IntegerExponents fastest = true /\ NoDup two_fields.
Proof.
  assert (I : forall p t, determined IntegerExponents p = true -> accepted example_inputs p t <-> inferred example_inputs p = Some t)
    by (intros p t D; exact (infer_iff _ _ _ _ two_fields_NoDup _ _ _ _ _ _ D)).
  assert (E : inferred example_inputs fastest = Some (quantity f64_ speed)) by reflexivity.
  split; [now apply I|]. split; [intros t H; apply I in H; [congruence|reflexivity]|].
  split; [intros [t H]; apply I in H; [discriminate H|reflexivity]|].
  split; [intros [t H]; apply I in H; [discriminate H|reflexivity]|].
  split; [now apply I|]. split; [reflexivity|exact two_fields_NoDup].
Qed.
Example C90_applies :
  available_in F32 all_features all_features /\ available_in F64 all_features all_features /\
  accepted (map (in_float F32) example_inputs) (rewrite_in F32 fastest) (quantity (Float F32) speed) /\
  rewrite_in F64 fastest = fastest /\ map (in_float F64) example_inputs = example_inputs /\
  in_float F64 (quantity f64_ speed) = (quantity f64_ speed : type IntegerExponents).
Proof.
  assert (A : forall f, available_in f all_features all_features).
  { intros f s _. destruct f, s as [[]|[]]; simpl; auto 10. }
  split; [apply A|]. split; [apply A|]. split; [|repeat split].
  exact (C90_precision _ _ F32 _ _ _ _ _ _ _ _ _ (A F32) (proj1 C89_applies)).
Qed.
