(** * Exactly which operator expressions the rational-dimensions build loses: C76 *)
From Coq Require Import String List Bool ZArith Lia.
From Verif Require Import MachineInt Ratio F64 Magnitude Exponent SMap Expression DimensionMath Types Resolve
  SystemSpec Setting CodegenDimension CodegenDimensionFacts Storage Operators OperatorSpec OperatorFacts FloatMethods Parse Grammar ParseFacts
  ExampleSystems Accuracy Simulation SupersetFacts PropertiesParse PropertiesOperators PropertiesSuperset.
Import ListNotations.
Local Open Scope string_scope.
Local Open Scope list_scope.

(** An operator expression that compiles with integer exponents compiles with rational ones exactly if it is
    not a division by a quantity with an exponent of -2^63. *)
Theorem C76_operators_exactly : forall fields raw_op raw_copy ft op tl tr out,
  NoDup fields -> (forall s d, snd tl = TyQ s d \/ snd tr = TyQ s d -> map fst d = fields) ->
  storages_ok raw_op raw_copy (storage_types ft) -> i64_ty (snd tl) -> i64_ty (snd tr) ->
  compiles (ops IntegerExponents) fields raw_op raw_copy ft op tl tr out ->
  (compiles (ops RationalExponents) fields raw_op raw_copy ft op (rational_ty tl) (rational_ty tr) (rational_out out) <->
   (op = TDiv -> negatable (snd tr))).
Proof.
  intros fields raw_op raw_copy ft op tl tr out Nf Sh OK V1 V2 C.
  split; [|intros N; now apply C76_operators_partial].
  intros C' ->. destruct tl as [r1 b1], tr as [r2 b2]. unfold rational_ty in C'. cbn [fst snd] in *.
  apply (compiles_iff_spec _ _ _ _ _ _ _ _ _ OK) in C. apply (compiles_iff_spec _ _ _ _ _ _ _ _ _ OK) in C'.
  assert (Fst : forall d, map fst (as_rational d) = map fst d) by (intros d; unfold as_rational; now rewrite map_map).
  destruct b2 as [s2 d2|s2]; [|exact I]. cbn [negatable]. destruct b1 as [s1 d1|s1]; cbn [spec rational_base] in *.
  - destruct C' as (o & _ & _ & _ & d & E & _). unfold dim_sub in E. rewrite method2_eq in E by exact Nf.
    assert (S1 : map fst d1 = fields) by (apply (Sh s1); now left). assert (S2 : map fst d2 = fields) by (apply (Sh s2); now right).
    pose proof (proj1 (entries2_defined (ops RationalExponents) fields Nf _ (as_rational d1) (as_rational d2)
      (eq_trans (Fst d1) S1) (eq_trans (Fst d2) S2)) (ex_intro _ d E)) as D.
    rewrite Forall_forall. intros [f z] Hz. cbn [snd].
    assert (Hf : In f (map fst d1)) by (rewrite S1, <- S2; exact (in_map fst _ _ Hz)).
    apply in_map_iff in Hf as ([f' x] & Ef & Hx). cbn [fst] in Ef. subst f'.
    destruct (D f (mkRatio x 1) (mkRatio z 1)) as [y Hy].
    + unfold as_rational. apply in_map_iff. exists (f, x). auto.
    + unfold as_rational. apply in_map_iff. exists (f, z). auto.
    + cbn [e_sub ops rat_exp] in Hy. unfold rsub, rneg in Hy. cbn [Ratio.num denom] in Hy. intros ->.
      replace (i64_neg Checked (- 2 ^ 63)) with (@None Z) in Hy by reflexivity. discriminate Hy.
  - destruct C as (o & _ & _ & _ & _ & d & E & _). unfold dim_neg in E. rewrite method1_eq in E by exact Nf.
    assert (S2 : map fst d2 = fields) by (apply (Sh s2); now right).
    pose proof (proj1 (entries1_defined (ops IntegerExponents) fields Nf _ d2 S2) (ex_intro _ d E)) as D.
    rewrite Forall_forall. intros [f z] Hz. cbn [snd]. destruct (D f z Hz) as [y Hy]. intros ->.
    replace (e_neg (ops IntegerExponents) (- 2 ^ 63)%Z) with (@None Z) in Hy by reflexivity. discriminate Hy.
Qed.
Print Assumptions C76_operators_exactly.

(** [a / b] with [a] of dimension Length^-1 and [b] of dimension Length^(-2^63) compiles with integer
    exponents only. *)
Example C76_operators_exactly_applies :
  compiles (ops IntegerExponents) ["length"] std_raw_op std_raw_copy all_features TDiv (Value, one_field (-1)) (Value, one_field (- 2 ^ 63))
    (Some (Known (Float F64), [("length", (2 ^ 63 - 1)%Z)])) /\
  ~ (TDiv = TDiv -> negatable (one_field (- 2 ^ 63))) /\ i64_ty (one_field (-1)) /\ i64_ty (one_field (- 2 ^ 63)).
Proof.
  split; [|split].
  - apply (compiles_iff_spec _ _ _ _ _ _ _ _ _ (std_storages_ok all_features)).
    exists (Known (Float F64)). split; [repeat split; reflexivity|]. split; [now left|]. split; [now left|].
    eexists. split; [|reflexivity]. vm_compute. reflexivity.
  - intros H. specialize (H eq_refl). inversion H as [|? ? H1]; subst. now apply H1.
  - split; (constructor; [cbn [snd]; lia|constructor]).
Qed.
