(** * C07: results do not depend on the choice of base units

    [typed]: a program accepted by the impls the macro generates (Programs.v); [eval]: its result
    over the reals, given the factors of the units, the stored values of the constants and the
    inputs.  [rescale], [scale_val], [scale_all], [scale_table] (Equivariance.v): what changing the
    base units does to stored values. *)
From Coq Require Import String List Bool ZArith QArith Qcanon Qreals Reals Lra.
From Verif Require Import MachineInt Ratio F64 Magnitude Exponent ExponentFacts SMap Types CodegenDimension
  Setting Storage Operators OperatorSpec OperatorFacts FloatMethods Vector CodegenDimensionFacts
  PropertiesDimension PropertiesOperators Programs Equivariance EquivarianceFacts.
Import ListNotations.
Local Close Scope Q_scope.
Local Close Scope Qc_scope.
Local Open Scope R_scope.
Local Open Scope list_scope.

Theorem C07_base_unit_independence :
  forall k fields ft math lambda units constants functions factors cvals G p t rho,
  NoDup fields -> (forall f, 0 < lambda f) ->
  Forall (is_dimension k fields) units -> Forall (is_dimension k fields) constants ->
  Forall (type_ok k fields) G ->
  typed k fields ft math units constants true G p t ->
  eval functions (scale_table k lambda units factors) (scale_table k lambda constants cvals)
       (scale_all k lambda G rho) p =
  option_map (scale_val k lambda t) (eval functions factors cvals rho p).
Proof.
  intros k fields ft math lambda units constants functions factors cvals G p t rho N _ HU HC W H.
  destruct (equivariance k fields ft math lambda N units constants functions factors cvals HU HC G) as [E _].
  now apply E.
Qed.
Print Assumptions C07_base_unit_independence.

(** In particular comparisons, bare numbers and dimensionless quantities are unchanged. *)
Definition no_dimension (k : mode) (fields : list string) (t : type k) : Prop :=
  match t with
  | T (TyQ _ d) => denotes k fields d (fun _ => ZQc 0)
  | T (TyS _) | Bool => True
  end.
Theorem C07_dimensionless_unchanged :
  forall k fields ft math lambda units constants functions factors cvals G p t rho,
  NoDup fields -> (forall f, 0 < lambda f) ->
  Forall (is_dimension k fields) units -> Forall (is_dimension k fields) constants ->
  Forall (type_ok k fields) G ->
  typed k fields ft math units constants true G p t -> no_dimension k fields t ->
  eval functions (scale_table k lambda units factors) (scale_table k lambda constants cvals)
       (scale_all k lambda G rho) p =
  eval functions factors cvals rho p.
Proof.
  intros k fields ft math lambda units constants functions factors cvals G p t rho N HL HU HC W H D.
  rewrite (C07_base_unit_independence k fields ft math lambda units constants functions factors cvals G p t rho
             N HL HU HC W H).
  destruct (eval functions factors cvals rho p) as [v|]; [|reflexivity]. cbn [option_map]. f_equal.
  destruct t as [[s d|s]|]; try reflexivity. destruct v as [a|]; [|reflexivity]. unfold scale_val.
  rewrite (rescale_weight k fields lambda d _ D), weight_zero, exp_0, scale_one. reflexivity.
Qed.
Print Assumptions C07_dimensionless_unchanged.

(** The result has a dimension whenever it is a quantity: the factor in the theorem is that of a
    real exponent vector. *)
Theorem C07_result_dimension :
  forall k fields ft math units constants G p s d,
  NoDup fields ->
  Forall (is_dimension k fields) units -> Forall (is_dimension k fields) constants ->
  Forall (type_ok k fields) G ->
  typed k fields ft math units constants true G p (T (TyQ s d)) ->
  exists v, denotes k fields d v /\
    forall lambda, (forall f, 0 < lambda f) ->
      rescale k lambda d = fold_right Rmult 1 (map (fun f => Rpower (lambda f) (Q2R (this (v f)))) fields).
Proof.
  intros k fields ft math units constants G p s d N HU HC W H.
  destruct (equivariance k fields ft math (fun _ => 1) N units constants (fun _ _ => None) [] [] HU HC G) as [E _].
  destruct (E p _ H W) as [[v V] _]. exists v. split; [exact V|]. intros lambda _.
  destruct V as [S V]. unfold shaped in S. rewrite <- S. clear -V. induction d as [|[f e] d IH]; [reflexivity|].
  unfold rescale in *. cbn [map fold_right fst snd]. rewrite IH by (intros; apply V; now right).
  destruct (V f e (or_introl eq_refl)) as [_ <-]. reflexivity.
Qed.
Print Assumptions C07_result_dimension.

(** ** The four operations left out *)
(** Each of them, alone, gives a program that the compiler accepts and whose result does depend on
    the base units. *)
Definition twice_length (f : string) : R := if String.eqb f "length" then 2 else 1.
Notation f64_ := (Float F64).
Definition escape (G : list (type IntegerExponents)) (rho : list val) (p : prog IntegerExponents) : Prop :=
  exists t,
  typed IntegerExponents two_fields all_features true [length_] [] false G p t /\
  eval (fun _ _ => None) (scale_table IntegerExponents twice_length [length_] [1]) []
       (scale_all IntegerExponents twice_length G rho) p <>
  option_map (scale_val IntegerExponents twice_length t) (eval (fun _ _ => None) [1] [] rho p).
Lemma rescale_two a b : rescale IntegerExponents twice_length [("length"%string, a); ("time"%string, b)] = Rpower 2 (IZR a).
Proof.
  unfold rescale. cbn [fold_right fst snd].
  change (Q2R (this (l_val (ops IntegerExponents) (laws IntegerExponents) a))) with (q (ZQc a)).
  change (Q2R (this (l_val (ops IntegerExponents) (laws IntegerExponents) b))) with (q (ZQc b)).
  rewrite !q_Z. change (twice_length "length") with 2. change (twice_length "time") with 1.
  unfold Rpower at 2. rewrite ln_1, Rmult_0_r, exp_0. ring.
Qed.
Theorem C07_escapes :
  escape [] [] (NumberOver (Lit f64_ (Sc 1)) (U 0)) /\
  escape [quantity f64_ time_] [VNum (Sc 1)] (UnitOver (U 0) (Var 0)) /\
  escape [quantity f64_ time_] [VNum (Sc 1)] (ValueIn (Var 0) (U 0)) /\
  escape [quantity f64_ length_] [VNum (Sc 1)] (Call MValueUnchecked (Var 0)).
Proof.
  assert (P1 : Rpower 2 (IZR 1) = 2) by (apply Rpower_1; lra).
  assert (P0 : Rpower 2 (IZR 0) = 1) by (apply Rpower_O; lra).
  assert (L : rescale IntegerExponents twice_length length_ = 2) by (unfold length_; rewrite rescale_two; exact P1).
  assert (Ti : rescale IntegerExponents twice_length time_ = 1) by (unfold time_; rewrite rescale_two; exact P0).
  assert (Sp : rescale IntegerExponents twice_length speed = 2) by (unfold speed; rewrite rescale_two; exact P1).
  unfold escape, scale_table. cbn [combine map fst snd]. rewrite L.
  assert (D : forall x y, arith1 TDiv x y = if Req_EM_T y 0 then None else Some (x / y)) by reflexivity.
  split; [|split; [|split]].
  - exists (quantity f64_ length_). split; [apply T_NumberOver; [reflexivity|now constructor|constructor]|].
    cbn [eval]. unfold with_unit. cbn [get_num factor_of nth_error arith]. rewrite !D.
    destruct (Req_EM_T (2 * 1) 0); [lra|]. destruct (Req_EM_T 1 0); [lra|].
    cbn [option_map quantity scale_val scale_num]. rewrite L. intros E. injection E. lra.
  - exists (quantity f64_ speed). split.
    { apply T_UnitOver with (d := length_) (d1 := time_); [reflexivity|now constructor|now constructor|reflexivity]. }
    cbn [eval scale_all quantity scale_val scale_num]. rewrite Ti. unfold with_unit.
    cbn [get_num factor_of nth_error arith]. rewrite !D.
    destruct (Req_EM_T (2 * 1) 0); [lra|]. destruct (Req_EM_T 1 0); [lra|].
    cbn [option_map quantity scale_val scale_num]. rewrite Sp. intros E. injection E. lra.
  - exists (number f64_). split.
    { apply T_ValueIn with (d := length_) (d1 := time_); [now constructor|now constructor|discriminate]. }
    cbn [eval scale_all quantity scale_val scale_num]. rewrite Ti. unfold with_unit.
    cbn [get_num factor_of nth_error arith]. rewrite !D.
    destruct (Req_EM_T (2 * 1) 0); [lra|]. destruct (Req_EM_T 1 0); [lra|].
    cbn [option_map number scale_val scale_num]. intros E. injection E. lra.
  - exists (number f64_). split.
    { apply T_Call_number with (s := f64_) (d := length_); [now constructor|reflexivity|discriminate]. }
    cbn [eval scale_all quantity scale_val scale_num nth_error get_num method_real]. rewrite L.
    cbn [option_map number scale_val]. intros E. injection E. lra.
Qed.
Print Assumptions C07_escapes.

(** ** The hypotheses are met *)
(** The larger of the speeds [x / t] and [5 m / c], for a length [x], a time [t] and a constant [c]. *)
Definition example_program : prog IntegerExponents :=
  Let (Bin TDiv (NumberTimes (Lit f64_ (Sc 5)) (U 0)) (Constant 0))
      (Call2 MMax (Bin TDiv (Var 1) (Var 2)) (Var 0) (Var 0)).
Definition example_inputs : list (type IntegerExponents) := [quantity f64_ length_; quantity f64_ time_].
Lemma is_dimension_two a b : is_dimension IntegerExponents two_fields [("length"%string, a); ("time"%string, b)].
Proof.
  exists (fun f => ZQc (if String.eqb f "length" then a else b)). split; [reflexivity|].
  intros f e [E|[E|[]]]; injection E as <- <-; split; try exact I; reflexivity.
Qed.
Lemma divides : compiles (ops IntegerExponents) two_fields std_raw_op std_raw_copy all_features TDiv
  (Value, TyQ (Known f64_) length_) (Value, TyQ (Known f64_) time_) (Some (Known f64_, speed)).
Proof.
  apply (compiles_iff_spec _ _ _ _ _ _ _ _ _ (std_ok all_features)). exists (Known f64_).
  split; [split; [reflexivity|split; intros H; now destruct H]|].
  split; [now left|]. split; [now left|]. exists speed. split; reflexivity.
Qed.
Example C07_applies :
  typed IntegerExponents two_fields all_features true [length_] [time_] true example_inputs example_program
    (quantity f64_ speed) /\
  Forall (type_ok IntegerExponents two_fields) example_inputs /\
  Forall (is_dimension IntegerExponents two_fields) [length_] /\
  Forall (is_dimension IntegerExponents two_fields) [time_] /\ NoDup two_fields /\
  eval (fun _ _ => None) [1000] [2] [VNum (Sc 6000); VNum (Sc 2)] example_program = Some (VNum (Sc 3000)).
Proof.
  split; [|split; [|split; [|split; [|split]]]].
  - unfold example_program. apply T_Let with (t := quantity f64_ speed).
    + apply T_Bin with (b1 := TyQ (Known f64_) length_) (b2 := TyQ (Known f64_) time_).
      * apply T_NumberTimes; [now constructor|constructor].
      * now constructor.
      * exact divides.
    + apply T_Call2 with (s := f64_) (d := speed) (q := TyQ (Known f64_) speed).
      * apply T_Bin with (b1 := TyQ (Known f64_) length_) (b2 := TyQ (Known f64_) time_);
          [now constructor|now constructor|exact divides].
      * now constructor.
      * now constructor.
      * split; [|split; [now left|reflexivity]]. exists F64. split; [reflexivity|]. cbn. auto.
  - repeat constructor; apply is_dimension_two.
  - repeat constructor; apply is_dimension_two.
  - repeat constructor; apply is_dimension_two.
  - repeat constructor; cbn; intuition discriminate.
  - unfold example_program. cbn [eval]. unfold with_unit. cbn [get_num factor_of nth_error arith arith1 option_map].
    destruct (Req_EM_T 2 0); [lra|]. cbn [option_map get_num arg_method_real].
    do 3 f_equal. rewrite Rmax_left; lra.
Qed.
