(** * C80: code that compiles runs to the end *)
From Coq Require Import String List Bool ZArith Lia.
From Verif Require Import MachineInt Ratio F64 FloatOps Magnitude Exponent ExponentFacts SMap Types CodegenDimension
  Setting ExampleSystems Storage Operators OperatorSpec OperatorFacts Raw FloatMethods Vector PropertiesDimension
  PropertiesOperators PropertiesMethods Programs Equivariance PropertiesEquivariance FloatPrograms SafetySpec SafetyFacts.
Import ListNotations.
Local Open Scope list_scope.

(** A program over quantities that type-checks, without [clamp]: no operation panics or gets stuck, on any
    float (also NaN, infinities and zero), and the result is of the type the compiler gave it. *)
Theorem C80_no_panic : forall k fields ft math_functions units strict G (p : prog k) t env M mags rho,
  typed k fields ft math_functions units [] strict G p t -> plain false p = true ->
  length mags = length units -> Forall2 of_type G rho ->
  exists v, frun stop env M mags rho p = Some v /\ of_type t v.
Proof.
  intros k fields ft mf units strict G p t env M mags rho H P L R.
  destruct (safe fields ft mf units strict stop env M mags false L ltac:(discriminate) G) as [K _]. eauto.
Qed.
Print Assumptions C80_no_panic.

(** [clamp] is the only method that panics (when: C17_clamp): were it to return some number of the type of
    [self] instead, every program that type-checks would run to the end. *)
Theorem C80_only_clamp : forall k fields ft math_functions units strict G (p : prog k) t env M mags rho panic,
  (forall s x, has_storage s x -> exists y, panic x = Some y /\ has_storage s y) ->
  typed k fields ft math_functions units [] strict G p t -> plain true p = true ->
  length mags = length units -> Forall2 of_type G rho ->
  exists v, frun panic env M mags rho p = Some v /\ of_type t v.
Proof.
  intros k fields ft mf units strict G p t env M mags rho panic Hp H P L R.
  destruct (safe fields ft mf units strict panic env M mags true L (fun _ => Hp) G) as [K _]. eauto.
Qed.
Print Assumptions C80_only_clamp.

(** ** The hypotheses can be met *)
(** A loop adding up speeds [x / t] with [t] zero: infinities, but no panic. *)
Definition safe_program : prog IntegerExponents :=
  Let (New (U 0) (Var 1)) (Repeat 3 (Bin TDiv (Var 0) (Var 1)) (Bin TAdd (Var 0) (Bin TDiv (Var 1) (Var 2)))).
Example C80_applies : forall env M m,
  typed IntegerExponents two_fields all_features true [length_] [] true [quantity (Float F64) time_; number (Float F64)] safe_program
    (quantity (Float F64) speed) /\
  plain false safe_program = true /\ length [m] = length [length_] /\
  Forall2 of_type [quantity (k := IntegerExponents) (Float F64) time_; number (Float F64)] [FNum (RF64 f64_zero); FNum (RF64 f64_one)] /\
  exists v, frun stop env M [m] [FNum (RF64 f64_zero); FNum (RF64 f64_one)] safe_program = Some v /\
    of_type (quantity (k := IntegerExponents) (Float F64) speed) v.
Proof.
  intros env M m.
  assert (Ty : typed IntegerExponents two_fields all_features true [length_] [] true [quantity (Float F64) time_; number (Float F64)] safe_program
    (quantity (Float F64) speed)).
  { unfold safe_program. eapply T_Let; [apply T_New; [now constructor|now constructor]|].
    apply T_Repeat.
    - eapply T_Bin; [now constructor|now constructor|exact divides].
    - eapply T_Bin; [now constructor|eapply T_Bin; [now constructor|now constructor|exact divides]|].
      apply (compiles_iff_spec _ _ _ _ _ _ _ _ _ (EquivarianceFacts.std_ok all_features)). exists (Known (Float F64)).
      split; [split; [reflexivity|split; intros H; now destruct H]|].
      split; [now left|]. split; [now left|]. split; reflexivity. }
  assert (R : Forall2 of_type [quantity (k := IntegerExponents) (Float F64) time_; number (Float F64)] [FNum (RF64 f64_zero); FNum (RF64 f64_one)]).
  { constructor; [exact I|]. constructor; [exact I|constructor]. }
  do 4 (split; [first [exact Ty|reflexivity|exact R]|]).
  exact (C80_no_panic _ _ _ _ _ _ _ _ _ env M [m] _ Ty eq_refl eq_refl R).
Qed.
