(** * Specification for C07: rescaling the base units *)
From Coq Require Import String List Bool ZArith QArith Qcanon Qreals Reals Lra.
From Verif Require Import MachineInt Ratio F64 Magnitude Exponent ExponentFacts SMap Types CodegenDimension
  Setting Storage Operators OperatorSpec OperatorFacts FloatMethods Vector CodegenDimensionFacts Programs.
Import ListNotations.
Local Close Scope Q_scope.
Local Close Scope Qc_scope.
Local Open Scope R_scope.
Local Open Scope list_scope.

(** ** Specification *)
Section Spec.
Context (k : mode) (lambda : string -> R).
(** Making the base unit of each base dimension [f] smaller by the factor [lambda f] multiplies stored
    values of dimension [d] by the product of the [lambda f] to the power of the exponent of [f]. *)
Definition rescale (d : dimval (ops k)) : R :=
  fold_right (fun p acc => Rpower (lambda (fst p)) (Q2R (this (l_val (ops k) (laws k) (snd p)))) * acc) 1 d.
Definition scale_num (c : R) (a : num) : num :=
  match a with Sc x => Sc (c * x) | Ve xs => Ve (map (Rmult c) xs) end.
(** Bare numbers and truth values do not change. *)
Definition scale_val (t : type k) (v : val) : val :=
  match t, v with
  | T (TyQ _ d), VNum a => VNum (scale_num (rescale d) a)
  | _, v => v
  end.
(** Inputs, units and constants of the rescaled world. *)
Fixpoint scale_all (ts : list (type k)) (vs : list val) : list val :=
  match ts, vs with
  | t :: ts, v :: vs => scale_val t v :: scale_all ts vs
  | _, _ => []
  end.
Definition scale_table (ds : list (dimval (ops k))) (xs : list R) : list R :=
  map (fun p => rescale (fst p) * snd p) (combine ds xs).
End Spec.
