(** * Specification for C82: where the dimension of a result comes from *)
From Coq Require Import String List Bool ZArith QArith Qcanon Reals.
From Verif Require Import MachineInt Ratio F64 Exponent ExponentFacts CodegenDimension CodegenDimensionFacts Setting Storage Operators FloatMethods Vector Programs.
Import ListNotations.
Local Close Scope R_scope. Local Close Scope Q_scope.
Local Open Scope Qc_scope.
Local Open Scope list_scope.

(** A combination of exponent vectors with rational coefficients. *)
Fixpoint combined (terms : list (Qc * (string -> Qc))) (f : string) : Qc :=
  match terms with
  | [] => 0
  | (c, v) :: rest => c * v f + combined rest f
  end.

(** The units and constants a program names. *)
Definition expr_units (u : unit_expr) : list nat := match u with U i => [i] | UTimes i j | UOver i j => [i; j] end.
Section Named.
Context {k : mode}.
Fixpoint units_in (p : prog k) : list nat :=
  match p with
  | Var _ | Lit _ _ | Zero _ _ | Constant _ => []
  | Convert a | Neg a | Call _ a => units_in a
  | New u a | NumberTimes a u | NumberOver a u | UnitOverNumber u a | Times a u | TimesLeft u a | Over a u | UnitOver u a
  | ValueIn a u => expr_units u ++ units_in a
  | Bin _ a b | Compare _ a b | Let a b | Repeat _ a b => units_in a ++ units_in b
  | Call2 _ a b c | If a b c => units_in a ++ units_in b ++ units_in c
  | Sum _ _ items => units_in_all items
  | CallVec _ _ args => units_in_all args
  end
with units_in_all (ps : progs k) : list nat :=
  match ps with Nil => [] | Cons a rest => units_in a ++ units_in_all rest end.
Fixpoint constants_in (p : prog k) : list nat :=
  match p with
  | Var _ | Lit _ _ | Zero _ _ => []
  | Constant c => [c]
  | Convert a | Neg a | Call _ a => constants_in a
  | New _ a | NumberTimes a _ | NumberOver a _ | UnitOverNumber _ a | Times a _ | TimesLeft _ a | Over a _ | UnitOver _ a
  | ValueIn a _ => constants_in a
  | Bin _ a b | Compare _ a b | Let a b | Repeat _ a b => constants_in a ++ constants_in b
  | Call2 _ a b c | If a b c => constants_in a ++ constants_in b ++ constants_in c
  | Sum _ _ items => constants_in_all items
  | CallVec _ _ args => constants_in_all args
  end
with constants_in_all (ps : progs k) : list nat :=
  match ps with Nil => [] | Cons a rest => constants_in a ++ constants_in_all rest end.
End Named.

(** [v] is the dimension of an input of the program, of a unit it names, or of a constant it names. *)
Definition source (k : mode) (fields : list string) (units constants : list (dimval (ops k))) (G : list (type k)) (p : prog k)
    (v : string -> Qc) : Prop :=
  exists d, stands_for (ops k) fields (laws k) d v /\
    ((exists s, In (T (TyQ s d)) G) \/ (exists i, In i (units_in p) /\ nth_error units i = Some d) \/
     (exists i, In i (constants_in p) /\ nth_error constants i = Some d)).
Definition is_zero (a : num) : Prop := Forall (fun x => x = 0%R) (comps a).
