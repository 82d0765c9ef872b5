(** * Specification for C80: values of a type, and programs without literals *)
From Coq Require Import String List Bool.
From Verif Require Import Exponent Setting Storage Operators Raw FloatMethods Vector Programs FloatPrograms.
Import ListNotations.

(** A stored number of the raw type [s]. *)
Definition has_storage (s : storage) (x : raw) : Prop :=
  match s, x with
  | Float F32, RF32 _ | Float F64, RF64 _ => True
  | Vector v, RVec32 xs => component v = F32 /\ length xs = num_dims v
  | Vector v, RVec64 xs => component v = F64 /\ length xs = num_dims v
  | _, _ => False
  end.
(** Numbers and quantities of a known raw type, and truth values. *)
Definition is_of {k} (b : base_ty (ops k)) (x : raw) : Prop :=
  match b with
  | TyQ (Known s) _ | TyS (Known s) => has_storage s x
  | _ => False
  end.
Definition of_type {k} (t : type k) (v : fval) : Prop :=
  match t, v with
  | T b, FNum x => is_of b x
  | Bool, FBool _ => True
  | _, _ => False
  end.

(** No literal numbers (they are passed in as variables); calls of [clamp] only if [clamps]. *)
Section Plain.
Context {k : mode} (clamps : bool).
Fixpoint plain (p : prog k) : bool :=
  match p with
  | Var _ | Zero _ _ => true
  | Lit _ _ | Constant _ => false
  | Convert a | New _ a | NumberTimes a _ | NumberOver a _ | UnitOverNumber _ a | Times a _ | TimesLeft _ a
  | Over a _ | UnitOver _ a | ValueIn a _ | Neg a | Call _ a => plain a
  | Bin _ a b | Compare _ a b | Let a b | Repeat _ a b => plain a && plain b
  | If c a b => plain c && plain a && plain b
  | Call2 m a b c => plain a && plain b && plain c && (clamps || match m with MClamp => false | _ => true end)
  | Sum _ _ items | CallVec _ _ items => plain_all items
  end
with plain_all (ps : progs k) : bool :=
  match ps with Nil => true | Cons a rest => plain a && plain_all rest end.
End Plain.
