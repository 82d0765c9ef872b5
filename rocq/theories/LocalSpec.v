(** * Specification: what a file says about a name

    [says f]: the names a file defines, each with what is said about it.  Symbols, annotations and the
    attributes that only add other names are left out. *)
From Coq Require Import String List Bool ZArith.
From Verif Require Import MachineInt F64 Magnitude Exponent Types PrefixSpec Parse Grammar Accuracy DimensionMath Setting ExactFacts.
Import ListNotations.
Local Open Scope string_scope.
Local Open Scope list_scope.

Inductive said :=
| BaseDimension                         (* [dimension Length] *)
| DimensionIs (x : sx)                  (* [dimension Area = Length^2] *)
| BaseUnitOf (d : ident)                (* [#[base(Length)] unit meter] *)
| ValueIs (x : sx)                      (* [unit inch = 0.0254 * meter], [constant C = ...] *)
| PowerOfTen (z : Z) (i : ident).       (* prefixed units; aliases: 10^0 *)

Definition says_stmt (s : stmt) : list (ident * said) :=
  match s with
  | SDimension _ i None => [(i, BaseDimension)]
  | SDimension _ i (Some x) => [(i, DimensionIs x)]
  | SUnit l i _ rhs =>
      match rhs with Some x => [(i, ValueIs x)] | None => map (fun d => (i, BaseUnitOf d)) (bases_of l) end ++
      map (fun a => (a, PowerOfTen 0 i)) (alias_names l) ++
      flat_map (fun p => map (fun a => ((si_name p ++ a)%string, PowerOfTen (si_power p) i)) (i :: alias_names l))
        (prefixes_of l)
  | SConstant _ i _ x => [(i, ValueIs x)]
  | _ => []
  end.
Definition says (f : slist stmt) : list (ident * said) := flat_map says_stmt (sl_items f).

(** The names it refers to. *)
Definition refers (s : ident) (d : said) : Prop :=
  match d with
  | BaseDimension => False
  | DimensionIs x | ValueIs x => in_x s x
  | BaseUnitOf i | PowerOfTen _ i => s = i
  end.

(** What comes out: a dimension, or a unit or constant with its dimension and its factor. *)
Definition comes_out {k : mode} (o : defs (ops k)) (n : ident) (l : bdims (ops k)) (m : option magnitude) : Prop :=
  (exists d, In d (df_dimensions o) /\ d_name d = n /\ d_dims d = l /\ m = None) \/
  (exists u, In u (df_units o) /\ un_name u = n /\ un_dims u = l /\ m = Some (un_mag u)) \/
  (exists c, In c (df_constants o) /\ c_name c = n /\ c_dims c = l /\ m = Some (c_mag c)).
