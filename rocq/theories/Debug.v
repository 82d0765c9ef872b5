(** * Model of codegen/debug_trait.rs and diman_lib/src/runtime_unit_storage.rs *)
From Coq Require Import String Ascii List Bool ZArith.
From Flocq Require Import IEEE754.Binary IEEE754.Bits.
From Verif Require Import MachineInt Ratio F64 Magnitude Exponent SMap Expression DimensionMath Types
  CodegenDimension Storage Raw Text TextFacts.
Import ListNotations.
Local Open Scope list_scope.

Section Debug.
Context (X : exp_ops) (env : fenv) (lit : X -> option X).
(** [Display] of an exponent: core for [i64]; ratio.rs:105-113 for [Ratio] (see below). *)
Context (show : X -> text).

(** runtime_unit_storage.rs:1-15. *)
Record runtime_unit := { ru_symbol : text; ru_dim : dimval X; ru_mag : f64 }.

(** debug_trait.rs:24-38: the entry emitted for one unit ([Some None]: no symbol, skipped).
    [None]: the dimension expression is rejected by rustc, or the factor is not finite (quoting an
    infinite or NaN [f64] panics in the macro). *)
Definition runtime_unit_of (fields : list string) (u : unit_def X) : option (option runtime_unit) :=
  match un_symbol u with
  | None => Some None
  | Some s =>
      let? d := dim_expr X lit fields (un_dims u) in
      let m := into_f64 env (un_mag u) in
      if is_finite 53 1024 m
      then Some (Some {| ru_symbol := str s; ru_dim := d; ru_mag := m |})
      else None
  end.
(** debug_trait.rs:13-44: the array of all entries in order. *)
Definition runtime_units (fields : list string) (us : list (unit_def X)) : option (list runtime_unit) :=
  let? rs := mapM (runtime_unit_of fields) us in
  Some (flat_map (fun r => match r with Some u => [u] | None => [] end) rs).

(** runtime_unit_storage.rs:26-32. *)
Definition get_first_unit_for_dimension (units : list runtime_unit) (d : dimval X) : option runtime_unit :=
  find (fun u => dim_eqb X (ru_dim u) d) units.
Definition get_unit_by_symbol (units : list runtime_unit) (s : text) : option runtime_unit :=
  find (fun u => text_eqb (ru_symbol u) s) units.

(** debug_trait.rs:49-54: the units of factor one. *)
Definition debug_units (o : defs X) : option (list runtime_unit) :=
  runtime_units (df_base_dimensions o) (filter (fun u => is_one env (un_mag u)) (df_units o)).

(** debug_trait.rs:78-91: the text for one base dimension; [None] is the panic of [unwrap]. *)
Definition base_dimension_symbol (fields : list string) (units : list runtime_unit) (D : dimval X)
  (f : string) : option text :=
  let? dim := dim_expr X lit fields (bd_for_base X f) in
  let? e := sget f D in
  if e_eqb X e (e_one X)
  then let? u := get_first_unit_for_dimension units dim in Some (space :: ru_symbol u)
  else if negb (e_eqb X e (e_zero X))
  then let? u := get_first_unit_for_dimension units dim in
       Some (space :: ru_symbol u ++ "^"%char :: show e)
  else Some [].

(** debug_trait.rs:61-75: the text after the number, [None] if formatting panics. *)
Definition debug_unit_text (fields : list string) (units : list runtime_unit) (D : dimval X)
  : option text :=
  match get_first_unit_for_dimension units D with
  | Some u => Some (space :: ru_symbol u)
  | None => let? ts := mapM (base_dimension_symbol fields units D) fields in Some (concat ts)
  end.

(** debug_trait.rs:61-66: [{:?}] of a quantity whose stored value displays as [value].
    The outer [None]: the generated code is not accepted by rustc (or the macro panics);
    the inner one: formatting panics. *)
Definition debug (o : defs X) (D : dimval X) (value : text) : option (option text) :=
  let? units := debug_units o in
  Some (let? t := debug_unit_text (df_base_dimensions o) units D in Some (value ++ t)).
End Debug.
Arguments ru_symbol {X}. Arguments ru_dim {X}. Arguments ru_mag {X}.

(** ratio.rs:105-113. *)
Definition show_ratio (r : ratio) : text :=
  if (denom r =? 1)%Z then show_int (num r) else show_int (num r) ++ "/"%char :: show_int (denom r).

(** [Display] of the stored value: core's for floats (parameters: the shortest decimal that reads
    back as the same float, computed by core), glam's for vectors: [[x, y]]. *)
Section Display.
Context (fmt32 : f32 -> text) (fmt64 : f64 -> text).
Fixpoint commas (ts : list text) : text :=
  match ts with
  | [] => []
  | [t] => t
  | t :: ts' => t ++ ","%char :: space :: commas ts'
  end.
Definition display (r : raw) : text :=
  match r with
  | RF32 x => fmt32 x
  | RF64 x => fmt64 x
  | RVec32 xs => "["%char :: commas (map fmt32 xs) ++ ["]"%char]
  | RVec64 xs => "["%char :: commas (map fmt64 xs) ++ ["]"%char]
  end.
End Display.
