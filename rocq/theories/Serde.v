(** * Model of codegen/serde.rs *)
From Coq Require Import String Ascii List Bool ZArith.
From Flocq Require Import IEEE754.Binary IEEE754.Bits.
From Verif Require Import MachineInt Ratio F64 Magnitude Exponent SMap Types
  CodegenDimension Storage Raw Text TextFacts Debug.
Import ListNotations.
Local Open Scope list_scope.

(** What a call can do: return, report an error, panic. *)
Inductive outcome (A : Type) := Ok (a : A) | Err | Panic.
Arguments Ok {A}. Arguments Err {A}. Arguments Panic {A}.
Definition andthen {A B} (r : outcome A) (f : A -> outcome B) : outcome B :=
  match r with Ok a => f a | Err => Err | Panic => Panic end.
Notation "'let!' x := e 'in' b" := (andthen e (fun x => b)) (at level 200, x pattern, right associativity).
Definition or_panic {A} (r : option A) : outcome A := match r with Some a => Ok a | None => Panic end.
Definition or_err {A} (r : option A) : outcome A := match r with Some a => Ok a | None => Err end.

(** What a data format hands to the visitor (serde's data model; [visit_i8] ... [visit_i32],
    [visit_u8] ... [visit_u32], [visit_f32], [visit_string] and [visit_borrowed_str] forward to these;
    every other kind of value is an error). *)
Inductive event := EStr (s : text) | EI64 (z : Z) | EU64 (z : Z) | EF64 (x : f64) | EOther.

Section Serde.
Context (X : exp_ops) (fields : list string) (units : list (runtime_unit X)).

Section Number.
(** The type of factors: [f64] in the code; the proofs also use the same function over the reals. *)
Context {M : Type} (one : M) (mul : M -> M -> M) (power : f64 -> Z -> M).

(** serde.rs:60-88. *)
Definition read_single_unit_str (unit_str : text) : outcome (dimval X * M) :=
  let! (unit, exponent) :=
    (if existsb (fun c => isc c "^") unit_str
     then match split_on "^" unit_str with
          | [a; b] => or_err (option_map (fun e => (a, e)) (parse_i32 b))
          | _ => Err
          end
     else Ok (unit_str, 1%Z)) in
  let! u := or_err (get_unit_by_symbol X units unit) in
  let! d := or_panic (dim_mul X fields (ru_dim u) exponent) in
  Ok (d, power (ru_mag u) exponent).

(** serde.rs:49-58: the loop, from a given total on. *)
Fixpoint read_units (total : dimval X * M) (ws : list text) : outcome (dimval X * M) :=
  match ws with
  | [] => Ok total
  | w :: ws' =>
      let! (d, x) := read_single_unit_str w in
      let! t := or_panic (dim_add X fields (fst total) d) in
      read_units (t, mul (snd total) x) ws'
  end.
Definition read_unit_str (ws : list text) : outcome (dimval X * M) :=
  let! none := or_panic (dim_none X fields) in read_units (none, one) ws.
End Number.

Context (env : fenv).
(** serde.rs:83-86. *)
Definition code_power (m : f64) (e : Z) : f64 :=
  into_f64 env (e_float_pow X env (from_f64 m) (e_of_i32 X e)).
Definition code_read_unit_str : list text -> outcome (dimval X * f64) :=
  read_unit_str f64_one f64_mul code_power.

(** serde.rs:34-47. *)
Definition get_quantity_if_dimensions_match (D : dimval X) (value : raw) (dimension : dimval X)
  : outcome raw :=
  if dim_eqb X dimension D then Ok value else Err.

(** rustc: [value as f32], [value as f64]. *)
Definition int_as (f : float_type) (z : Z) : raw :=
  match f with F32 => RF32 (f32_of_Z z) | F64 => RF64 (f64_of_Z z) end.
Definition f64_as (f : float_type) (x : f64) : raw :=
  match f with F32 => RF32 (f64_to_f32 x) | F64 => RF64 x end.
Definition parse_raw (f : float_type) (s : text) : option raw :=
  match f with F32 => option_map RF32 (parse_f32 s) | F64 => option_map RF64 (parse_f64 s) end.

(** serde.rs:119-163: a number for a float type. *)
Definition visit_number (D : dimval X) (value : raw) : outcome raw :=
  let! none := or_panic (dim_none X fields) in
  if dim_eqb X D none then Ok value else Err.

(** serde.rs:165-188: a string for a float type. *)
Definition visit_str_float (f : float_type) (D : dimval X) (s : text) : outcome raw :=
  let value := trim s in
  match split_ws value with
  | [] => Err
  | numerical_value_str :: split =>
      let! numerical_value := or_err (parse_raw f numerical_value_str) in
      let! (total_dimension, total_factor) := code_read_unit_str split in
      let! v := or_panic (raw_mul numerical_value (f64_as f total_factor)) in
      get_quantity_if_dimensions_match D v total_dimension
  end.

(** The components of a vector from those of its array (glam: [from_array]). *)
Definition parse_components (f : float_type) (ws : list text) : option raw :=
  match f with
  | F32 => option_map RVec32 (mapM parse_f32 ws)
  | F64 => option_map RVec64 (mapM parse_f64 ws)
  end.

(** serde.rs:247-280: a string for a vector type. *)
Definition visit_str_vector (v : vector_type) (D : dimval X) (s : text) : outcome raw :=
  let value := trim s in
  let! (vector_part, unit_part) := or_err (cut ")" value) in
  let! (_, vector_part) := or_err (cut "(" vector_part) in
  let vector_components := split_ws vector_part in
  if Nat.eqb (length vector_components) (num_dims v)
  then let! vector := or_err (parse_components (component v) vector_components) in
       let! (total_dimension, total_factor) := code_read_unit_str (split_ws unit_part) in
       let! r := or_panic (raw_mul (f64_as (component v) total_factor) vector) in
       get_quantity_if_dimensions_match D r total_dimension
  else Err.

(** serde.rs:101-189, 222-281: [Deserialize] for the quantity type with storage [s] and dimension [D]. *)
Definition deserialize (s : storage) (D : dimval X) (e : event) : outcome raw :=
  match s, e with
  | Float f, EStr t => visit_str_float f D t
  | Float f, EI64 z | Float f, EU64 z => visit_number D (int_as f z)
  | Float f, EF64 x => visit_number D (f64_as f x)
  | Vector v, EStr t => visit_str_vector v D t
  | _, _ => Err
  end.
End Serde.

(** serde.rs:191-199, 283-294: [Serialize]: the [Debug] text, for vectors with round brackets and
    without commas.  [None] as for [debug]. *)
Definition serialize (X : exp_ops) (env : fenv) (lit : X -> option X) (show : X -> text)
  (fmt32 : f32 -> text) (fmt64 : f64 -> text) (o : defs X) (D : dimval X) (value : raw)
  : option (option text) :=
  let? r := debug X env lit show o D (display fmt32 fmt64 value) in
  Some (match value with
        | RF32 _ | RF64 _ => r
        | RVec32 _ | RVec64 _ =>
            option_map (fun t => replace "," [] (replace "]" [")"%char] (replace "[" ["("%char] t))) r
        end).

(** The unit table used by deserialization: all units (serde.rs:23). *)
Definition serde_units (X : exp_ops) (env : fenv) (lit : X -> option X) (o : defs X)
  : option (list (runtime_unit X)) :=
  runtime_units X env lit (df_base_dimensions o) (df_units o).
