(** * Model of codegen/mod.rs, units_and_constants.rs, dimensions.rs, quantity_type.rs: the items and
    modules of the generated code *)
From Coq Require Import String List Bool.
From Verif Require Import Exponent Magnitude DimensionMath Types Resolve NamesSpec.
Import ListNotations.
Local Open Scope string_scope.
Local Open Scope list_scope.

(** The things names refer to. *)
Inductive entity :=
| EnDimension | EnQuantity | EnExponent | EnMagnitude | EnUnit | EnRuntimeUnit
| EnModule | EnDimensionAlias | EnUnitConst | EnConstantConst
| EnImportedType | EnImportedStruct | EnFunction.

(** Rust reference, "Namespaces": a struct with named fields is a type; a tuple or unit struct is also
    a value; constants and functions are values; modules, traits and type aliases are types.
    [Dimension], [Magnitude] and [Ratio] have named fields; [Quantity], [RuntimeUnit] and
    [UniformQuantity] are tuple structs, [Unit] and [PhantomData] unit structs. *)
Definition spaces (e : entity) : list namespace :=
  match e with
  | EnQuantity | EnUnit | EnRuntimeUnit | EnImportedStruct => [Types; Values]
  | EnUnitConst | EnConstantConst | EnFunction => [Values]
  | _ => [Types]
  end.

(** Cargo features that add items (vectors: any glam feature). *)
Record gen_features := { g_libm : bool; g_vectors : bool; g_serde : bool; g_rand : bool }.

Section Gen.
Context {X : exp_ops} (ft : gen_features) (o : defs X).

(** dimensions.rs:28-60. *)
Definition dimensions_module : module entity := {|
  m_name := "dimensions";
  m_super := [df_dimension_type o; df_quantity_type o; "Exponent"];
  m_items := map (fun d => (d_name d, EnDimensionAlias)) (df_dimensions o) |}.

(** units_and_constants.rs:36-41 with unit_type.rs:8-31 (which also imports the operator traits). *)
Definition unit_type_module : module entity := {|
  m_name := "unit_type";
  m_super := ["Dimension"; "Magnitude"; "Quantity"];
  m_items := [("Unit", EnUnit); ("RuntimeUnit", EnRuntimeUnit); ("Mul", EnImportedType); ("Div", EnImportedType)] |}.

(** units_and_constants.rs:44-52, 63-72. *)
Definition units_module : module entity := {|
  m_name := "units";
  m_super := ["Magnitude"; "Unit"; "Dimension"; "Exponent"];
  m_items := map (fun u => (un_name u, EnUnitConst)) (df_units o) |}.

(** units_and_constants.rs:53-60, 74-83. *)
Definition constants_module : module entity := {|
  m_name := "constants";
  m_super := ["Magnitude"; "Unit"; "Dimension"; "Exponent"];
  m_items := map (fun c => (c_name c, EnConstantConst)) (df_constants o) |}.

(** serde.rs:25-33, 49, 60. *)
Definition serde_items : list (string * entity) :=
  [("PhantomData", EnImportedStruct); ("SplitWhitespace", EnImportedType); ("de", EnModule);
   ("QuantityVisitor", EnImportedStruct); ("get_quantity_if_dimensions_match", EnFunction);
   ("read_unit_str", EnFunction); ("read_single_unit_str", EnFunction)].
(** rand.rs:17-24 (names brought in by the glob import never clash). *)
Definition rand_items : list (string * entity) :=
  [("SampleBorrow", EnImportedType); ("SampleUniform", EnImportedType); ("UniformFloat", EnImportedType);
   ("UniformSampler", EnImportedType); ("UniformQuantity", EnImportedStruct)].

(** mod.rs:56-80 with dimension_type.rs:135-190, quantity_type.rs:9-20, dimensions.rs:28-41,
    units_and_constants.rs:34-62, float_methods.rs:7-22. *)
Definition root_items : list (string * entity) :=
  [("Exponent", EnExponent); ("DimensionExponent", EnImportedType);
   (df_dimension_type o, EnDimension); (df_quantity_type o, EnQuantity);
   ("dimensions", EnModule); ("Magnitude", EnMagnitude); ("unit_type", EnModule);
   ("units", EnModule); ("constants", EnModule);
   (if g_libm ft then "Float" else "FloatCore", EnImportedType)]
  ++ (if g_serde ft then serde_items else []) ++ (if g_rand ft then rand_items else []).

(** The names the generated code mentions.  The macro inserts the names given by the user
    ([#dimension_type], [#quantity_type]) everywhere except in unit_type.rs (8-240),
    vector_methods.rs:139-141 and serde.rs:182, 263, where it writes [Dimension] and [Quantity].
    Simplification: [Exponent] is listed for every module with dimension literals, although the
    int build does not use it there. *)
Definition literal_names (m : option string) : list (option string * namespace * string * entity) :=
  [(m, Types, df_dimension_type o, EnDimension); (m, Types, "Exponent", EnExponent)].
Definition unit_names (m : option string) : list (option string * namespace * string * entity) :=
  [(m, Types, "Unit", EnUnit); (m, Values, "Unit", EnUnit); (m, Types, "Magnitude", EnMagnitude)].
Definition mentions_of : list (option string * namespace * string * entity) :=
  [(None, Types, df_dimension_type o, EnDimension); (None, Types, df_quantity_type o, EnQuantity);
   (None, Values, df_quantity_type o, EnQuantity); (None, Types, "Magnitude", EnMagnitude);
   (None, Types, "Exponent", EnExponent)]
  ++ literal_names (Some "dimensions") ++ [(Some "dimensions", Types, df_quantity_type o, EnQuantity)]
  ++ [(Some "unit_type", Types, "Dimension", EnDimension); (Some "unit_type", Types, "Quantity", EnQuantity);
      (Some "unit_type", Values, "Quantity", EnQuantity); (Some "unit_type", Types, "Magnitude", EnMagnitude);
      (Some "unit_type", Types, "Unit", EnUnit); (Some "unit_type", Types, "RuntimeUnit", EnRuntimeUnit);
      (Some "unit_type", Values, "RuntimeUnit", EnRuntimeUnit)]
  ++ literal_names (Some "units") ++ unit_names (Some "units")
  ++ literal_names (Some "constants") ++ unit_names (Some "constants")
  ++ (if g_vectors ft then [(None, Types, "Dimension", EnDimension); (None, Types, "Quantity", EnQuantity)] else [])
  ++ (if g_serde ft then [(None, Types, "Dimension", EnDimension)] else []).

(** mod.rs:56-80. *)
Definition generated : program entity := {|
  p_items := root_items;
  p_reexports := [("unit_type", "Unit")];
  p_modules := [dimensions_module; unit_type_module; units_module; constants_module];
  p_structs := [df_base_dimensions o];
  p_mentions := mentions_of |}.
End Gen.
