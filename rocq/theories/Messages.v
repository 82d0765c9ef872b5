(** * Model of diman_unit_system/src/resolve/error.rs: what the messages say and where they point

    [Resolve.resolve] returns the errors as data ([diag]); here they are turned into the messages that
    [emit] prints.  A position is the identifier that is underlined (spans as such are not modelled).
    All messages have level error. *)
From Coq Require Import String Ascii List Bool ZArith.
From Verif Require Import MachineInt Ratio F64 Magnitude Exponent SMap Expression DimensionMath Types
  Resolve CodegenDimension Text TextFacts.
Import ListNotations.
Local Open Scope string_scope.
Local Open Scope list_scope.

(** [proc_macro::Diagnostic]: the identifiers underlined (none: the macro call itself), the message, and
    what [.note] and [.help] attach to it, in order. *)
Inductive attachment := Note (t : text) | Help (t : text).
Record message := { m_at : list ident; m_text : text; m_attached : list attachment }.

(** error.rs:204-209. *)
Definition kind_name (k : kind) : text :=
  match k with
  | KDimension => str "Dimension" | KUnit => str "Unit" | KBaseUnit => str "Unit" | KConstant => str "Constant"
  end.
(** error.rs:232: [name(self.rhs_kind).to_lowercase()]. *)
Definition kind_name_lower (k : kind) : text := map lower (kind_name k).
(** error.rs:210-215. *)
Definition kind_plural (k : kind) : text :=
  match k with
  | KDimension => str "Dimensions" | KUnit => str "Units" | KBaseUnit => str "Units" | KConstant => str "Constants"
  end.
(** error.rs:216-221. *)
Definition allowed_rhs_kinds (k : kind) : text :=
  match k with
  | KDimension => str "other dimensions"
  | KUnit => str "other units and constants"
  | KBaseUnit => str "other units and constants"
  | KConstant => str "other constants and units"
  end.
(** error.rs:247-252: [unreachable!()] for a dimension is a panic. *)
Definition wrong_kind_name (k : kind) : option text :=
  match k with
  | KDimension => None
  | KBaseUnit => Some (str "unit") | KUnit => Some (str "unit") | KConstant => Some (str "constant")
  end.
(** resolve/mod.rs:64-73: the default names passed along with the type names. *)
Definition default_name (type_name : string) : text :=
  if String.eqb type_name "quantity type" then str "Quantity" else str "Dimension".

Definition quote : text := [ascii_of_nat 34].
Definition newline_tab : text := [ascii_of_nat 10; ascii_of_nat 9].
Definition newline : text := [ascii_of_nat 10].

(** error.rs:104-124, [format_lhs_rhs_dimensions]: the base dimensions of both sides, sorted, each with the
    exponent the side has for it (zero if it has none). *)
Section Dimensions.
Context (X : exp_ops) (show : X -> text).

(** error.rs:108-112: a set, then sorted. *)
Definition available_dims (lhs rhs : bdims X) : list string :=
  skeys (fold_left (fun m b => sinsert b tt m) (skeys lhs ++ skeys rhs) []).
(** error.rs:117: [*dims.get(dim).unwrap_or(&Exponent::zero())]. *)
Definition shown_exponent (dims : bdims X) (b : string) : X :=
  match sget b dims with Some v => v | None => e_zero X end.
(** error.rs:118-121: [format!("{}^{}", ..)], joined by single spaces. *)
Definition format_entry (be : string * X) : text := str (fst be) ++ "^"%char :: show (snd be).
Fixpoint join (ts : list text) : text :=
  match ts with
  | [] => []
  | [t] => t
  | t :: ts' => t ++ space :: join ts'
  end.
Definition format_dims (l : list (string * X)) : text := join (map format_entry l).
Definition dims_entries (available : list string) (dims : bdims X) : list (string * X) :=
  map (fun b => (b, shown_exponent dims b)) available.

(** error.rs:126-147. *)
Definition violated_message (annotation : ident) (annotation_dims expr_dims : bdims X) : message :=
  let available := available_dims annotation_dims expr_dims in
  {| m_at := [annotation];
     m_text := str "Dimension mismatch in expression.";
     m_attached :=
       [Help (str "The annotation on the left-hand side has dimensions "
              ++ format_dims (dims_entries available annotation_dims));
        Help (str "but the expression on the right-hand side has dimensions "
              ++ format_dims (dims_entries available expr_dims))] |}.
End Dimensions.

(** The other messages, error.rs:71-102 and 149-325.  [None] is a panic.  ([ViolatedAnnotation] needs the
    dimensions and is handled by [annotation_messages].) *)
Definition message_of (d : diag) : option message :=
  match d with
  | TypeMultiple type_name id => Some
      {| m_at := [id];
         m_text := str "Multiple definitions for " ++ str type_name ++ space :: quote ++ str id ++ quote ++ str ".";
         m_attached := [] |}
  | TypeNone type_name => Some
      {| m_at := [];
         m_text := str "No definition for " ++ str type_name;
         m_attached :=
           [Note (str "In order to provide readable error messages, the name must be specified in the macro call.");
            Help (str "Consider adding a definition inside the unit_system! macro:" ++ newline_tab
                  ++ str type_name ++ space :: default_name type_name ++ str ";")] |}
  | UndefinedAnnotation a => Some
      {| m_at := [a];
         m_text := str "Undefined dimension " ++ str a ++ str " in annotation.";
         m_attached := [Note (str "Annotations using units and constants are not allowed.")] |}
  | Undefined id => Some
      {| m_at := [id]; m_text := str "Undefined identifier " ++ quote ++ str id ++ quote ++ str "."; m_attached := [] |}
  | Unresolvable id => Some
      {| m_at := [id]; m_text := str "Unresolvable definition " ++ quote ++ str id ++ quote ++ str ".";
         m_attached := [Help (str "Remove recursive definitions.")] |}
  | MultipleDefinitions ids =>
      match ids with
      | [] => None (* [idents[0]] *)
      | name :: _ => Some
          {| m_at := ids; m_text := str "Identifier " ++ quote ++ str name ++ quote ++ str " defined multiple times.";
             m_attached := [] |}
      end
  | KindNotAllowed lhs rhs lhs_kind rhs_kind => Some
      {| m_at := [lhs; rhs];
         m_text := kind_name lhs_kind ++ space :: str lhs ++ str " is defined in terms of the "
                   ++ kind_name_lower rhs_kind ++ space :: str rhs ++ str ".";
         m_attached := [Note (kind_plural lhs_kind ++ str " can only be defined in terms of "
                              ++ allowed_rhs_kinds lhs_kind ++ str ".")] |}
  | WrongTypeInAnnotation a k =>
      let? name := wrong_kind_name k in
      Some {| m_at := [a];
              m_text := str "Type error in annotation: Expected dimension, found " ++ name ++ str " '" ++ str a ++ str "'.";
              m_attached := [Note (str "Annotations can only be done using dimensions.")] |}
  | MultipleBaseUnits dim unit => Some
      {| m_at := [unit];
         m_text := str "'" ++ str unit ++ str "' is defined to be a base unit for dimension '" ++ str dim
                   ++ str "', but there already is a base unit for this dimension.";
         m_attached := [Note (str "There can only be one base unit per base dimension.")] |}
  | BaseUnitForNonBase dim unit => Some
      {| m_at := [unit];
         m_text := str "'" ++ str unit ++ str "' is defined to be a base unit for dimension '" ++ str dim
                   ++ str "', but '" ++ str dim ++ str "' is not a base dimension.";
         m_attached := [Note (str "Base units can only be defined for base dimensions.")] |}
  | SymbolMultiple symbol units => Some
      {| m_at := units; m_text := str "Symbol '" ++ str symbol ++ str "' is used for multiple units.";
         m_attached := [] |}
  | NoSymbol unit => Some
      {| m_at := [unit];
         m_text := str "Unit " ++ str unit ++ str " is declared as a base unit but does not define its symbol.";
         m_attached := [Note (str "Declare the symbol using" ++ newline ++ str "`#[symbol(...)]`")] |}
  | ViolatedAnnotation _ => None
  end.

Section Emit.
Context (X : exp_ops) (env : fenv) (show : X -> text).

(** ident_storage.rs:258-282 once more, with what the errors carry. *)
Definition annotation_messages (res : resolved_map X) (ri : resolved_item X) : option (list message) :=
  match it_annotation (ri_item ri) with
  | None => Some []
  | Some a =>
      match sget a res with
      | None => mapM message_of [UndefinedAnnotation a]
      | Some an =>
          match it_kind (ri_item an) with
          | KDimension =>
              if bd_eq X (dm_dims (ri_dims an)) (dm_dims (ri_dims ri)) then Some []
              else Some [violated_message X show a (dm_dims (ri_dims an)) (dm_dims (ri_dims ri))]
          | k => mapM message_of [WrongTypeInAnnotation a k]
          end
      end
  end.

(** resolve/mod.rs:62-101: everything emitted, in order. *)
Definition resolve_messages (s : unresolved X (unit_entry X)) : option (list message) :=
  let d1 := snd (get_single_ident (u_quantity_types s) "quantity type" "Quantity") in
  let d2 := snd (get_single_ident (u_dimension_types s) "dimension type" "Dimension") in
  let d3 := snd (get_base_dimensions (u_dimensions s) (u_units s)) in
  let d4 := check_multiply_defined_symbols (u_units s) in
  let '(unres, d5) := filter_undefined X (items_of X s) in
  let unres := filter_autogenerated_invalid X unres in
  let d6 := filter_multiply_defined X unres in
  let unres := filter_autogenerated_invalid X unres in
  let d7 := check_kinds_in_definitions X unres in
  let unres := filter_autogenerated_invalid X unres in
  let? r := resolve_items X env unres in
  let '(res, d8) := r in
  let? before := mapM message_of (d1 ++ d2 ++ d3 ++ d4 ++ d5 ++ d6 ++ d7 ++ d8) in
  let? annotations := mapM (annotation_messages res) (svalues res) in
  let? after := mapM message_of (check_for_base_units_without_symbol X (get_units X res)) in
  Some (before ++ concat annotations ++ after).

(** lib.rs:13-26. *)
Definition run_messages (s : unresolved X (unit_template X)) : option (list message) :=
  resolve_messages (expand_templates s).
End Emit.
