(** * Model of diman_unit_system/src/types: entries, prefixes, template expansion *)
From Coq Require Import String Ascii List Bool ZArith.
From Verif Require Import MachineInt Ratio F64 Magnitude Exponent SMap Expression DimensionMath.
Import ListNotations.
Local Open Scope string_scope.

(** Identifiers are (UTF-8) byte strings; spans are not modelled. *)
Definition ident := string.

(** ** types/prefixes.rs *)

(** prefixes.rs:58-76 (first column). *)
Inductive prefix :=
| Exa | Peta | Tera | Giga | Mega | Kilo | Hecto | Deca
| Deci | Centi | Milli | Micro | Nano | Pico | Femto | Atto.

(** prefixes.rs:5: derived [PartialEq]. *)
Definition prefix_eqb (p q : prefix) : bool :=
  match p, q with
  | Exa, Exa | Peta, Peta | Tera, Tera | Giga, Giga | Mega, Mega | Kilo, Kilo | Hecto, Hecto
  | Deca, Deca | Deci, Deci | Centi, Centi | Milli, Milli | Micro, Micro | Nano, Nano
  | Pico, Pico | Femto, Femto | Atto, Atto => true
  | _, _ => false
  end.

(** prefixes.rs:37-53, 58-76 (second column): the keyword read by the parser. *)
Definition prefix_keyword (p : prefix) : string :=
  match p with
  | Exa => "exa" | Peta => "peta" | Tera => "tera" | Giga => "giga" | Mega => "mega"
  | Kilo => "kilo" | Hecto => "hecto" | Deca => "deca" | Deci => "deci" | Centi => "centi"
  | Milli => "milli" | Micro => "micro" | Nano => "nano" | Pico => "pico" | Femto => "femto"
  | Atto => "atto"
  end.

(** prefixes.rs:13-19, 58-76 (third column). *)
Definition prefix_name (p : prefix) : string :=
  match p with
  | Exa => "exa" | Peta => "peta" | Tera => "tera" | Giga => "giga" | Mega => "mega"
  | Kilo => "kilo" | Hecto => "hecto" | Deca => "deca" | Deci => "deci" | Centi => "centi"
  | Milli => "milli" | Micro => "micro" | Nano => "nano" | Pico => "pico" | Femto => "femto"
  | Atto => "atto"
  end.

(** prefixes.rs:21-27, 58-76 (fourth column).  The micro sign is U+03BC, UTF-8 bytes CE BC. *)
Definition prefix_short (p : prefix) : string :=
  match p with
  | Exa => "E" | Peta => "P" | Tera => "T" | Giga => "G" | Mega => "M"
  | Kilo => "k" | Hecto => "h" | Deca => "da" | Deci => "d" | Centi => "c"
  | Milli => "m" | Micro => String "206" (String "188" "") | Nano => "n" | Pico => "p"
  | Femto => "f" | Atto => "a"
  end.

(** prefixes.rs:58-76 (fifth column): the decimal exponents of the literals [1e18] ... [1e-18]. *)
Definition prefix_decimal (p : prefix) : Z :=
  match p with
  | Exa => 18 | Peta => 15 | Tera => 12 | Giga => 9 | Mega => 6 | Kilo => 3 | Hecto => 2
  | Deca => 1 | Deci => -1 | Centi => -2 | Milli => -3 | Micro => -6 | Nano => -9
  | Pico => -12 | Femto => -15 | Atto => -18
  end%Z.

(** prefixes.rs:29-35: [Magnitude::from_f64(literal)]. *)
Definition prefix_factor (p : prefix) : magnitude := from_f64 (f64_of_decimal 1 (prefix_decimal p)).

(** prefixes.rs:82-106: [From<MetricPrefixes> for Vec<Prefix>]. *)
Definition all_prefixes : list prefix :=
  [Exa; Peta; Tera; Giga; Mega; Kilo; Hecto; Deca;
   Deci; Centi; Milli; Micro; Nano; Pico; Femto; Atto].
Definition metric_prefixes (skip : list prefix) : list prefix :=
  filter (fun p => negb (existsb (prefix_eqb p) skip)) all_prefixes.

(** ** types/mod.rs *)

Section Exp.
Context (X : exp_ops).

(** mod.rs:22-35. *)
Inductive fac (C : Type) :=
| Concrete (c : C)
| Other (i : ident).
Definition map_concrete {C1 C2} (f : C1 -> C2) (x : fac C1) : fac C2 :=
  match x with Concrete _ c => Concrete _ (f c) | Other _ i => Other _ i end.

(** mod.rs:37-41. *)
Inductive definition (B C : Type) :=
| DefBase (b : B)
| DefExpr (e : expr (fac C) X).

(** mod.rs:45-56 ([One] carries no data). *)
Record dimension_entry := { de_name : ident; de_rhs : definition unit unit }.
Definition is_base_dimension (d : dimension_entry) : bool :=
  match de_rhs d with DefBase _ _ _ => true | DefExpr _ _ _ => false end.

(** mod.rs:73-78. *)
Record constant_entry := {
  ce_name : ident; ce_rhs : expr (fac magnitude) X; ce_annotation : option ident }.

(** mod.rs:80-88. *)
Record unit_template := {
  ut_name : ident; ut_symbol : option ident; ut_aliases : list ident;
  ut_prefixes : list prefix; ut_annotation : option ident;
  ut_definition : definition ident magnitude }.

(** mod.rs:90-97. *)
Record unit_entry := {
  ue_name : ident; ue_symbol : option ident; ue_annotation : option ident;
  ue_definition : definition ident magnitude; ue_autogenerated_from : option ident }.

(** mod.rs:100-109. *)
Definition format_name (t : unit_template) (p : option prefix) (a : option ident) : ident :=
  let name := match a with None => ut_name t | Some al => al end in
  match p with None => name | Some p => prefix_name p ++ name end.

(** mod.rs:111-126. *)
Definition format_symbol (t : unit_template) (p : option prefix) (a : option ident) : option ident :=
  match a with
  | Some _ => None
  | None =>
      match p with
      | None => ut_symbol t
      | Some p => option_map (fun s => prefix_short p ++ s) (ut_symbol t)
      end
  end.

(** mod.rs:128-147. *)
Definition get_definition (t : unit_template) (p : option prefix) (a : option ident)
  : definition ident magnitude :=
  let factor := match p with Some p => prefix_factor p | None => from_f64 f64_one end in
  match a, p with
  | None, None => ut_definition t
  | _, _ => DefExpr _ _ (EBin (EVal (FVal (Concrete _ factor))) (FVal (Other _ (ut_name t))) OMul)
  end.

(** mod.rs:149-165. *)
Definition expand_one (t : unit_template) (p : option prefix) (a : option ident) : unit_entry := {|
  ue_name := format_name t p a;
  ue_symbol := format_symbol t p a;
  ue_definition := get_definition t p a;
  ue_annotation := ut_annotation t;
  ue_autogenerated_from :=
    match p, a with None, None => None | _, _ => Some (ut_name t) end |}.

(** mod.rs:167-181. *)
Definition expand (t : unit_template) : list unit_entry :=
  flat_map (fun p => map (fun a => expand_one t p a) (map Some (ut_aliases t) ++ [None]))
           (map Some (ut_prefixes t) ++ [None]).

(** mod.rs:183-192. *)
Record unresolved (U : Type) := {
  u_dimension_types : list ident;
  u_quantity_types : list ident;
  u_dimensions : list dimension_entry;
  u_units : list U;
  u_constants : list constant_entry }.

(** mod.rs:194-208. *)
Definition expand_templates (s : unresolved unit_template) : unresolved unit_entry := {|
  u_dimension_types := u_dimension_types _ s;
  u_quantity_types := u_quantity_types _ s;
  u_dimensions := u_dimensions _ s;
  u_units := flat_map expand (u_units _ s);
  u_constants := u_constants _ s |}.

(** mod.rs:211-244. *)
Record dimension := { d_name : ident; d_dims : bdims X }.
Record unit_def := {
  un_name : ident; un_dims : bdims X; un_mag : magnitude; un_symbol : option ident;
  un_is_base : bool }.
Record constant := { c_name : ident; c_dims : bdims X; c_mag : magnitude }.
Record defs := {
  df_dimension_type : ident; df_quantity_type : ident;
  df_dimensions : list dimension; df_units : list unit_def; df_constants : list constant;
  df_base_dimensions : list ident }.
End Exp.
Arguments Concrete {C}. Arguments Other {C}.
Arguments DefBase {X B C}. Arguments DefExpr {X B C}.
Arguments de_name {X}. Arguments de_rhs {X}.
Arguments ce_name {X}. Arguments ce_rhs {X}. Arguments ce_annotation {X}.
Arguments ut_name {X}. Arguments ut_symbol {X}. Arguments ut_aliases {X}.
Arguments ut_prefixes {X}. Arguments ut_annotation {X}. Arguments ut_definition {X}.
Arguments ue_name {X}. Arguments ue_symbol {X}. Arguments ue_annotation {X}.
Arguments ue_definition {X}. Arguments ue_autogenerated_from {X}.
Arguments u_dimension_types {X U}. Arguments u_quantity_types {X U}.
Arguments u_dimensions {X U}. Arguments u_units {X U}. Arguments u_constants {X U}.
Arguments d_name {X}. Arguments d_dims {X}.
Arguments un_name {X}. Arguments un_dims {X}. Arguments un_mag {X}. Arguments un_symbol {X}.
Arguments un_is_base {X}.
Arguments c_name {X}. Arguments c_dims {X}. Arguments c_mag {X}.
Arguments df_dimension_type {X}. Arguments df_quantity_type {X}. Arguments df_dimensions {X}.
Arguments df_units {X}. Arguments df_constants {X}. Arguments df_base_dimensions {X}.
Arguments is_base_dimension {X}. Arguments format_name {X}. Arguments format_symbol {X}.
Arguments get_definition {X}. Arguments expand_one {X}. Arguments expand {X}.
Arguments expand_templates {X}.
