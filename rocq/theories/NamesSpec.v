(** * Specification: names in Rust code

    The rules of the Rust reference on namespaces, [use] declarations and identifiers, for a module
    with child modules.  Nothing here depends on the macro. *)
From Coq Require Import String List Bool.
From Verif Require Import Grammar.
Import ListNotations.
Local Open Scope string_scope.
Local Open Scope list_scope.

Inductive namespace := Types | Values.

Section Names.
Context (E : Type) (spaces : E -> list namespace).

(** A child module: its [use super::name;] declarations and its own items. *)
Record module := { m_name : string; m_super : list string; m_items : list (string * E) }.
(** The code of a module: items; [use child::name;]; child modules; the struct declarations (field
    names); the names its code mentions: in which module, as a type or a value, and what has to be
    meant. *)
Record program := {
  p_items : list (string * E);
  p_reexports : list (string * string);
  p_modules : list module;
  p_structs : list (list string);
  p_mentions : list (option string * namespace * string * E) }.

Definition binding : Type := namespace * string * E.
Definition introduces (i : string * E) : list binding :=
  map (fun s => (s, fst i, snd i)) (spaces (snd i)).
Definition named (n : string) (l : list binding) : list binding :=
  filter (fun b => String.eqb (snd (fst b)) n) l.
Definition module_items (m : module) : list binding := flat_map introduces (m_items m).
(** What [use child::name] brings in. *)
Definition reexported (P : program) (u : string * string) : list binding :=
  named (snd u) (flat_map module_items (filter (fun m => String.eqb (m_name m) (fst u)) (p_modules P))).
(** The names in scope of the outer module, and of a child module. *)
Definition outer_scope (P : program) : list binding :=
  flat_map introduces (p_items P) ++ flat_map (reexported P) (p_reexports P).
Definition inner_scope (P : program) (m : module) : list binding :=
  flat_map (fun n => named n (outer_scope P)) (m_super m) ++ module_items m.

(** No name is introduced twice in the same namespace (E0252, E0255, E0428). *)
Definition no_clash (l : list binding) : Prop := NoDup (map fst l).
(** Identifiers are not keywords. *)
Definition identifiers (P : program) : list string :=
  map fst (p_items P) ++ flat_map (fun m => map fst (m_items m)) (p_modules P) ++ concat (p_structs P).

Record names_valid (P : program) : Prop := {
  outer_clash : no_clash (outer_scope P);
  inner_clash : forall m, In m (p_modules P) -> no_clash (inner_scope P m);
  reexports_found : forall u, In u (p_reexports P) -> reexported P u <> [];
  imports_found : forall m n, In m (p_modules P) -> In n (m_super m) -> named n (outer_scope P) <> [];
  outer_mentions : forall s n e, In (None, s, n, e) (p_mentions P) -> In (s, n, e) (outer_scope P);
  inner_mentions : forall m s n e, In m (p_modules P) -> In (Some (m_name m), s, n, e) (p_mentions P) ->
    In (s, n, e) (inner_scope P m);
  fields_once : forall fs, In fs (p_structs P) -> NoDup fs;
  no_keywords : forall i, In i (identifiers P) -> is_name i }.
End Names.
