(** * Specification: the same file under other names *)
From Coq Require Import String List.
From Verif Require Import PrefixSpec.
From Verif Require Import Types Parse Grammar Accuracy LocalSpec.

Section Rename.
Context (new : ident -> ident).
Definition rename_atom (a : atom) : atom := match a with AtIdent n => AtIdent (new n) | AtLit l => AtLit l end.
Fixpoint rename_x (x : sx) : sx :=
  match x with SxOne f => SxOne (rename_f f) | SxBin l o f => SxBin (rename_x l) o (rename_f f) end
with rename_f (f : sf) : sf :=
  match f with
  | SfVal a => SfVal (rename_atom a)
  | SfPow a e => SfPow (rename_atom a) e
  | SfParen x => SfParen (rename_x x)
  end.
Definition renamed (d : said) : said :=
  match d with
  | BaseDimension => BaseDimension
  | DimensionIs x => DimensionIs (rename_x x)
  | BaseUnitOf i => BaseUnitOf (new i)
  | ValueIs x => ValueIs (rename_x x)
  | PowerOfTen z i => PowerOfTen z (new i)
  end.

(** A whole file under other names, with other symbols [sy].  Attributes on statements other than units
    stay. *)
Context (sy : ident -> ident).
Definition rename_list (l : slist ident) : slist ident := {| sl_items := map new (sl_items l); sl_trailing := sl_trailing l |}.
Definition rename_attr (a : uattr) : uattr :=
  match a with
  | UBase d => UBase (new d)
  | UAlias l => UAlias (rename_list l)
  | USymbol s => USymbol (sy s)
  | other => other
  end.
Definition rename_stmt (s : stmt) : stmt :=
  match s with
  | SQuantityType l i => SQuantityType l (new i)
  | SDimensionType l i => SDimensionType l (new i)
  | SDimension l i rhs => SDimension l (new i) (option_map rename_x rhs)
  | SUnit l i ann rhs => SUnit (map rename_attr l) (new i) (option_map new ann) (option_map rename_x rhs)
  | SConstant l i ann x => SConstant l (new i) (option_map new ann) (rename_x x)
  end.
Definition rename_file (f : slist stmt) : slist stmt := {| sl_items := map rename_stmt (sl_items f); sl_trailing := sl_trailing f |}.

(** The new names of a unit's prefixed variants are the prefixed new names. *)
Definition keeps_prefixes (f : slist stmt) : Prop :=
  forall l i ann rhs, In (SUnit l i ann rhs) (sl_items f) ->
  forall p a, In p (prefixes_of l) -> a = i \/ In a (alias_names l) -> new (si_name p ++ a)%string = (si_name p ++ new a)%string.

(** The symbols in a file: those of the units, and the prefixed ones. *)
Definition symbols_in (f : slist stmt) (s : ident) : Prop :=
  exists l i ann rhs s0, In (SUnit l i ann rhs) (sl_items f) /\ In s0 (symbols_of l) /\
    (s = s0 \/ exists p, In p (prefixes_of l) /\ s = (si_symbol p ++ s0)%string).
(** The new symbols of the prefixed variants are the prefixed new symbols. *)
Definition keeps_prefixed_symbols (f : slist stmt) : Prop :=
  forall l i ann rhs, In (SUnit l i ann rhs) (sl_items f) ->
  forall p s, In p (prefixes_of l) -> In s (symbols_of l) -> sy (si_symbol p ++ s)%string = (si_symbol p ++ sy s)%string.
End Rename.
