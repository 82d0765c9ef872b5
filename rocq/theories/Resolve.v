(** * Model of diman_unit_system/src/resolve: checking and resolution of definitions

    Emitted diagnostics are data: [diag] has one constructor per message of resolve/error.rs, the
    pipeline returns them in order (the order among the messages that the code collects from a hash
    map - duplicate symbols, duplicate names - is an arbitrary choice in the model).  All of
    them are errors, so the macro call fails to compile iff the list is non-empty.
    [None] is a panic inside the macro (exponent overflow). *)
From Coq Require Import String List Bool ZArith.
From Verif Require Import MachineInt Ratio F64 Magnitude Exponent SMap Expression DimensionMath
  Types Snake.
Import ListNotations.
Local Open Scope string_scope.
Local Open Scope list_scope.

(** ident_storage.rs:22-29. *)
Inductive kind := KDimension | KBaseUnit | KUnit | KConstant.

(** ident_storage.rs:23: derived [PartialEq]. *)
Definition kind_eqb (a b : kind) : bool :=
  match a, b with
  | KDimension, KDimension | KBaseUnit, KBaseUnit | KUnit, KUnit | KConstant, KConstant => true
  | _, _ => false
  end.

(** ident_storage.rs:31-41. *)
Definition kind_allowed (self k : kind) : bool :=
  match self with
  | KDimension => kind_eqb k KDimension
  | KUnit => kind_eqb k KUnit || kind_eqb k KBaseUnit || kind_eqb k KConstant
  | KBaseUnit => kind_eqb k KDimension
  | KConstant => kind_eqb k KConstant || kind_eqb k KUnit || kind_eqb k KBaseUnit
  end.

(** resolve/error.rs:15-65, one constructor per emitted message (68-327). *)
Inductive diag :=
| TypeMultiple (type_name : string) (id : ident)
| TypeNone (type_name : string)
| MultipleBaseUnits (dim unit : ident)
| BaseUnitForNonBase (dim unit : ident)
| SymbolMultiple (symbol : ident) (units : list ident)
| Undefined (id : ident)
| MultipleDefinitions (ids : list ident)
| KindNotAllowed (lhs rhs : ident) (lhs_kind rhs_kind : kind)
| Unresolvable (id : ident)
| WrongTypeInAnnotation (annotation : ident) (k : kind)
| ViolatedAnnotation (annotation : ident)
| UndefinedAnnotation (annotation : ident)
| NoSymbol (unit : ident).

(** Association of identifiers with counters or lists ([HashMap::entry]), in order of first
    insertion. *)
Fixpoint assoc_update {V} (k : ident) (f : option V -> V) (m : list (ident * V)) : list (ident * V) :=
  match m with
  | [] => [(k, f None)]
  | (k', v) :: m' =>
      if String.eqb k k' then (k', f (Some v)) :: m' else (k', v) :: assoc_update k f m'
  end.

Definition memb (i : ident) (l : list ident) : bool := existsb (String.eqb i) l.

(** resolve/mod.rs:22-48 with [emit_errors] 55-60 and error.rs:72-100. *)
Definition get_single_ident (types : list ident) (type_name default_name : string)
  : ident * list diag :=
  match types with
  | [t] => (t, [])
  | [] => (default_name, [TypeNone type_name])
  | t :: _ => (t, map (TypeMultiple type_name) types)
  end.

(** resolve/mod.rs:111-126.  [or_default().push(name)] per unit with a symbol. *)
Definition add_symbol {X} (m : list (ident * list ident)) (u : unit_entry X)
  : list (ident * list ident) :=
  match ue_symbol u with
  | Some s => assoc_update s (fun o => match o with Some l => l ++ [ue_name u] | None => [ue_name u] end) m
  | None => m
  end.
Definition check_multiply_defined_symbols {X} (units : list (unit_entry X)) : list diag :=
  flat_map (fun e => if Nat.ltb 1 (length (snd e)) then [SymbolMultiple (fst e) (snd e)] else [])
           (fold_left add_symbol units []).

(** resolve/mod.rs:144-145: [HashMap] of counters keyed by base dimension name (a second base
    dimension of the same name overwrites the first entry, also with 0). *)
Definition initial_counter {X} (base_dimensions : list (dimension_entry X)) : list (ident * nat) :=
  fold_left (fun m d => assoc_update (de_name d) (fun _ => 0) m) base_dimensions [].

(** resolve/mod.rs:146-168: one iteration. *)
Definition check_base_unit {X} (st : list (ident * nat) * list diag) (u : unit_entry X)
  : list (ident * nat) * list diag :=
  let '(counter, ds) := st in
  match ue_autogenerated_from u with
  | Some _ => st
  | None =>
      match ue_definition u with
      | DefExpr _ => st
      | DefBase dim =>
          match sget dim counter with
          | Some count =>
              (assoc_update dim (fun _ => S count) counter,
               ds ++ (if Nat.ltb 1 (S count) then [MultipleBaseUnits dim (ue_name u)] else []))
          | None => (counter, ds ++ [BaseUnitForNonBase dim (ue_name u)])
          end
      end
  end.
Definition check_invalid_base_units {X} (units : list (unit_entry X))
  (base_dimensions : list (dimension_entry X)) : list diag :=
  snd (fold_left check_base_unit units (initial_counter base_dimensions, [])).

(** resolve/mod.rs:128-141. *)
Definition get_base_dimensions {X} (dims : list (dimension_entry X)) (units : list (unit_entry X))
  : list ident * list diag :=
  let base := filter is_base_dimension dims in
  (map (fun d => base_dimension_of (de_name d)) base, check_invalid_base_units units base).

Section Storage.
Context (X : exp_ops) (env : fenv).

(** ident_storage.rs:44-55. *)
Inductive item_type :=
| ItDimension (d : dimension_entry X)
| ItUnit (u : unit_entry X)
| ItConstant (c : constant_entry X).
Record item := { it_expr : expr (fac (dimmag X)) X; it_type : item_type }.

(** ident_storage.rs:58-67. *)
Definition it_kind (i : item) : kind :=
  match it_type i with
  | ItDimension _ => KDimension
  | ItUnit u => match ue_definition u with DefBase _ => KBaseUnit | DefExpr _ => KUnit end
  | ItConstant _ => KConstant
  end.

(** ident_storage.rs:69-75. *)
Definition it_ident (i : item) : ident :=
  match it_type i with
  | ItDimension d => de_name d
  | ItUnit u => ue_name u
  | ItConstant c => ce_name c
  end.

(** ident_storage.rs:77-83. *)
Definition it_annotation (i : item) : option ident :=
  match it_type i with
  | ItDimension _ => None
  | ItUnit u => ue_annotation u
  | ItConstant c => ce_annotation c
  end.

(** ident_storage.rs:316-333. *)
Definition item_of_dimension (d : dimension_entry X) : item := {|
  it_type := ItDimension d;
  it_expr :=
    match de_rhs d with
    | DefExpr e => expr_map (map_concrete (fun _ => dm_of_dimensions X (bd_none X))) e
    | DefBase _ =>
        EVal (FVal (Concrete (dm_of_dimensions X (bd_for_base X (base_dimension_of (de_name d))))))
    end |}.

(** ident_storage.rs:335-350. *)
Definition item_of_unit (u : unit_entry X) : item := {|
  it_type := ItUnit u;
  it_expr :=
    match ue_definition u with
    | DefExpr e => expr_map (map_concrete (dm_of_magnitude X)) e
    | DefBase dim => EVal (FVal (Other dim))
    end |}.

(** ident_storage.rs:352-363. *)
Definition item_of_constant (c : constant_entry X) : item := {|
  it_type := ItConstant c;
  it_expr := expr_map (map_concrete (dm_of_magnitude X)) (ce_rhs c) |}.

(** ident_storage.rs:109-119. *)
Record resolved_item := { ri_item : item; ri_dims : dimmag X }.
Definition resolved_map := smap resolved_item.

(** The names an item's right hand side mentions ([iter_vals] with [Factor::Other]). *)
Definition others {C} (e : expr (fac C) X) : list ident :=
  flat_map (fun f => match f with Other i => [i] | Concrete _ => [] end) (expr_vals e).

(** ident_storage.rs:122-128. *)
Definition is_resolvable (res : resolved_map) (i : item) : bool :=
  forallb (fun v => match v with Concrete _ => true | Other n => smem n res end)
          (expr_vals (it_expr i)).

(** ident_storage.rs:130-138.  [self.resolved[&ident]] panics on a missing key: [None]. *)
Definition lookup_factor (res : resolved_map) (f : fac (dimmag X)) : option (dimmag X) :=
  match f with
  | Concrete c => Some c
  | Other n => option_map ri_dims (sget n res)
  end.
(** The lookup happens in [map], before [eval]; both can panic, so the two passes are fused. *)
Fixpoint eval_with (lk : fac (dimmag X) -> option (dimmag X)) (e : expr (fac (dimmag X)) X)
  : option (dimmag X) :=
  match e with
  | EVal v => feval_with lk v
  | EBin l r op =>
      let? a := eval_with lk l in
      let? b := feval_with lk r in
      match op with OMul => dm_mul X env a b | ODiv => dm_div X env a b end
  end
with feval_with (lk : fac (dimmag X) -> option (dimmag X)) (f : factor (fac (dimmag X)) X)
  : option (dimmag X) :=
  match f with
  | FVal t => lk t
  | FPow t e => let? a := lk t in dm_pow X env a e
  | FParen y => eval_with lk y
  end.
Definition resolve_dimensions (res : resolved_map) (i : item) : option (dimmag X) :=
  eval_with (lookup_factor res) (it_expr i).

(** [iter().enumerate().find(..)] followed by [Vec::remove(index)]: the first resolvable item and
    the others in order. *)
Fixpoint take_first (p : item -> bool) (l : list item) : option (item * list item) :=
  match l with
  | [] => None
  | i :: l' => if p i then Some (i, l')
               else match take_first p l' with Some (j, r) => Some (j, i :: r) | None => None end
  end.

(** ident_storage.rs:144-175.  The loop removes one item per iteration; [fuel] is the number of
    items ([ResolveFacts] shows it is never exhausted). *)
Fixpoint resolve_loop (fuel : nat) (unres : list item) (res : resolved_map)
  : option (resolved_map * list diag) :=
  match unres with
  | [] => Some (res, [])
  | _ :: _ =>
      match take_first (is_resolvable res) unres with
      | Some (i, rest) =>
          match fuel with
          | 0 => None
          | S fuel' =>
              let? d := resolve_dimensions res i in
              resolve_loop fuel' rest (sinsert (it_ident i) {| ri_item := i; ri_dims := d |} res)
          end
      | None => Some (res, map (fun x => Unresolvable (it_ident x)) unres)
      end
  end.
Definition resolve_items (unres : list item) : option (resolved_map * list diag) :=
  resolve_loop (length unres) unres [].

(** ident_storage.rs:197-209. *)
Definition filter_autogenerated_invalid (unres : list item) : list item :=
  let defined := map it_ident unres in
  filter (fun i => match it_type i with
                   | ItUnit u => match ue_autogenerated_from u with
                                 | Some s => memb s defined
                                 | None => true
                                 end
                   | _ => true
                   end) unres.

(** ident_storage.rs:215-226: [iter_vals().all(..)] stops at, and records, the first undefined
    name. *)
Definition first_undefined (defined : list ident) (i : item) : option ident :=
  find (fun n => negb (memb n defined)) (others (it_expr i)).

(** ident_storage.rs:211-231. *)
Definition filter_undefined (unres : list item) : list item * list diag :=
  let defined := map it_ident unres in
  (filter (fun i => match first_undefined defined i with Some _ => false | None => true end) unres,
   flat_map (fun i => match first_undefined defined i with Some n => [Undefined n] | None => [] end)
            unres).

(** ident_storage.rs:233-256 (nothing is filtered, only reported). *)
Definition count_definitions (unres : list item) : list (ident * nat) :=
  fold_left (fun m i => assoc_update (it_ident i) (fun o => match o with Some n => S n | None => 1 end) m)
            unres [].
Definition filter_multiply_defined (unres : list item) : list diag :=
  flat_map (fun e => if Nat.ltb 1 (snd e)
                     then [MultipleDefinitions
                             (map it_ident (filter (fun i => String.eqb (it_ident i) (fst e)) unres))]
                     else [])
           (count_definitions unres).

(** ident_storage.rs:284-313.  [kinds] is collected into a [HashMap]: the last item of a name
    wins. *)
Definition kinds_of (unres : list item) : smap kind :=
  fold_left (fun m i => sinsert (it_ident i) (it_kind i) m) unres [].
Definition check_kinds_in_definitions (unres : list item) : list diag :=
  let kinds := kinds_of unres in
  flat_map (fun lhs =>
    flat_map (fun rhs =>
      match sget rhs kinds with
      | Some k => if kind_allowed (it_kind lhs) k then []
                  else [KindNotAllowed (it_ident lhs) rhs (it_kind lhs) k]
      | None => []
      end) (others (it_expr lhs))) unres.

(** ident_storage.rs:258-282.  [!=] on [BaseDimensions] is the negation of the hand-written
    [PartialEq] with [annotation] as [self]. *)
Definition check_annotation (res : resolved_map) (ri : resolved_item) : list diag :=
  match it_annotation (ri_item ri) with
  | None => []
  | Some a =>
      match sget a res with
      | None => [UndefinedAnnotation a]
      | Some an =>
          match it_kind (ri_item an) with
          | KDimension =>
              if bd_eq X (dm_dims (ri_dims an)) (dm_dims (ri_dims ri)) then []
              else [ViolatedAnnotation a]
          | k => [WrongTypeInAnnotation a k]
          end
      end
  end.
Definition check_type_annotations (res : resolved_map) : list diag :=
  flat_map (check_annotation res) (svalues res).

(** ident_storage.rs:177-185 with the [FromItem] impls 370-414. *)
Definition get_dimensions (res : resolved_map) : list (dimension X) :=
  flat_map (fun r => match it_type (ri_item r) with
                     | ItDimension d => [{| d_name := de_name d; d_dims := dm_dims (ri_dims r) |}]
                     | _ => []
                     end) (svalues res).
Definition get_units (res : resolved_map) : list (unit_def X) :=
  flat_map (fun r => match it_type (ri_item r) with
                     | ItUnit u =>
                         [{| un_name := ue_name u; un_dims := dm_dims (ri_dims r);
                             un_mag := dm_mag (ri_dims r); un_symbol := ue_symbol u;
                             un_is_base := match ue_definition u with
                                           | DefBase _ => true | DefExpr _ => false end |}]
                     | _ => []
                     end) (svalues res).
Definition get_constants (res : resolved_map) : list (constant X) :=
  flat_map (fun r => match it_type (ri_item r) with
                     | ItConstant c => [{| c_name := ce_name c; c_dims := dm_dims (ri_dims r);
                                           c_mag := dm_mag (ri_dims r) |}]
                     | _ => []
                     end) (svalues res).

(** resolve/mod.rs:103-109. *)
Definition check_for_base_units_without_symbol (units : list (unit_def X)) : list diag :=
  flat_map (fun u => if un_is_base u then
                       match un_symbol u with None => [NoSymbol (un_name u)] | Some _ => [] end
                     else []) units.

(** resolve/mod.rs:77-79 and ident_storage.rs:140-142. *)
Definition items_of (s : unresolved X (unit_entry X)) : list item :=
  map item_of_dimension (u_dimensions s) ++ map item_of_unit (u_units s)
    ++ map item_of_constant (u_constants s).

(** resolve/mod.rs:62-101. *)
Definition resolve (s : unresolved X (unit_entry X)) : option (defs X * list diag) :=
  let '(quantity_type, d1) := get_single_ident (u_quantity_types s) "quantity type" "Quantity" in
  let '(dimension_type, d2) := get_single_ident (u_dimension_types s) "dimension type" "Dimension" in
  let '(base_dimensions, d3) := get_base_dimensions (u_dimensions s) (u_units s) in
  let d4 := check_multiply_defined_symbols (u_units s) in
  let unres := items_of s in
  let '(unres, d5) := filter_undefined unres in
  let unres := filter_autogenerated_invalid unres in
  let d6 := filter_multiply_defined unres in
  let unres := filter_autogenerated_invalid unres in
  let d7 := check_kinds_in_definitions unres in
  let unres := filter_autogenerated_invalid unres in
  let? r := resolve_items unres in
  let '(res, d8) := r in
  let d9 := check_type_annotations res in
  let units := get_units res in
  let d10 := check_for_base_units_without_symbol units in
  Some ({| df_dimension_type := dimension_type; df_quantity_type := quantity_type;
           df_dimensions := get_dimensions res; df_units := units;
           df_constants := get_constants res; df_base_dimensions := base_dimensions |},
        d1 ++ d2 ++ d3 ++ d4 ++ d5 ++ d6 ++ d7 ++ d8 ++ d9 ++ d10).

(** lib.rs:13-26 (after parsing, before code generation). *)
Definition run_unit_system (s : unresolved X (unit_template X)) : option (defs X * list diag) :=
  resolve (expand_templates s).
End Storage.
Arguments it_expr {X}. Arguments it_type {X}. Arguments it_kind {X}. Arguments it_ident {X}.
Arguments it_annotation {X}. Arguments ri_item {X}. Arguments ri_dims {X}.
Arguments ItDimension {X}. Arguments ItUnit {X}. Arguments ItConstant {X}.
Arguments others {X C}.
