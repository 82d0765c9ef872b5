(** * Specification: the concrete syntax of [unit_system!]

    Written from the documentation (README.md "The unit_system macro"; src/lib.rs docs), not from
    the parser: a *source* is an abstract description of what the user writes; [print_*] spells it
    out as tokens; [mean_*] says which definition it stands for ([None]: it is not meaningful, e.g.
    a number too large).  The grammar is the set of the [print_file s]. *)
From Coq Require Import String Ascii List Bool ZArith.
From Verif Require Import MachineInt Ratio F64 Magnitude Exponent Expression Types PrefixSpec Setting Parse.
From Flocq Require Import Binary Bits.
Import ListNotations.
Local Open Scope string_scope.
Local Open Scope list_scope.

(** ** Numbers, identifiers, exponents *)

(** A number is written with an optional minus sign, as an integer or a decimal [d * 10^k]. *)
Inductive slit :=
| SInt (neg : bool) (n : N)
| SDec (neg : bool) (d : N) (k : Z).
Definition minus (neg : bool) : list tok := if neg then [TPunct "-"] else [].
Definition print_lit (l : slit) : list tok :=
  match l with
  | SInt neg n => minus neg ++ [TLit (LInt n)]
  | SDec neg d k => minus neg ++ [TLit (LFloat d k)]
  end.
Definition signed (neg : bool) (n : N) : Z := (if neg then - Z.of_N n else Z.of_N n)%Z.
(** Integers are limited to 64 bits. *)
Definition is_i64 (z : Z) : bool := ((- 2 ^ 63 <=? z) && (z <? 2 ^ 63))%Z.
(** The number as an [i64] and as an [f64]. *)
Definition mean_int (l : slit) : option Z :=
  match l with
  | SInt neg n => if is_i64 (signed neg n) then Some (signed neg n) else None
  | SDec _ _ _ => None
  end.
Definition mean_number (l : slit) : option f64 :=
  match l with
  | SInt neg n => if is_i64 (signed neg n) then Some (f64_of_Z (signed neg n)) else None
  | SDec neg d k =>
      Some (if neg then b64_opp (f64_of_decimal (Z.of_N d) k) else f64_of_decimal (Z.of_N d) k)
  end.

(** Names are Rust identifiers: not [_] and not one of Rust's strict or reserved keywords
    (Rust reference, "Keywords"; [union], ['static], [macro_rules] are not reserved). *)
Definition rust_keywords : list string :=
  ["as"; "break"; "const"; "continue"; "crate"; "else"; "enum"; "extern"; "false"; "fn"; "for"; "if";
   "impl"; "in"; "let"; "loop"; "match"; "mod"; "move"; "mut"; "pub"; "ref"; "return"; "self"; "Self";
   "static"; "struct"; "super"; "trait"; "true"; "type"; "unsafe"; "use"; "where"; "while";
   "async"; "await"; "dyn";
   "abstract"; "become"; "box"; "do"; "final"; "macro"; "override"; "priv"; "typeof"; "unsized";
   "virtual"; "yield"; "try"; "_"].
Definition is_name (s : string) : Prop := ~ In s rust_keywords.

Inductive atom := AtIdent (s : ident) | AtLit (l : slit).
Definition print_atom (a : atom) : list tok :=
  match a with AtIdent s => [TIdent s] | AtLit l => print_lit l end.
Definition wf_atom (a : atom) : Prop :=
  match a with AtIdent s => is_name s | AtLit _ => True end.

(** [^ 3], or with rational exponents also [^ (3 / 2)]. *)
Inductive sexp := SxInt (l : slit) | SxRatio (n d : slit).
Definition print_exp (e : sexp) : list tok :=
  match e with
  | SxInt l => print_lit l
  | SxRatio n d => [TGroup DParen (print_lit n ++ [TPunct "/"] ++ print_lit d)]
  end.

(** ** Expressions: factors separated by [*], [/] or nothing *)

Inductive sop := ByStar | BySlash | ByJuxtaposition.
Inductive sx :=
| SxOne (f : sf)
| SxBin (l : sx) (o : sop) (f : sf)
with sf :=
| SfVal (a : atom)
| SfPow (a : atom) (e : sexp)
| SfParen (x : sx).
Scheme sx_ind2 := Induction for sx Sort Prop
  with sf_ind2 := Induction for sf Sort Prop.
Combined Scheme sx_sf_ind from sx_ind2, sf_ind2.

Definition print_op (o : sop) : list tok :=
  match o with ByStar => [TPunct "*"] | BySlash => [TPunct "/"] | ByJuxtaposition => [] end.
Fixpoint print_x (x : sx) : list tok :=
  match x with
  | SxOne f => print_f f
  | SxBin l o f => print_x l ++ print_op o ++ print_f f
  end
with print_f (f : sf) : list tok :=
  match f with
  | SfVal a => print_atom a
  | SfPow a e => print_atom a ++ [TPunct "^"] ++ print_exp e
  | SfParen x => [TGroup DParen (print_x x)]
  end.

(** A factor may follow another one directly only if it begins with an identifier. *)
Definition begins_with_ident (f : sf) : Prop :=
  match f with
  | SfVal (AtIdent _) | SfPow (AtIdent _) _ => True
  | _ => False
  end.
Fixpoint wf_x (x : sx) : Prop :=
  match x with
  | SxOne f => wf_f f
  | SxBin l o f => wf_x l /\ wf_f f /\ (o = ByJuxtaposition -> begins_with_ident f)
  end
with wf_f (f : sf) : Prop :=
  match f with
  | SfVal a => wf_atom a
  | SfPow a e => wf_atom a
  | SfParen x => wf_x x
  end.

Definition mean_op (o : sop) : operator :=
  match o with ByStar | ByJuxtaposition => OMul | BySlash => ODiv end.
Section Mean.
Context {T E : Type} (mv : atom -> option T) (me : sexp -> option E).
Fixpoint mean_x (x : sx) : option (expr T E) :=
  match x with
  | SxOne f => let? f' := mean_f f in Some (EVal f')
  | SxBin l o f =>
      let? l' := mean_x l in let? f' := mean_f f in Some (EBin l' f' (mean_op o))
  end
with mean_f (f : sf) : option (factor T E) :=
  match f with
  | SfVal a => let? v := mv a in Some (FVal v)
  | SfPow a e => let? v := mv a in let? p := me e in Some (FPow v p)
  | SfParen x => let? x' := mean_x x in Some (FParen x')
  end.
End Mean.

(** The meaning of a factor in a unit or constant definition, and in a dimension definition. *)
Definition mean_unit_atom (a : atom) : option (fac magnitude) :=
  match a with
  | AtIdent s => Some (Other s)
  | AtLit l => let? x := mean_number l in Some (Concrete (from_f64 x))
  end.
Definition mean_dimension_atom (a : atom) : option (fac unit) :=
  match a with
  | AtIdent s => Some (Other s)
  | AtLit l => let? x := mean_number l in if f64_eqb x f64_one then Some (Concrete tt) else None
  end.

(** The meaning of an exponent in the two builds. *)
Definition mean_exp (k : mode) : sexp -> option (ops k) :=
  match k with
  | IntegerExponents => fun e => match e with SxInt l => mean_int l | SxRatio _ _ => None end
  | RationalExponents => fun e =>
      match e with
      | SxInt l => let? n := mean_int l in rnew Checked n 1
      | SxRatio n d => let? n := mean_int n in let? d := mean_int d in rnew Checked n d
      end
  end.

(** ** Lists with separators *)

(** [sep]arated items with an optional trailing separator. *)
Record slist (A : Type) := { sl_items : list A; sl_trailing : bool }.
Arguments sl_items {A}. Arguments sl_trailing {A}.
Definition wf_slist {A} (l : slist A) : Prop := sl_trailing l = true -> sl_items l <> [].
Fixpoint print_items {A} (pr : A -> list tok) (sep : ascii) (l : list A) (trailing : bool)
  : list tok :=
  match l with
  | [] => []
  | [a] => pr a ++ (if trailing then [TPunct sep] else [])
  | a :: l' => pr a ++ TPunct sep :: print_items pr sep l' trailing
  end.
Definition print_slist {A} (pr : A -> list tok) (sep : ascii) (l : slist A) : list tok :=
  print_items pr sep (sl_items l) (sl_trailing l).

(** ** Attributes *)

Definition print_attribute (name : string) (inner : option (list tok)) : list tok :=
  [TPunct "#"; TGroup DBracket (TIdent name ::
     match inner with Some i => [TGroup DParen i] | None => [] end)].
Definition print_ident (s : ident) : list tok := [TIdent s].
Definition print_prefix (p : prefix) : list tok := [TIdent (si_name p)].

(** The attributes of a unit: [#[base(d)]], [#[alias(a, b)]], [#[symbol(s)]],
    [#[metric_prefixes]] with an optional [(skip: p, q)], [#[prefix(p, q)]]. *)
Inductive uattr :=
| UBase (d : ident)
| UAlias (l : slist ident)
| USymbol (s : ident)
| UMetric (empty_parens : bool)
| UMetricSkip (l : slist prefix)
| UPrefix (l : slist prefix).
Definition print_uattr (a : uattr) : list tok :=
  match a with
  | UBase d => print_attribute "base" (Some [TIdent d])
  | UAlias l => print_attribute "alias" (Some (print_slist print_ident "," l))
  | USymbol s => print_attribute "symbol" (Some [TIdent s])
  | UMetric b => print_attribute "metric_prefixes" (if b then Some [] else None)
  | UMetricSkip l => print_attribute "metric_prefixes"
      (Some (TIdent "skip" :: TPunct ":" :: print_slist print_prefix "," l))
  | UPrefix l => print_attribute "prefix" (Some (print_slist print_prefix "," l))
  end.
Definition wf_uattr (a : uattr) : Prop :=
  match a with
  | UBase i | USymbol i => is_name i
  | UAlias l => wf_slist l /\ Forall is_name (sl_items l)
  | UMetric _ => True
  | UMetricSkip l | UPrefix l => wf_slist l
  end.

Definition bases_of (l : list uattr) : list ident :=
  flat_map (fun a => match a with UBase d => [d] | _ => [] end) l.
Definition symbols_of (l : list uattr) : list ident :=
  flat_map (fun a => match a with USymbol d => [d] | _ => [] end) l.
Definition alias_names (l : list uattr) : list ident :=
  flat_map (fun a => match a with UAlias d => sl_items d | _ => [] end) l.
(** The skip lists of the [metric_prefixes] attributes. *)
Definition metrics_of (l : list uattr) : list (list prefix) :=
  flat_map (fun a => match a with UMetric _ => [[]] | UMetricSkip s => [sl_items s] | _ => [] end) l.
Definition explicit_prefixes (l : list uattr) : list prefix :=
  flat_map (fun a => match a with UPrefix d => sl_items d | _ => [] end) l.

(** An attribute with no arguments on another statement (the five names). *)
Record battr := { ba_name : string; ba_parens : bool }.
Definition attribute_keywords : list string :=
  ["base"; "alias"; "symbol"; "metric_prefixes"; "prefix"].
Definition print_battr (a : battr) : list tok :=
  print_attribute (ba_name a) (if ba_parens a then Some [] else None).
Definition wf_battr (a : battr) : Prop := In (ba_name a) attribute_keywords.

(** ** Statements *)

Inductive stmt :=
| SQuantityType (attrs : list battr) (i : ident)
| SDimensionType (attrs : list battr) (i : ident)
| SDimension (attrs : list battr) (i : ident) (rhs : option sx)
| SUnit (attrs : list uattr) (i : ident) (ann : option ident) (rhs : option sx)
| SConstant (attrs : list battr) (i : ident) (ann : option ident) (rhs : sx).

Definition print_ann (a : option ident) : list tok :=
  match a with Some i => [TPunct ":"; TIdent i] | None => [] end.
Definition print_rhs (r : option sx) : list tok :=
  match r with Some x => TPunct "=" :: print_x x | None => [] end.
Definition print_stmt (s : stmt) : list tok :=
  match s with
  | SQuantityType l i => flat_map print_battr l ++ [TIdent "quantity_type"; TIdent i]
  | SDimensionType l i => flat_map print_battr l ++ [TIdent "dimension_type"; TIdent i]
  | SDimension l i r => flat_map print_battr l ++ [TIdent "dimension"; TIdent i] ++ print_rhs r
  | SUnit l i a r => flat_map print_uattr l ++ [TIdent "unit"; TIdent i] ++ print_ann a ++ print_rhs r
  | SConstant l i a x =>
      flat_map print_battr l ++ [TIdent "constant"; TIdent i] ++ print_ann a ++ print_rhs (Some x)
  end.
Definition wf_ident (i : ident) : Prop := is_name i.
Definition wf_opt {A} (P : A -> Prop) (o : option A) : Prop :=
  match o with Some a => P a | None => True end.
Definition wf_stmt (s : stmt) : Prop :=
  match s with
  | SQuantityType l i | SDimensionType l i => Forall wf_battr l /\ wf_ident i
  | SDimension l i r => Forall wf_battr l /\ wf_ident i /\ wf_opt wf_x r
  | SUnit l i a r => Forall wf_uattr l /\ wf_ident i /\ wf_opt wf_ident a /\ wf_opt wf_x r
  | SConstant l i a x => Forall wf_battr l /\ wf_ident i /\ wf_opt wf_ident a /\ wf_x x
  end.

Section MeanStmt.
Context (k : mode).

Definition mean_unit_rhs : sx -> option (expr (fac magnitude) (ops k)) :=
  mean_x mean_unit_atom (mean_exp k).
Definition mean_dimension_rhs : sx -> option (expr (fac unit) (ops k)) :=
  mean_x mean_dimension_atom (mean_exp k).

(** A unit has either a right-hand side or exactly one base attribute. *)
Definition mean_unit_definition (bases : list ident) (rhs : option sx)
  : option (definition (ops k) ident magnitude) :=
  match bases, rhs with
  | [], Some x => let? e := mean_unit_rhs x in Some (DefExpr e)
  | [b], None => Some (DefBase b)
  | _, _ => None
  end.
Definition at_most_one {A} (l : list A) : option (option A) :=
  match l with [] => Some None | [a] => Some (Some a) | _ => None end.

Definition mean_unit (l : list uattr) (i : ident) (ann : option ident) (rhs : option sx)
  : option (unit_template (ops k)) :=
  let? def := mean_unit_definition (bases_of l) rhs in
  let? symbol := at_most_one (symbols_of l) in
  let? metric := at_most_one (metrics_of l) in
  Some {| ut_name := i; ut_symbol := symbol; ut_aliases := alias_names l;
          ut_prefixes := match metric with Some skip => si_without skip | None => [] end
                         ++ explicit_prefixes l;
          ut_annotation := ann; ut_definition := def |}.

Definition mean_stmt (s : stmt) : option (entry k) :=
  match s with
  | SQuantityType _ i => Some (EntQuantityType k i)
  | SDimensionType _ i => Some (EntDimensionType k i)
  | SDimension _ i None => Some (EntDimension k {| de_name := i; de_rhs := DefBase tt |})
  | SDimension _ i (Some x) =>
      let? e := mean_dimension_rhs x in
      Some (EntDimension k {| de_name := i; de_rhs := DefExpr e |})
  | SUnit l i ann rhs => let? u := mean_unit l i ann rhs in Some (EntUnit k u)
  | SConstant _ i ann x =>
      let? e := mean_unit_rhs x in
      Some (EntConstant k {| ce_name := i; ce_rhs := e; ce_annotation := ann |})
  end.

(** ** A whole system: statements separated by [;] *)
Definition print_file (l : slist stmt) : list tok := print_slist print_stmt ";" l.
Definition wf_file (l : slist stmt) : Prop := wf_slist l /\ Forall wf_stmt (sl_items l).
Definition mean_file (l : slist stmt) : option (unresolved (ops k) (unit_template (ops k))) :=
  let? es := collect mean_stmt (sl_items l) in
  Some {| u_dimension_types :=
            flat_map (fun e => match e with EntDimensionType _ i => [i] | _ => [] end) es;
          u_quantity_types :=
            flat_map (fun e => match e with EntQuantityType _ i => [i] | _ => [] end) es;
          u_dimensions := flat_map (fun e => match e with EntDimension _ d => [d] | _ => [] end) es;
          u_units := flat_map (fun e => match e with EntUnit _ u => [u] | _ => [] end) es;
          u_constants := flat_map (fun e => match e with EntConstant _ c => [c] | _ => [] end) es |}.
End MeanStmt.
