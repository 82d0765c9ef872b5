(** * Model of diman_unit_system/src/parse: from token trees to templates

    The input of the macro is a sequence of token trees.  A parser is a function from the remaining
    tokens of the current buffer to a result and the tokens it did not consume; [None] means that
    the macro rejects its input (a [syn::Error], or the panic of [Ratio::new] in [read_exponent]).
    [syn] never backtracks here, and reports an error at the end if a delimited group was entered
    and not completely consumed; so "group content not consumed" is rejected on the spot.

    Not modelled: spans and error texts; raw identifiers ([r#x]); invisible delimiters (groups
    made by [macro_rules]); literal suffixes ([syn] ignores them). *)
From Coq Require Import String Ascii List Bool ZArith.
From Verif Require Import MachineInt Ratio F64 Magnitude Exponent Expression Types Setting.
From Flocq Require Import Binary Bits.
Import ListNotations.
Local Open Scope string_scope.
Local Open Scope list_scope.

(** ** proc_macro2 / syn tokens (trusted reading of those libraries) *)

Inductive delim := DParen | DBracket | DBrace.

(** A numeric literal token is never negative: [-] is a separate punctuation token.
    [LInt n]: an integer literal of value [n]; [LFloat d k]: the decimal [d * 10^k]. *)
Inductive lit :=
| LInt (n : N)
| LFloat (d : N) (k : Z)
| LOther.

Inductive tok :=
| TIdent (s : string)
| TLit (l : lit)
| TPunct (c : ascii)
| TGroup (d : delim) (ts : list tok).

Definition parser (A : Type) := list tok -> option (A * list tok).

(** syn::Ident: Rust keywords and [_] are not accepted as identifiers. *)
Definition reserved : list string :=
  ["_"; "abstract"; "as"; "async"; "await"; "become"; "box"; "break"; "const"; "continue";
   "crate"; "do"; "dyn"; "else"; "enum"; "extern"; "false"; "final"; "fn"; "for"; "if"; "impl";
   "in"; "let"; "loop"; "macro"; "match"; "mod"; "move"; "mut"; "override"; "priv"; "pub"; "ref";
   "return"; "Self"; "self"; "static"; "struct"; "super"; "trait"; "true"; "try"; "type";
   "typeof"; "unsafe"; "unsized"; "use"; "virtual"; "where"; "while"; "yield"].
Definition accept_as_ident (s : string) : bool := negb (existsb (String.eqb s) reserved).

Definition p_ident : parser ident := fun ts =>
  match ts with
  | TIdent s :: r => if accept_as_ident s then Some (s, r) else None
  | _ => None
  end.
Definition peek_ident (ts : list tok) : bool :=
  match ts with TIdent s :: _ => accept_as_ident s | _ => false end.

(** [syn::custom_keyword!]. *)
Definition peek_kw (k : string) (ts : list tok) : bool :=
  match ts with TIdent s :: _ => String.eqb s k | _ => false end.
(** [syn::custom_punctuation!] of one character (parse/mod.rs:36-44). *)
Definition peek_punct (c : ascii) (ts : list tok) : bool :=
  match ts with TPunct c' :: _ => Ascii.eqb c' c | _ => false end.
Definition p_punct (c : ascii) : parser unit := fun ts =>
  match ts with
  | TPunct c' :: r => if Ascii.eqb c' c then Some (tt, r) else None
  | _ => None
  end.

(** [syn::Lit]: a literal token, a boolean, or [-] followed by a numeric literal. *)
Inductive signed_lit :=
| SLInt (z : Z)
| SLFloat (neg : bool) (d : N) (k : Z)
| SLOther.
Definition p_lit : parser signed_lit := fun ts =>
  match ts with
  | TLit (LInt n) :: r => Some (SLInt (Z.of_N n), r)
  | TLit (LFloat d k) :: r => Some (SLFloat false d k, r)
  | TLit LOther :: r => Some (SLOther, r)
  | TIdent s :: r => if (String.eqb s "true" || String.eqb s "false")%bool then Some (SLOther, r) else None
  | TPunct c :: TLit (LInt n) :: r =>
      if Ascii.eqb c "-" then Some (SLInt (- Z.of_N n), r) else None
  | TPunct c :: TLit (LFloat d k) :: r =>
      if Ascii.eqb c "-" then Some (SLFloat true d k, r) else None
  | _ => None
  end.
Definition peek_lit (ts : list tok) : bool :=
  match p_lit ts with Some _ => true | None => false end.

(** [parse_terminated]: items separated by a punctuation, an optional trailing one; it stops only
    at the end of the buffer.  [fuel]: the number of tokens suffices (every item consumes one). *)
Fixpoint p_terminated_n {A} (fuel : nat) (p : parser A) (sep : ascii) (ts : list tok)
  : option (list A) :=
  match fuel with
  | O => None
  | S n =>
      match ts with
      | [] => Some []
      | _ =>
          let? (a, r) := p ts in
          match r with
          | [] => Some [a]
          | _ =>
              let? (_, r') := p_punct sep r in
              let? l := p_terminated_n n p sep r' in
              Some (a :: l)
          end
      end
  end.
Definition p_terminated {A} (p : parser A) (sep : ascii) (ts : list tok) : option (list A) :=
  p_terminated_n (S (List.length ts)) p sep ts.

(** A parser that must consume its whole buffer. *)
Definition whole {A} (p : parser A) (ts : list tok) : option A :=
  match p ts with Some (a, []) => Some a | _ => None end.

(** ** parse/mod.rs: literals *)

(** mod.rs:85-98: [Number] (only its [float] is used). *)
Definition number_value (l : signed_lit) : option f64 :=
  match l with
  | SLInt z => if in_i64 z then Some (f64_of_Z z) else None
  | SLFloat neg d k =>
      let x := f64_of_decimal (Z.of_N d) k in
      Some (if neg then b64_opp x else x)
  | SLOther => None
  end.
Definition p_number : parser f64 := fun ts =>
  let? (l, r) := p_lit ts in let? x := number_value l in Some (x, r).

(** mod.rs:100-112: [Int]. *)
Definition int_value (l : signed_lit) : option Z :=
  match l with SLInt z => if in_i64 z then Some z else None | _ => None end.
Definition p_int : parser Z := fun ts =>
  let? (l, r) := p_lit ts in let? x := int_value l in Some (x, r).

(** mod.rs:72-83, 114-119: [One]. *)
Definition p_one : parser unit := fun ts =>
  let? (x, r) := p_number ts in if f64_eqb x f64_one then Some (tt, r) else None.

(** mod.rs:152-164: [Factor<Magnitude>]. *)
Definition p_unit_factor : parser (fac magnitude) := fun ts =>
  if peek_ident ts then let? (i, r) := p_ident ts in Some (Other i, r)
  else if peek_lit ts then let? (x, r) := p_number ts in Some (Concrete (from_f64 x), r)
  else None.

(** mod.rs:166-176: [DimensionFactor]. *)
Definition p_dimension_factor : parser (fac unit) := fun ts =>
  if peek_lit ts then let? (o, r) := p_one ts in Some (Concrete o, r)
  else let? (i, r) := p_ident ts in Some (Other i, r).

(** ** parse/mod.rs: expressions *)

(** mod.rs:121-143 (rational build) and 145-150 (integer build), before [read_exponent]. *)
Definition raw_exponent (k : mode) : Type :=
  match k with IntegerExponents => Z | RationalExponents => (Z * option Z)%type end.
Definition p_exponent (k : mode) : parser (raw_exponent k) :=
  match k with
  | IntegerExponents => p_int
  | RationalExponents => fun ts =>
      if peek_lit ts then let? (n, r) := p_int ts in Some ((n, None), r)
      else
        match ts with
        | TGroup DParen content :: r =>
            let? (n, c1) := p_int content in
            let? (_, c2) := p_punct "/" c1 in
            let? d := whole p_int c2 in
            Some ((n, Some d), r)
        | _ => None
        end
  end.

(** mod.rs:178-186: [read_exponent]. *)
Definition read_exponent (k : mode) : raw_exponent k -> option (ops k) :=
  match k with
  | IntegerExponents => fun e => Some e
  | RationalExponents => fun e =>
      let '(n, d) := e in rnew Checked n (match d with Some d => d | None => 1%Z end)
  end.

(** mod.rs:326-341: [Operator]. *)
Definition p_operator : parser operator := fun ts =>
  if peek_punct "*" ts then let? (_, r) := p_punct "*" ts in Some (OMul, r)
  else if peek_punct "/" ts then let? (_, r) := p_punct "/" ts in Some (ODiv, r)
  else if peek_ident ts then Some (OMul, ts)
  else None.

(** mod.rs:366-367: the loop of [Expr::parse] ends at the end of the buffer or at [;]. *)
Definition at_end (ts : list tok) : bool :=
  match ts with [] => true | _ => peek_punct ";" ts end.

Section Expr.
Context {T E : Type} (pv : parser T) (pe : parser E).

(** mod.rs:349-358: [Factor] after the parenthesis check. *)
Definition p_power : parser (factor T E) := fun ts =>
  let? (v, r) := pv ts in
  if peek_punct "^" r then
    let? (_, r1) := p_punct "^" r in
    let? (e, r2) := pe r1 in
    Some (FPow v e, r2)
  else Some (FVal v, r).

(** mod.rs:361-378: [Expr] ([p_expr_n]: the first factor, then [p_rest_n]: the loop) and
    mod.rs:343-359: [Factor].  The recursion is bounded by [fuel]; [tokens_size] below is enough
    (Grammar.v proves the parser complete for the grammar, so the bound never bites). *)
Fixpoint p_factor_n (fuel : nat) (ts : list tok) : option (factor T E * list tok) :=
  match fuel with
  | O => None
  | S n =>
      match ts with
      | TGroup DParen content :: r =>
          let? e := whole (p_expr_n n) content in
          Some (FParen e, r)
      | _ => p_power ts
      end
  end
with p_expr_n (fuel : nat) (ts : list tok) : option (expr T E * list tok) :=
  match fuel with
  | O => None
  | S n =>
      let? (f, r) := p_factor_n n ts in
      p_rest_n n (EVal f) r
  end
with p_rest_n (fuel : nat) (lhs : expr T E) (ts : list tok) : option (expr T E * list tok) :=
  match fuel with
  | O => None
  | S n =>
      if at_end ts then Some (lhs, ts)
      else
        let? (op, r) := p_operator ts in
        let? (f, r') := p_factor_n n r in
        p_rest_n n (EBin lhs f op) r'
  end.
End Expr.

Fixpoint tok_size (t : tok) : nat :=
  match t with
  | TGroup _ ts => S (S (S (list_sum (map tok_size ts))))
  | _ => 1
  end.
Definition tokens_size (ts : list tok) : nat := list_sum (map tok_size ts).

Definition p_expr {T E} (pv : parser T) (pe : parser E) : parser (expr T E) := fun ts =>
  p_expr_n pv pe (3 + 3 * tokens_size ts) ts.

Section Statements.
Context (k : mode).

(** mod.rs:188-193: [parse_int_exponent_expr]. *)
Definition p_int_exponent_expr {T} (pv : parser T) : parser (expr T (ops k)) := fun ts =>
  let? (e, r) := p_expr pv (p_exponent k) ts in
  let? e' := expr_map_exp (read_exponent k) e in
  Some (e', r).

(** mod.rs:195-205: [Definition<(), One>]. *)
Definition p_definition : parser (definition (ops k) unit unit) := fun ts =>
  if peek_punct "=" ts then
    let? (_, r) := p_punct "=" ts in
    let? (e, r') := p_int_exponent_expr p_dimension_factor r in
    Some (DefExpr e, r')
  else Some (DefBase tt, ts).

(** mod.rs:207-216: [parse_annotation]. *)
Definition p_annotation : parser (option ident) := fun ts =>
  if peek_punct ":" ts then
    let? (_, r) := p_punct ":" ts in
    let? (i, r') := p_ident r in
    Some (Some i, r')
  else Some (None, ts).

(** A keyword that has been peeked is consumed. *)
Definition p_kw (w : string) : parser unit := fun ts =>
  if peek_kw w ts then match ts with _ :: r => Some (tt, r) | [] => None end else None.

(** mod.rs:218-225. *)
Definition p_dimension_entry : parser (dimension_entry (ops k)) := fun ts =>
  let? (_, r) := p_kw "dimension" ts in
  let? (name, r1) := p_ident r in
  let? (rhs, r2) := p_definition r1 in
  Some ({| de_name := name; de_rhs := rhs |}, r2).

(** mod.rs:227-240. *)
Definition p_constant_entry : parser (constant_entry (ops k)) := fun ts =>
  let? (_, r) := p_kw "constant" ts in
  let? (name, r1) := p_ident r in
  let? (ann, r2) := p_annotation r1 in
  let? (_, r3) := p_punct "=" r2 in
  let? (rhs, r4) := p_int_exponent_expr p_unit_factor r3 in
  Some ({| ce_name := name; ce_rhs := rhs; ce_annotation := ann |}, r4).

(** ** parse/attributes.rs *)

(** attributes.rs:27-34. *)
Inductive attribute_name := ABase | AAlias | ASymbol | AMetricPrefixes | APrefix.
Definition attribute_name_eqb (a b : attribute_name) : bool :=
  match a, b with
  | ABase, ABase | AAlias, AAlias | ASymbol, ASymbol | AMetricPrefixes, AMetricPrefixes
  | APrefix, APrefix => true
  | _, _ => false
  end.
(** attributes.rs:36-40 (spans dropped). *)
Record attribute := { at_name : attribute_name; at_inner : option (list tok) }.

(** attributes.rs:67-83. *)
Definition p_attribute_name : parser attribute_name := fun ts =>
  if peek_kw "base" ts then let? (_, r) := p_kw "base" ts in Some (ABase, r)
  else if peek_kw "alias" ts then let? (_, r) := p_kw "alias" ts in Some (AAlias, r)
  else if peek_kw "symbol" ts then let? (_, r) := p_kw "symbol" ts in Some (ASymbol, r)
  else if peek_kw "metric_prefixes" ts then
    let? (_, r) := p_kw "metric_prefixes" ts in Some (AMetricPrefixes, r)
  else if peek_kw "prefix" ts then let? (_, r) := p_kw "prefix" ts in Some (APrefix, r)
  else None.

(** attributes.rs:62-92: one iteration; the rest of the bracket must be empty. *)
Definition attribute_of (content : list tok) : option attribute :=
  let? (name, r) := p_attribute_name content in
  match r with
  | [TGroup DParen inner] => Some {| at_name := name; at_inner := Some inner |}
  | [] => Some {| at_name := name; at_inner := None |}
  | _ => None
  end.

(** attributes.rs:58-95: [parse_all]. *)
Fixpoint p_attributes_n (fuel : nat) (ts : list tok) : option (list attribute * list tok) :=
  match fuel with
  | O => None
  | S n =>
      if peek_punct "#" ts then
        let? (_, r) := p_punct "#" ts in
        match r with
        | TGroup DBracket content :: r' =>
            let? a := attribute_of content in
            let? (l, r'') := p_attributes_n n r' in
            Some (a :: l, r'')
        | _ => None
        end
      else Some ([], ts)
  end.
Definition p_attributes : parser (list attribute) := fun ts =>
  p_attributes_n (S (List.length ts)) ts.

(** prefixes.rs:37-53: tries the keywords in the order of the table. *)
Definition p_prefix : parser prefix := fun ts =>
  match ts with
  | TIdent s :: r =>
      match find (fun p => String.eqb s (prefix_keyword p)) all_prefixes with
      | Some p => Some (p, r)
      | None => None
      end
  | _ => None
  end.

(** attributes.rs:137-143 with the [?] of each caller: [inner_or_err]. *)
Definition inner_or_err (a : attribute) : option (list tok) := at_inner a.

(** attributes.rs:145-158. *)
Definition aliases_of (a : attribute) : option (list ident) :=
  let? inner := inner_or_err a in p_terminated p_ident "," inner.
(** attributes.rs:160-170. *)
Definition symbol_of (a : attribute) : option ident :=
  let? inner := inner_or_err a in whole p_ident inner.
(** attributes.rs:172-184. *)
Definition base_of (a : attribute) : option ident :=
  let? inner := inner_or_err a in whole p_ident inner.
(** attributes.rs:186-209 (the [skip] list). *)
Definition metric_of (a : attribute) : option (list prefix) :=
  match at_inner a with
  | None => Some []
  | Some inner =>
      if peek_kw "skip" inner then
        let? (_, r) := p_kw "skip" inner in
        let? (_, r1) := p_punct ":" r in
        p_terminated p_prefix "," r1
      else match inner with [] => Some [] | _ => None end
  end.
(** attributes.rs:211-224. *)
Definition prefixes_of (a : attribute) : option (list prefix) :=
  let? inner := inner_or_err a in p_terminated p_prefix "," inner.

(** [Iterator::collect] into a [Result]. *)
Fixpoint collect {A B} (f : A -> option B) (l : list A) : option (list B) :=
  match l with
  | [] => Some []
  | a :: l' => let? b := f a in let? bs := collect f l' in Some (b :: bs)
  end.

(** attributes.rs:97-102. *)
Definition remove_all {B} (n : attribute_name) (f : attribute -> option B) (l : list attribute)
  : option (list B * list attribute) :=
  let '(ts, others) := partition (fun a => attribute_name_eqb n (at_name a)) l in
  let? bs := collect f ts in Some (bs, others).
(** attributes.rs:104-118. *)
Definition remove_unique {B} (n : attribute_name) (f : attribute -> option B) (l : list attribute)
  : option (option B * list attribute) :=
  let '(ts, others) := partition (fun a => attribute_name_eqb n (at_name a)) l in
  match ts with
  | [] => Some (None, others)
  | [a] => let? b := f a in Some (Some b, others)
  | _ => None
  end.
(** attributes.rs:120-126. *)
Definition check_none_left_over (l : list attribute) : option unit :=
  match l with [] => Some tt | _ => None end.

(** mod.rs:242-299. *)
Definition p_unit_template (attrs : list attribute) : parser (unit_template (ops k)) := fun ts =>
  let? (_, r) := p_kw "unit" ts in
  let? (name, r1) := p_ident r in
  let? (ann, r2) := p_annotation r1 in
  let? (bases, a1) := remove_all ABase base_of attrs in
  let? (def, r3) :=
    (if peek_punct "=" r2 then
       let? (_, r') := p_punct "=" r2 in
       match bases with
       | [] => let? (e, r'') := p_int_exponent_expr p_unit_factor r' in Some (DefExpr e, r'')
       | _ => None
       end
     else match bases with
          | [b] => Some (DefBase b, r2)
          | _ => None
          end) in
  let? (aliases, a2) := remove_all AAlias aliases_of a1 in
  let? (symbol, a3) := remove_unique ASymbol symbol_of a2 in
  let? (metric, a4) := remove_unique AMetricPrefixes metric_of a3 in
  let? (explicit, a5) := remove_all APrefix prefixes_of a4 in
  let prefixes := (match metric with Some skip => metric_prefixes skip | None => [] end)
                  ++ concat explicit in
  let? _ := check_none_left_over a5 in
  Some ({| ut_name := name; ut_symbol := symbol; ut_aliases := concat aliases;
           ut_prefixes := prefixes; ut_annotation := ann; ut_definition := def |}, r3).

(** mod.rs:63-69. *)
Inductive entry :=
| EntQuantityType (i : ident)
| EntDimensionType (i : ident)
| EntDimension (d : dimension_entry (ops k))
| EntUnit (u : unit_template (ops k))
| EntConstant (c : constant_entry (ops k)).

(** Attributes that are dropped unread are an error only if their argument list has tokens
    (syn reports the unconsumed tokens of the dropped buffer). *)
Definition dropped_silently (a : attribute) : bool :=
  match at_inner a with None | Some [] => true | Some _ => false end.

(** mod.rs:301-324. *)
Definition p_entry : parser entry := fun ts =>
  let? (attrs, r) := p_attributes ts in
  let drop {A} (x : option A) : option A := if forallb dropped_silently attrs then x else None in
  if peek_kw "quantity_type" r then
    drop (let? (_, r1) := p_kw "quantity_type" r in
          let? (i, r2) := p_ident r1 in Some (EntQuantityType i, r2))
  else if peek_kw "dimension_type" r then
    drop (let? (_, r1) := p_kw "dimension_type" r in
          let? (i, r2) := p_ident r1 in Some (EntDimensionType i, r2))
  else if peek_kw "dimension" r then
    drop (let? (d, r1) := p_dimension_entry r in Some (EntDimension d, r1))
  else if peek_kw "unit" r then
    let? (u, r1) := p_unit_template attrs r in Some (EntUnit u, r1)
  else if peek_kw "constant" r then
    drop (let? (c, r1) := p_constant_entry r in Some (EntConstant c, r1))
  else None.

(** mod.rs:380-405. *)
Definition collect_entries (l : list entry) : unresolved (ops k) (unit_template (ops k)) := {|
  u_dimension_types := flat_map (fun e => match e with EntDimensionType i => [i] | _ => [] end) l;
  u_quantity_types := flat_map (fun e => match e with EntQuantityType i => [i] | _ => [] end) l;
  u_dimensions := flat_map (fun e => match e with EntDimension d => [d] | _ => [] end) l;
  u_units := flat_map (fun e => match e with EntUnit u => [u] | _ => [] end) l;
  u_constants := flat_map (fun e => match e with EntConstant c => [c] | _ => [] end) l |}.
Definition parse_system (ts : list tok) : option (unresolved (ops k) (unit_template (ops k))) :=
  let? l := p_terminated p_entry ";" ts in Some (collect_entries l).
End Statements.
