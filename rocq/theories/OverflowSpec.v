(** * Specification: when does the arithmetic on exponents fit the machine's integers?

    The exponents of a unit system over the rational numbers, and what it means that they and all
    intermediate results fit: [i64] in the integer build, numerators and denominators in [i64] in the
    build with rational exponents. *)
From Coq Require Import String List Bool ZArith QArith Qcanon Qcabs.
From Verif Require Import MachineInt Ratio F64 Magnitude Exponent ExponentFacts SMap Expression DimensionMath Types
  Snake Resolve SystemSpec Setting.
Import ListNotations.
Local Close Scope Q_scope.
Local Open Scope Qc_scope.

(** Numerator and denominator of a rational number in lowest terms. *)
Definition N (q : Qc) : Z := Qnum q.
Definition D (q : Qc) : Z := Zpos (Qden q).
Definition i64 (z : Z) : Prop := (- 2 ^ 63 <= z < 2 ^ 63)%Z.
Definition in_range (q : Qc) : Prop := ZQc (- 2 ^ 63) <= q /\ q < ZQc (2 ^ 63).

(** The machine computes [x + y]: [ratio.rs] brings both fractions to the product of the denominators
    before it reduces the result. *)
Definition sum_fits (k : mode) (x y : Qc) : Prop :=
  match k with
  | IntegerExponents => in_range (x + y)
  | RationalExponents => i64 (N x * D y) /\ i64 (N y * D x) /\ i64 (N x * D y + N y * D x) /\ i64 (D x * D y)
  end.
(** It computes [- x]. *)
Definition opposite_fits (k : mode) (x : Qc) : Prop :=
  match k with
  | IntegerExponents => in_range (- x)
  | RationalExponents => i64 (- N x)
  end.
(** It computes [x * p]. *)
Definition product_fits (k : mode) (x p : Qc) : Prop :=
  match k with
  | IntegerExponents => in_range (x * p)
  | RationalExponents => i64 (N x * N p) /\ i64 (D x * D p)
  end.

(** An exponent for every base dimension. *)
Definition degrees := string -> Qc.

Section Mode.
Context (k : mode).
Notation X := (ops k).
Notation value := (l_val X (laws k)).

Section Degrees.
Context {T : Type} (of : T -> degrees).

(** The exponents of a right-hand side: products add, quotients subtract, powers multiply. *)
Fixpoint degree (e : expr T X) : degrees :=
  match e with
  | EVal f => fdegree f
  | EBin l r OMul => fun b => degree l b + fdegree r b
  | EBin l r ODiv => fun b => degree l b - fdegree r b
  end
with fdegree (f : factor T X) : degrees :=
  match f with
  | FVal t => of t
  | FPow t p => fun b => of t b * value p
  | FParen x => degree x
  end.

(** Every product, quotient and power in it fits.  A divisor changes its sign first. *)
Fixpoint degree_fits (e : expr T X) : Prop :=
  match e with
  | EVal f => fdegree_fits f
  | EBin l r op =>
      degree_fits l /\ fdegree_fits r /\
      forall b, match op with
                | OMul => sum_fits k (degree l b) (fdegree r b)
                | ODiv => opposite_fits k (fdegree r b) /\ sum_fits k (degree l b) (- fdegree r b)
                end
  end
with fdegree_fits (f : factor T X) : Prop :=
  match f with
  | FVal _ => True
  | FPow t p => forall b, product_fits k (of t b) (value p)
  | FParen x => degree_fits x
  end.

(** The sum of the absolute exponents over the factors. *)
Fixpoint weight (e : expr T X) (b : string) : Qc :=
  match e with
  | EVal f => fweight f b
  | EBin l r _ => weight l b + fweight r b
  end
with fweight (f : factor T X) (b : string) : Qc :=
  match f with
  | FVal t => Qcabs (of t b)
  | FPow t p => Qcabs (of t b * value p)
  | FParen x => weight x b
  end.
End Degrees.

Notation decl := (decl X).
Notation system := (unresolved X (unit_entry X)).

(** Numbers have no dimension. *)
Definition named {C} (V : ident -> degrees) (f : fac C) : degrees :=
  match f with Concrete _ => fun _ => 0 | Other n => V n end.

(** The exponents a declaration gives its name, if the other names have those of [V]. *)
Definition declared_degree (V : ident -> degrees) (x : decl) : degrees :=
  match x with
  | DDimension d =>
      match de_rhs d with
      | DefBase _ => fun b => if String.eqb b (base_dimension_of (de_name d)) then 1 else 0
      | DefExpr e => degree (named V) e
      end
  | DUnit u =>
      match ue_definition u with
      | DefBase dim => V dim
      | DefExpr e => degree (named V) e
      end
  | DConstant c => degree (named V) (ce_rhs c)
  end.

Definition declaration_fits (V : ident -> degrees) (x : decl) : Prop :=
  match x with
  | DDimension d =>
      match de_rhs d with DefBase _ => True | DefExpr e => degree_fits (named V) e end
  | DUnit u =>
      match ue_definition u with DefBase _ => True | DefExpr e => degree_fits (named V) e end
  | DConstant c => degree_fits (named V) (ce_rhs c)
  end.

Definition declaration_weight (V : ident -> degrees) (x : decl) (b : string) : Qc :=
  match x with
  | DDimension d => match de_rhs d with DefBase _ => 1 | DefExpr e => weight (named V) e b end
  | DUnit u => match ue_definition u with DefBase dim => Qcabs (V dim b) | DefExpr e => weight (named V) e b end
  | DConstant c => weight (named V) (ce_rhs c) b
  end.

(** [V] is a solution of the declarations of [S] that do not lead back to themselves or to an
    undefined name. *)
Definition solution (S : system) (V : ident -> degrees) : Prop :=
  forall x, In x (decls S) -> grounded S (decl_name x) ->
    forall b, V (decl_name x) b = declared_degree V x b.

(** The exponents written in the source fit (the parser reads them into [i64]) and, in the rational
    build, are written with a positive denominator and stored in lowest terms. *)
Definition exponents_written (S : system) : Prop :=
  forall x p, In x (decls S) -> In p (decl_exponents x) ->
    l_valid X (laws k) p /\ i64 (N (value p)) /\ i64 (D (value p)).

(** Reading the macro's output: exponents that are not listed are zero. *)
Definition listed (d : list (string * X)) : degrees :=
  fun b => match find (fun kv => String.eqb b (fst kv)) d with Some kv => value (snd kv) | None => 0 end.
End Mode.

(** ** A common denominator *)

(** [q] is a multiple of [1/d]. *)
Definition in_steps (d : Z) (q : Qc) : Prop := exists z, q * ZQc d = ZQc z.

Section Steps.
Context (k : mode) (d : Z).
Notation X := (ops k).
Section Degrees.
Context {T : Type} (of : T -> degrees).
(** The exponents of the factors, and the written powers, are multiples of [1/d]. *)
Fixpoint expr_in_steps (e : expr T X) : Prop :=
  match e with
  | EVal f => factor_in_steps f
  | EBin l r _ => expr_in_steps l /\ factor_in_steps r
  end
with factor_in_steps (f : factor T X) : Prop :=
  match f with
  | FVal t => forall b, in_steps d (of t b)
  | FPow t p => in_steps d (l_val X (laws k) p) /\ forall b, in_steps d (of t b) /\ in_steps d (of t b * l_val X (laws k) p)
  | FParen x => expr_in_steps x
  end.
End Degrees.
Definition declaration_in_steps (V : ident -> degrees) (x : decl X) : Prop :=
  match x with
  | DDimension y => match de_rhs y with DefBase _ => True | DefExpr e => expr_in_steps (named V) e end
  | DUnit u => match ue_definition u with DefBase _ => True | DefExpr e => expr_in_steps (named V) e end
  | DConstant c => expr_in_steps (named V) (ce_rhs c)
  end.
End Steps.
