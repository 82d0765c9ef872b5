(** * Specification of unit systems

    What a [unit_system!] declaration means, written without reference to the resolver:
    which names it declares, what each declaration mentions, when a name is grounded, and the
    equations its declarations state.  Used by the property files. *)
From Coq Require Import String List Bool ZArith QArith Qcanon Permutation.
From Verif Require Import MachineInt Ratio F64 Magnitude Exponent ExponentFacts Expression Types
  Snake Resolve.
Import ListNotations.
Local Open Scope list_scope.

Section Spec.
Context (X : exp_ops).

(** A declaration: [dimension], [unit] (plain, prefixed or alias, after expansion), [constant]. *)
Inductive decl :=
| DDimension (d : dimension_entry X)
| DUnit (u : unit_entry X)
| DConstant (c : constant_entry X).

Definition decls (S : unresolved X (unit_entry X)) : list decl :=
  map DDimension (u_dimensions S) ++ map DUnit (u_units S) ++ map DConstant (u_constants S).

Definition decl_name (x : decl) : ident :=
  match x with DDimension d => de_name d | DUnit u => ue_name u | DConstant c => ce_name c end.

Definition decl_kind (x : decl) : kind :=
  match x with
  | DDimension _ => KDimension
  | DUnit u => match ue_definition u with DefBase _ => KBaseUnit | DefExpr _ => KUnit end
  | DConstant _ => KConstant
  end.

(** [n] occurs in an expression. *)
Inductive occurs {C} (n : ident) : expr (fac C) X -> Prop :=
| occ_val f : foccurs n f -> occurs n (EVal f)
| occ_lhs l r op : occurs n l -> occurs n (EBin l r op)
| occ_rhs l r op : foccurs n r -> occurs n (EBin l r op)
with foccurs {C} (n : ident) : factor (fac C) X -> Prop :=
| occ_name : foccurs n (FVal (Other n))
| occ_pow e : foccurs n (FPow (Other n) e)
| occ_paren x : occurs n x -> foccurs n (FParen x).

(** The names a declaration's right hand side mentions. *)
Definition mentions (x : decl) (n : ident) : Prop :=
  match x with
  | DDimension d => match de_rhs d with DefBase _ => False | DefExpr e => occurs n e end
  | DUnit u => match ue_definition u with DefBase dim => n = dim | DefExpr e => occurs n e end
  | DConstant c => occurs n (ce_rhs c)
  end.

Definition annotation (x : decl) : option ident :=
  match x with
  | DDimension _ => None
  | DUnit u => ue_annotation u
  | DConstant c => ce_annotation c
  end.

(** A name whose definition unfolds in finitely many steps to definitions mentioning no name. *)
Inductive grounded (S : unresolved X (unit_entry X)) : ident -> Prop :=
| grounded_by x :
    In x (decls S) -> (forall n, mentions x n -> grounded S n) -> grounded S (decl_name x).

(** Which kinds may be used in a definition. *)
Definition may_mention (lhs rhs : kind) : Prop :=
  match lhs with
  | KDimension | KBaseUnit => rhs = KDimension
  | KUnit | KConstant => rhs <> KDimension
  end.

Definition base_unit_of (u : unit_entry X) (dim : ident) : Prop := ue_definition u = DefBase dim.

(** Everything the macro requires of a declaration, apart from annotations. *)
Record well_formed (S : unresolved X (unit_entry X)) : Prop := {
  wf_quantity : exists q, u_quantity_types S = [q];
  wf_dimension : exists d, u_dimension_types S = [d];
  wf_names : NoDup (map decl_name (decls S));
  wf_defined : forall x n, In x (decls S) -> mentions x n -> In n (map decl_name (decls S));
  wf_grounded : forall x, In x (decls S) -> grounded S (decl_name x);
  wf_kinds : forall x y, In x (decls S) -> In y (decls S) -> mentions x (decl_name y) ->
                         may_mention (decl_kind x) (decl_kind y);
  wf_base : forall u dim, In u (u_units S) -> base_unit_of u dim ->
              exists d, In d (u_dimensions S) /\ de_name d = dim /\ de_rhs d = DefBase tt;
  wf_base_unique : forall u1 u2 dim, In u1 (u_units S) -> In u2 (u_units S) ->
              base_unit_of u1 dim -> base_unit_of u2 dim -> u1 = u2;
  wf_symbols : forall u1 u2 s, In u1 (u_units S) -> In u2 (u_units S) ->
              ue_symbol u1 = Some s -> ue_symbol u2 = Some s -> u1 = u2;
  wf_base_symbol : forall u dim, In u (u_units S) -> base_unit_of u dim -> ue_symbol u <> None
}.

(** The exponents written in an expression. *)
Fixpoint exponents {T} (e : expr T X) : list X :=
  match e with
  | EVal f => fexponents f
  | EBin l r _ => exponents l ++ fexponents r
  end
with fexponents {T} (f : factor T X) : list X :=
  match f with
  | FVal _ => []
  | FPow _ e => [e]
  | FParen x => exponents x
  end.
Definition decl_exponents (x : decl) : list X :=
  match x with
  | DDimension d => match de_rhs d with DefBase _ => [] | DefExpr e => exponents e end
  | DUnit u => match ue_definition u with DefBase _ => [] | DefExpr e => exponents e end
  | DConstant c => exponents (ce_rhs c)
  end.

(** ** The equations a declaration states *)

Context (L : exp_laws X) (env : fenv).

Definition vec := string -> Qc.

(** Dimension of an expression, given the dimensions of the names: numbers are dimensionless,
    products add exponents, quotients subtract them, powers multiply them. *)
Inductive ev_dim {C} (R : ident -> vec -> Prop) : expr (fac C) X -> vec -> Prop :=
| ed_val f v : fev_dim R f v -> ev_dim R (EVal f) v
| ed_mul l r v1 v2 v : ev_dim R l v1 -> fev_dim R r v2 ->
    (forall b, v b = v1 b + v2 b)%Qc -> ev_dim R (EBin l r OMul) v
| ed_div l r v1 v2 v : ev_dim R l v1 -> fev_dim R r v2 ->
    (forall b, v b = v1 b - v2 b)%Qc -> ev_dim R (EBin l r ODiv) v
with fev_dim {C} (R : ident -> vec -> Prop) : factor (fac C) X -> vec -> Prop :=
| ed_lit c v : (forall b, v b = 0)%Qc -> fev_dim R (FVal (Concrete c)) v
| ed_name n v : R n v -> fev_dim R (FVal (Other n)) v
| ed_lit_pow c e v : (forall b, v b = 0)%Qc -> fev_dim R (FPow (Concrete c) e) v
| ed_name_pow n e v1 v : R n v1 -> (forall b, v b = v1 b * l_val X L e)%Qc ->
    fev_dim R (FPow (Other n) e) v
| ed_paren x v : ev_dim R x v -> fev_dim R (FParen x) v.

(** What a double becomes when stored in a type: [MagnitudeFacts.roundtrip_finite] and
    [roundtrip_nonfinite] say it is the same double unless it is subnormal or NaN. *)
Definition stored (x : f64) : f64 := into_f64 env (from_f64 x).

(** How a power of a factor is computed (see [pow_int], [pow_rat] below). *)
Context (powf : f64 -> X -> f64).

(** Factor of an expression, given the factors of the names, in double arithmetic from left to
    right. *)
Inductive ev_fac (R : ident -> f64 -> Prop) : expr (fac magnitude) X -> f64 -> Prop :=
| ef_val f v : fev_fac R f v -> ev_fac R (EVal f) v
| ef_mul l r v1 v2 : ev_fac R l v1 -> fev_fac R r v2 ->
    ev_fac R (EBin l r OMul) (stored (f64_mul v1 v2))
| ef_div l r v1 v2 : ev_fac R l v1 -> fev_fac R r v2 ->
    ev_fac R (EBin l r ODiv) (stored (f64_div v1 v2))
with fev_fac (R : ident -> f64 -> Prop) : factor (fac magnitude) X -> f64 -> Prop :=
| ef_lit c : fev_fac R (FVal (Concrete c)) (into_f64 env c)
| ef_name n v : R n v -> fev_fac R (FVal (Other n)) v
| ef_lit_pow c e : fev_fac R (FPow (Concrete c) e) (powf (into_f64 env c) e)
| ef_name_pow n e v : R n v -> fev_fac R (FPow (Other n) e) (powf v e)
| ef_paren x v : ev_fac R x v -> fev_fac R (FParen x) v.

(** [v] is the dimension declaration [x] gives its name. *)
Definition dim_equation (R : ident -> vec -> Prop) (x : decl) (v : vec) : Prop :=
  match x with
  | DDimension d =>
      match de_rhs d with
      | DefBase _ => forall b, v b = if String.eqb b (base_dimension_of (de_name d)) then 1%Qc else 0%Qc
      | DefExpr e => ev_dim R e v
      end
  | DUnit u =>
      match ue_definition u with
      | DefBase dim => R dim v
      | DefExpr e => ev_dim R e v
      end
  | DConstant c => ev_dim R (ce_rhs c) v
  end.

(** [f] is the factor declaration [x] (of a unit or constant) gives its name. *)
Definition fac_equation (R : ident -> f64 -> Prop) (x : decl) (f : f64) : Prop :=
  match x with
  | DDimension _ => True
  | DUnit u =>
      match ue_definition u with
      | DefBase _ => f = f64_one
      | DefExpr e => ev_fac R e f
      end
  | DConstant c => ev_fac R (ce_rhs c) f
  end.

(** ** Reading the output of the macro *)

(** The dimension the output gives to a name, as an exponent vector: fields not listed are zero. *)
Definition vec_is (d : list (string * X)) (v : vec) : Prop :=
  forall b, v b = match find (fun kv => String.eqb b (fst kv)) d with
                  | Some kv => l_val X L (snd kv)
                  | None => 0%Qc
                  end.
Definition dim_result (o : defs X) (n : ident) (v : vec) : Prop :=
  (exists d, In d (df_dimensions o) /\ d_name d = n /\ vec_is (d_dims d) v) \/
  (exists u, In u (df_units o) /\ un_name u = n /\ vec_is (un_dims u) v) \/
  (exists c, In c (df_constants o) /\ c_name c = n /\ vec_is (c_dims c) v).
Definition fac_result (o : defs X) (n : ident) (f : f64) : Prop :=
  (exists u, In u (df_units o) /\ un_name u = n /\ into_f64 env (un_mag u) = f) \/
  (exists c, In c (df_constants o) /\ c_name c = n /\ into_f64 env (c_mag c) = f).

Definition result_names (o : defs X) : list ident :=
  map d_name (df_dimensions o) ++ map un_name (df_units o) ++ map c_name (df_constants o).

(** An annotation is accepted: it names a dimension of the system every recorded exponent of which
    is recorded with the same value for the annotated item. *)
Definition fields_of (o : defs X) (x : decl) (d : list (string * X)) : Prop :=
  match x with
  | DDimension e => exists y, In y (df_dimensions o) /\ d_name y = de_name e /\ d_dims y = d
  | DUnit e => exists y, In y (df_units o) /\ un_name y = ue_name e /\ un_dims y = d
  | DConstant e => exists y, In y (df_constants o) /\ c_name y = ce_name e /\ c_dims y = d
  end.
Definition annotation_accepted (o : defs X) (x : decl) : Prop :=
  forall a, annotation x = Some a ->
  exists D dx, In D (df_dimensions o) /\ d_name D = a /\ fields_of o x dx /\
    forall b e, In (b, e) (d_dims D) -> In (b, e) dx.
End Spec.

Arguments DDimension {X}. Arguments DUnit {X}. Arguments DConstant {X}.
Arguments decls {X}. Arguments decl_name {X}. Arguments decl_kind {X}. Arguments mentions {X}.
Arguments annotation {X}. Arguments exponents {X T}. Arguments fexponents {X T}.
Arguments decl_exponents {X}. Arguments grounded {X}. Arguments well_formed {X}.
Arguments occurs {X C}. Arguments foccurs {X C}. Arguments base_unit_of {X}.
Arguments result_names {X}. Arguments fields_of {X}. Arguments annotation_accepted {X}.

(** Powers of factors: dimension_exponent.rs:28-30 ([powi] with the exponent cast to [i32]) and
    ratio.rs:88-98 ([powf]). *)
Definition pow_int (env : fenv) (f : f64) (e : Z) : f64 :=
  stored env (f_powi env f (as_i32 e)).
Definition pow_rat (env : fenv) (f : f64) (e : ratio) : f64 :=
  stored env (f_powf env f (f64_div (f64_of_Z (num e)) (f64_of_Z (denom e)))).
