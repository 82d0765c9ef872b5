(** * Model of codegen/dimension_type.rs and codegen/dimensions.rs: the generated [Dimension] type

    The macro emits a struct with one field per base dimension and const methods on it.  The
    values of that struct are the const generic arguments of [Quantity]; two quantity types are
    the same type exactly if these values are equal (derived structural equality). *)
From Coq Require Import String List Bool ZArith.
From Verif Require Import MachineInt Ratio F64 Magnitude Exponent SMap Types.
Import ListNotations.

Section Dim.
Context (X : exp_ops).

(** A value of the generated struct: one (field, value) entry per field, in declaration order. *)
Definition dimval := list (string * X).

(** rustc: a struct declaration must not repeat a field name (E0124). *)
Fixpoint nodupb (l : list string) : bool :=
  match l with
  | [] => true
  | x :: l' => negb (existsb (String.eqb x) l') && nodupb l'
  end.

(** dimension_type.rs:135-162: the struct declaration; [false] is a compile error. *)
Definition struct_declaration_ok (fields : list string) : bool := nodupb fields.

Fixpoint mapM {A B} (f : A -> option B) (l : list A) : option (list B) :=
  match l with
  | [] => Some []
  | a :: l' => let? b := f a in let? r := mapM f l' in Some (b :: r)
  end.

(** rustc: a struct expression [Name { inits, ..base }]: every initialised field must exist
    (E0560) and be initialised once (E0062); without a base all fields must be given (E0063). *)
Definition struct_expr (fields : list string) (inits : dimval) (base : option dimval)
  : option dimval :=
  if nodupb (map fst inits) &&
     forallb (fun f => existsb (String.eqb f) fields) (map fst inits)
  then mapM (fun f => match sget f inits with
                      | Some v => Some (f, v)
                      | None => match base with
                                | Some b => let? v := sget f b in Some (f, v)
                                | None => None
                                end
                      end) fields
  else None.

(** dimension_type.rs:203-208 ([gen]): one entry [ident: e(self.ident)] per base dimension.  An
    abort of the const evaluation is [None]. *)
Definition entries1 (fields : list string) (op : X -> option X) (self : dimval) : option dimval :=
  mapM (fun f => let? v := sget f self in let? r := op v in Some (f, r)) fields.
Definition entries2 (fields : list string) (op : X -> X -> option X) (self other : dimval)
  : option dimval :=
  mapM (fun f => let? v := sget f self in let? w := sget f other in
                 let? r := op v w in Some (f, r)) fields.

(** dimension_type.rs:194-199, 221-225. *)
Definition dim_none (fields : list string) : option dimval :=
  struct_expr fields (map (fun f => (f, e_zero X)) fields) None.

(** dimension_type.rs:27-31, 82-86, 227-231. *)
Definition dim_add fields (self other : dimval) : option dimval :=
  let? es := entries2 fields (e_add X) self other in struct_expr fields es None.

(** dimension_type.rs:33-37, 88-92, 233-237. *)
Definition dim_sub fields (self other : dimval) : option dimval :=
  let? es := entries2 fields (e_sub X) self other in struct_expr fields es None.

(** dimension_type.rs:39-43, 94-98, 239-243. *)
Definition dim_neg fields (self : dimval) : option dimval :=
  let? es := entries1 fields (e_neg X) self in struct_expr fields es None.

(** dimension_type.rs:45-49, 100-104, 245-249. *)
Definition dim_mul fields (self : dimval) (other : Z) : option dimval :=
  let? es := entries1 fields (fun a => e_mul_int X a other) self in struct_expr fields es None.

(** dimension_type.rs:51-55, 63-65, 106-110, 118-124, 251-256.  The int build checks all fields
    before dividing; checking and dividing field by field aborts in the same cases. *)
Definition dim_div2 fields (self : dimval) : option dimval :=
  let? es := entries1 fields (e_div2 X) self in struct_expr fields es None.

(** dimension_type.rs:57-61, 67-69, 112-116, 126-132, 258-263. *)
Definition dim_div3 fields (self : dimval) : option dimval :=
  let? es := entries1 fields (e_div3 X) self in struct_expr fields es None.

(** dimensions.rs:8-26 ([get_dimension_expr]); [lit] is the evaluation of the emitted exponent
    expression (dimension_type.rs:17-21 and 74-76). *)
Definition dim_expr (lit : X -> option X) fields (dims : dimval) : option dimval :=
  let? es := mapM (fun kv => let? v := lit (snd kv) in Some (fst kv, v)) dims in
  if Nat.ltb (length dims) (length fields)
  then let? none := dim_none fields in struct_expr fields es (Some none)
  else struct_expr fields es None.

(** Type identity of const generic arguments: [#[derive(PartialEq, Eq, ConstParamTy)]]
    (dimension_type.rs:155). *)
Fixpoint dim_eqb (a b : dimval) : bool :=
  match a, b with
  | [], [] => true
  | (f, v) :: a', (g, w) :: b' => String.eqb f g && e_eqb X v w && dim_eqb a' b'
  | _, _ => false
  end.
End Dim.

(** The exponent expressions emitted in literals: the int build emits the [i64] itself, the
    rational build [Exponent::new(num, denom)] (dimension_type.rs:17-21, 74-76). *)
Definition lit_int (v : Z) : option Z := Some v.
Definition lit_rat (m : ovf) (r : ratio) : option ratio := rnew m (num r) (denom r).
