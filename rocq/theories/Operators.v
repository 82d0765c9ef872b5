(** * Model of codegen/num_traits/operator_trait.rs and num_traits/mod.rs

    The table of operator impls on quantities, the generic parameters, where-clauses, output types
    and bodies the macro emits for each entry, and rustc's matching of an impl against operand
    types. *)
From Coq Require Import String List Bool ZArith.
From Verif Require Import MachineInt Ratio F64 Magnitude Exponent SMap Types CodegenDimension Storage.
Import ListNotations.

(** operator_trait.rs:8-19. *)
Inductive trait :=
| TAdd | TSub | TMul | TDiv | TAddAssign | TSubAssign | TMulAssign | TDivAssign
| TPartialEq | TPartialOrd.

(** operator_trait.rs:84-86. *)
Definition has_output_type (t : trait) : bool :=
  match t with TAdd | TSub | TMul | TDiv => true | _ => false end.

(** operator_trait.rs:89-104. *)
Inductive storage_kind := Generic | ConcreteTy (ty : storage).
Inductive quantity_kind := KQuantity | KDimensionless | KStorage.
Inductive ref_kind := Value | Reference | MutableReference.

(** operator_trait.rs:106-114. *)
Definition is_ref (r : ref_kind) : bool := match r with Value => false | _ => true end.

(** operator_trait.rs:116-120. *)
Record operand := mkOperand { op_ref : ref_kind; op_type : quantity_kind; op_storage : storage_kind }.

(** operator_trait.rs:131-136. *)
Definition is_storage (o : operand) : bool :=
  match op_type o with KStorage => true | _ => false end.

(** operator_trait.rs:205-209. *)
Record op_trait := mkOp { ot_name : trait; ot_lhs : operand; ot_rhs : operand }.

(** operator_trait.rs:217-225. *)
Definition different_dimensions_allowed (t : op_trait) : bool :=
  match ot_name t with TMul | TDiv => true | _ => false end.

(** operator_trait.rs:231-241. *)
Definition different_storage_types_allowed (t : op_trait) : bool :=
  negb (is_storage (ot_lhs t)) && negb (is_storage (ot_rhs t)).

(** Names of generic parameters. *)
Inductive dim_var := VD | VDL | VDR.
Inductive sto_var := VS | VLHS | VRHS.

(** operator_trait.rs:247-261. *)
Definition dimension_types (t : op_trait) : option dim_var * option dim_var :=
  match op_type (ot_lhs t), op_type (ot_rhs t) with
  | KQuantity, KQuantity =>
      if different_dimensions_allowed t then (Some VDL, Some VDR) else (Some VD, Some VD)
  | KQuantity, _ => (Some VD, None)
  | _, KQuantity => (None, Some VD)
  | _, _ => (None, None)
  end.

(** operator_trait.rs:266-281. *)
Inductive sto_expr := SVar (v : sto_var) | SConc (s : storage).
Definition storage_exprs (t : op_trait) : sto_expr * sto_expr :=
  match op_storage (ot_lhs t), op_storage (ot_rhs t) with
  | Generic, Generic =>
      if different_storage_types_allowed t then (SVar VLHS, SVar VRHS) else (SVar VS, SVar VS)
  | ConcreteTy ty, Generic => (SConc ty, SVar VS)
  | Generic, ConcreteTy ty => (SVar VS, SConc ty)
  | ConcreteTy tyl, ConcreteTy tyr => (SConc tyl, SConc tyr)
  end.

(** operator_trait.rs:335-356 ([type_for_operand]). *)
Inductive type_pattern :=
| PQuantity (s : sto_expr) (d : dim_var)
| PDimensionless (s : sto_expr)
| PStorage (s : sto_expr)
| PMalformed.
Definition type_for_operand (o : operand) (s : sto_expr) (d : option dim_var) : ref_kind * type_pattern :=
  (op_ref o,
   match op_type o, d with
   | KQuantity, Some d => PQuantity s d
   | KQuantity, None => PMalformed
   | KDimensionless, _ => PDimensionless s
   | KStorage, _ => PStorage s
   end).
(** operator_trait.rs:321-333. *)
Definition lhs_type (t : op_trait) := type_for_operand (ot_lhs t) (fst (storage_exprs t)) (fst (dimension_types t)).
Definition rhs_type (t : op_trait) := type_for_operand (ot_rhs t) (snd (storage_exprs t)) (snd (dimension_types t)).

(** operator_trait.rs:138-151, 426-449: [Existing(D)] or [New(expression)]; [unreachable!()] is
    [OutUnreachable]. *)
Inductive out_dim :=
| OutExisting | OutAdd | OutSub | OutNeg | OutNone | OutUnreachable.
Definition output_dimension (t : op_trait) : out_dim :=
  match op_type (ot_lhs t), op_type (ot_rhs t) with
  | KQuantity, KQuantity =>
      match ot_name t with TMul => OutAdd | TDiv => OutSub | _ => OutExisting end
  | KQuantity, KStorage => OutExisting
  | KStorage, KQuantity =>
      match ot_name t with TMul => OutExisting | TDiv => OutNeg | _ => OutUnreachable end
  | KDimensionless, KStorage | KStorage, KDimensionless => OutNone
  | _, _ => OutUnreachable
  end.

(** operator_trait.rs:413-424: the output storage: the concrete type if both are concrete, else
    [<LHS as Trait<RHS>>::Output]. *)
Inductive out_storage := OutConcrete (s : storage) | OutProjection.
Definition output_storage (t : op_trait) : out_storage :=
  match op_storage (ot_lhs t), op_storage (ot_rhs t) with
  | ConcreteTy ty, ConcreteTy _ => OutConcrete ty
  | _, _ => OutProjection
  end.

(** operator_trait.rs:366-411: is there a bound [LHS: Trait<RHS>] (and [Copy] for references)? *)
Definition has_storage_bound (t : op_trait) : bool :=
  match op_storage (ot_lhs t), op_storage (ot_rhs t) with
  | ConcreteTy _, ConcreteTy _ => false
  | _, _ => true
  end.

(** operator_trait.rs:511-547: the macro shorthand. *)
Definition opn r q s := mkOperand r q s.
Definition Qt s := opn Value KQuantity s.
Definition rQt s := opn Reference KQuantity s.
Definition mQt s := opn MutableReference KQuantity s.
Definition Dl s := opn Value KDimensionless s.
Definition rDl s := opn Reference KDimensionless s.
Definition mDl s := opn MutableReference KDimensionless s.
Definition St s := opn Value KStorage s.
Definition rSt s := opn Reference KStorage s.

(** operator_trait.rs:553-632 ([iter_numeric_traits]), in source order. *)
Definition for_traits (ts : list trait) (ps : list (operand * operand)) : list op_trait :=
  flat_map (fun t => map (fun p => mkOp t (fst p) (snd p)) ps) ts.
Definition generic_traits : list op_trait :=
  for_traits [TAdd; TSub; TMul; TDiv]
    [(Qt Generic, Qt Generic); (Qt Generic, rQt Generic);
     (rQt Generic, Qt Generic); (rQt Generic, rQt Generic)] ++
  for_traits [TAddAssign; TSubAssign]
    [(Qt Generic, Qt Generic); (Qt Generic, rQt Generic);
     (mQt Generic, Qt Generic); (mQt Generic, rQt Generic)] ++
  for_traits [TMulAssign; TDivAssign]
    [(Qt Generic, Dl Generic); (Qt Generic, rDl Generic);
     (mQt Generic, Dl Generic); (mQt Generic, rDl Generic)] ++
  for_traits [TPartialOrd; TPartialEq]
    [(Qt Generic, Qt Generic); (Qt Generic, rQt Generic); (rQt Generic, Qt Generic)] ++
  for_traits [TAdd; TSub]
    [(Dl Generic, St Generic); (Dl Generic, rSt Generic);
     (rDl Generic, St Generic); (rDl Generic, rSt Generic)] ++
  for_traits [TAddAssign; TSubAssign]
    [(Dl Generic, St Generic); (Dl Generic, rSt Generic);
     (mDl Generic, St Generic); (mDl Generic, rSt Generic)].
Definition storage_traits (ty : storage) : list op_trait :=
  let C := ConcreteTy ty in
  for_traits [TAdd; TSub]
    [(St C, Dl C); (St C, rDl C); (rSt C, Dl C); (rSt C, rDl C)] ++
  for_traits [TAddAssign; TSubAssign]
    [(St C, Dl C); (St C, rDl C)] ++
  for_traits [TMul; TDiv]
    [(Qt Generic, St C); (rQt Generic, St C); (Qt Generic, rSt C); (rQt Generic, rSt C);
     (St C, Qt Generic); (rSt C, Qt Generic); (St C, rQt Generic); (rSt C, rQt Generic)] ++
  for_traits [TMulAssign; TDivAssign]
    [(Qt C, St C); (Qt C, rSt C); (St C, Dl C); (St C, rDl C)] ++
  for_traits [TPartialEq; TPartialOrd]
    [(Dl Generic, St C); (St C, Dl Generic)].
Definition numeric_traits (ft : features) : list op_trait :=
  generic_traits ++ flat_map storage_traits (storage_types ft).

(** ** Matching impls against operand types (rustc) *)
Section Match.
Context (X : exp_ops) (fields : list string).
Notation dimval := (dimval X).

(** Operand types.  Storage types are not quantities themselves (see DESIGN.md). *)
Inductive base_ty := TyQ (s : sty) (d : dimval) | TyS (s : sty).
Definition ty := (ref_kind * base_ty)%type.

(** What rustc knows of the raw types: [raw_op t s1 s2 = Some o] if [s1: Trait<s2>] with output
    type [o]; [raw_copy s] if [s: Copy]. *)
Context (raw_op : trait -> sty -> sty -> option sty) (raw_copy : sty -> bool).

Definition dsub := dim_var -> dimval.
Definition ssub := sto_var -> sty.
Definition inst_sto (s : ssub) (e : sto_expr) : sty :=
  match e with SVar v => s v | SConc c => Known c end.
Definition inst_ty (d : dsub) (s : ssub) (p : ref_kind * type_pattern) (t : ty) : Prop :=
  fst p = fst t /\
  match snd p with
  | PQuantity e v => snd t = TyQ (inst_sto s e) (d v)
  | PDimensionless e => exists n, dim_none X fields = Some n /\ snd t = TyQ (inst_sto s e) n
  | PStorage e => snd t = TyS (inst_sto s e)
  | PMalformed => False
  end.

(** The output dimension under an instantiation; [None]: the const expression aborts, so the
    where-clause [Quantity<(), {expr}>:] fails (operator_trait.rs:195-201). *)
Definition eval_out (d : dsub) (o : out_dim) : option dimval :=
  match o with
  | OutExisting => Some (d VD)
  | OutAdd => dim_add X fields (d VDL) (d VDR)
  | OutSub => dim_sub X fields (d VDL) (d VDR)
  | OutNeg => dim_neg X fields (d VD)
  | OutNone => dim_none X fields
  | OutUnreachable => None
  end.

(** The where-clauses. *)
Definition bounds_hold (t : op_trait) (s : ssub) : Prop :=
  has_storage_bound t = true ->
  let sl := inst_sto s (fst (storage_exprs t)) in
  let sr := inst_sto s (snd (storage_exprs t)) in
  raw_op (ot_name t) sl sr <> None /\
  (is_ref (op_ref (ot_lhs t)) = true -> raw_copy sl = true) /\
  (is_ref (op_ref (ot_rhs t)) = true -> raw_copy sr = true).

(** The output type. *)
Definition output_is (t : op_trait) (d : dsub) (s : ssub) (out : option (sty * dimval)) : Prop :=
  if has_output_type (ot_name t) then
    exists so dout,
      out = Some (so, dout) /\ eval_out d (output_dimension t) = Some dout /\
      match output_storage t with
      | OutConcrete c => so = Known c
      | OutProjection => raw_op (ot_name t) (inst_sto s (fst (storage_exprs t)))
                                (inst_sto s (snd (storage_exprs t))) = Some so
      end
  else out = None.

(** operator_trait.rs:634-666: the impl [t] applies to operand types [tl], [tr]; [out] is the
    [Output] type, if the trait has one. *)
Definition impl_applies (t : op_trait) (tl tr : ty) (out : option (sty * dimval)) : Prop :=
  exists d s, inst_ty d s (lhs_type t) tl /\ inst_ty d s (rhs_type t) tr /\
              bounds_hold t s /\ output_is t d s out.

(** [a op b] compiles by the generated impls. *)
Definition compiles (ft : features) (op : trait) (tl tr : ty) (out : option (sty * dimval)) : Prop :=
  exists t, In t (numeric_traits ft) /\ ot_name t = op /\ impl_applies t tl tr out.

(** core: [impl PartialEq<&B> for &A where A: PartialEq<B>] (and [PartialOrd]), see the note at
    operator_trait.rs:578-580; so a comparison compiles directly or through two references. *)
Definition compares (ft : features) (op : trait) (tl tr : ty) : Prop :=
  compiles ft op tl tr None \/
  (fst tl = Reference /\ fst tr = Reference /\ compiles ft op (Value, snd tl) (Value, snd tr) None).
End Match.
Arguments TyQ {X}. Arguments TyS {X}.

(** ** Values (operator_trait.rs:469-508, [fn_return_expr]) *)
Section Run.
Context {V C : Type} (raw_arith : trait -> V -> V -> V) (raw_cmp : trait -> V -> V -> C).

(** A quantity is a wrapped raw value; references are transparent (simplification: [&], [*] and
    auto-deref in the emitted body have no effect on values). *)
Inductive value := Wrapped (v : V) | Plain (v : V).
Inductive outcome := Returns (v : value) | Updates (self : value) | Compares (c : C).

(** [self.0]/[rhs.0] or [self]/[rhs]. *)
Definition project (q : quantity_kind) (v : value) : option V :=
  match q, v with
  | (KQuantity | KDimensionless), Wrapped x => Some x
  | KStorage, Plain x => Some x
  | _, _ => None
  end.

Definition body (t : op_trait) (self rhs : value) : option outcome :=
  let? l := project (op_type (ot_lhs t)) self in
  let? r := project (op_type (ot_rhs t)) rhs in
  match ot_name t with
  | TAdd | TSub | TMul | TDiv => Some (Returns (Wrapped (raw_arith (ot_name t) l r)))
  | TAddAssign | TSubAssign | TMulAssign | TDivAssign =>
      let x := raw_arith (ot_name t) l r in
      Some (Updates (match op_type (ot_lhs t) with KStorage => Plain x | _ => Wrapped x end))
  | TPartialEq | TPartialOrd => Some (Compares (raw_cmp (ot_name t) l r))
  end.

(** num_traits/mod.rs:38-50. *)
Definition neg_body (raw_neg : V -> V) (self : value) : option value :=
  match self with Wrapped x => Some (Wrapped (raw_neg x)) | Plain _ => None end.

(** num_traits/mod.rs:21-36: [total = default; for item in iter { total += item }]. *)
Definition sum_body (default : V) (items : list V) : V :=
  fold_left (fun total item => raw_arith TAddAssign total item) items default.
End Run.

(** num_traits/mod.rs:52-66: [impl<S> From<S> for Quantity<S, { none() }>]; [dst.from(src)] (and so
    [src.into()]) with a bare number [src]. *)
Definition from_number_compiles (X : exp_ops) (fields : list string) (src : sty) (dst : base_ty X) : Prop :=
  exists n, dim_none X fields = Some n /\ dst = TyQ src n.

(** What core and glam provide for the raw types: operators of f32 and f64 on themselves; vectors
    with themselves and, for the arithmetic operators, with their component type on either side
    (in-place only on the right); [PartialEq] on equal types, [PartialOrd] on floats only. *)
Definition float_eqb (a b : float_type) : bool :=
  match a, b with F32, F32 | F64, F64 => true | _, _ => false end.
Definition vector_eqb (a b : vector_type) : bool :=
  match a, b with Vec2, Vec2 | DVec2, DVec2 | Vec3, Vec3 | DVec3, DVec3 => true | _, _ => false end.
Definition std_raw_op (t : trait) (a b : sty) : option sty :=
  match a, b with
  | Known (Float f), Known (Float g) => if float_eqb f g then Some a else None
  | Known (Vector v), Known (Vector w) =>
      if vector_eqb v w then match t with TPartialOrd => None | _ => Some a end else None
  | Known (Vector v), Known (Float f) =>
      if float_eqb (component v) f
      then match t with TPartialEq | TPartialOrd => None | _ => Some a end else None
  | Known (Float f), Known (Vector v) =>
      if float_eqb (component v) f
      then match t with TAdd | TSub | TMul | TDiv => Some b | _ => None end else None
  | _, _ => None
  end.
Definition std_raw_copy (a : sty) : bool := match a with Known _ => true | Foreign _ => false end.
