(** * The type checker of programs over quantities

    [infer]: computes the type of an expression from the types of its variables, or [None] if the
    expression is not accepted.  This is what rustc does with the impls the macro generates
    ([typed], Programs.v); PropertiesInference.v proves that the two agree. *)
From Coq Require Import String List Bool ZArith QArith Qcanon.
From Verif Require Import MachineInt Ratio F64 Magnitude Exponent ExponentFacts SMap Types CodegenDimension
  Setting Storage Operators OperatorSpec OperatorFacts FloatMethods Vector CodegenDimensionFacts PropertiesDebug PropertiesDimension Programs.
Import ListNotations.
Local Close Scope Q_scope.
Local Close Scope Qc_scope.
Local Close Scope Z_scope.
Local Open Scope list_scope.

Definition storage_eqb (a b : storage) : bool :=
  match a, b with
  | Float f, Float g => float_eqb f g
  | Vector v, Vector w => vector_eqb v w
  | _, _ => false
  end.
Definition sty_eqb (a b : sty) : bool :=
  match a, b with
  | Known s, Known t => storage_eqb s t
  | Foreign n, Foreign m => Nat.eqb n m
  | _, _ => false
  end.
(** Exponents: every [i64]; fractions in lowest terms with a positive denominator. *)
Definition valid_exponent (k : mode) : ops k -> bool :=
  match k with
  | IntegerExponents => fun _ => true
  | RationalExponents => fun r => ((0 <? denom r)%Z && (Z.gcd (Ratio.num r) (denom r) =? 1)%Z)%bool
  end.

Section Infer.
Context (k : mode) (fields : list string) (ft : features) (math : bool).
Notation X := (ops k).
Notation dimval := (dimval X).
Notation base_ty := (base_ty X).
Context (units constants : list dimval) (strict : bool).

Definition none_b (d : dimval) : bool :=
  match dim_none X fields with Some n => dim_eqb X n d | None => false end.
Definition names_b : list string -> list string -> bool :=
  fun a b => if list_eq_dec string_dec a b then true else false.
Definition dimension_b (d : dimval) : bool :=
  names_b (map fst d) fields && forallb (fun fe => valid_exponent k (snd fe)) d.
Definition supported_b (s : sty) : bool :=
  match s with Known c => existsb (storage_eqb c) (storage_types ft) | Foreign _ => false end.
Definition float_b (s : sty) : bool :=
  match s with Known (Float f) => existsb (float_eqb f) (float_types ft) | _ => false end.
Definition base_eqb (a b : base_ty) : bool :=
  match a, b with
  | TyQ s d, TyQ t e => sty_eqb s t && dim_eqb X d e
  | TyS s, TyS t => sty_eqb s t
  | _, _ => false
  end.
Definition type_eqb (a b : type k) : bool :=
  match a, b with T x, T y => base_eqb x y | Bool, Bool => true | _, _ => false end.
Definition when {A} (b : bool) (r : option A) : option A := if b then r else None.

Definition unit_dim (u : unit_expr) : option dimval :=
  match u with
  | U i => nth_error units i
  | UTimes i j => let? d := nth_error units i in let? e := nth_error units j in dim_add X fields d e
  | UOver i j => let? d := nth_error units i in let? e := nth_error units j in dim_sub X fields d e
  end.

(** The result of an operator: [Some None] for the ones that update or compare. *)
Definition operator (op : trait) (a b : base_ty) : option (option (sty * dimval)) :=
  match a, b with
  | TyQ s d, TyQ s' d' =>
      let? o := std_raw_op op s s' in
      match op with
      | TAdd | TSub => when (dim_eqb X d d') (Some (Some (o, d)))
      | TMul => let? e := dim_add X fields d d' in Some (Some (o, e))
      | TDiv => let? e := dim_sub X fields d d' in Some (Some (o, e))
      | TAddAssign | TSubAssign | TPartialEq | TPartialOrd => when (dim_eqb X d d') (Some None)
      | TMulAssign | TDivAssign => when (none_b d') (Some None)
      end
  | TyQ s d, TyS s' =>
      let? o := std_raw_op op s s' in
      match op with
      | TAdd | TSub => when (sty_eqb s s' && none_b d) (Some (Some (o, d)))
      | TMul | TDiv => when (supported_b s') (Some (Some (o, d)))
      | TAddAssign | TSubAssign => when (sty_eqb s s' && none_b d) (Some None)
      | TMulAssign | TDivAssign => when (sty_eqb s s' && supported_b s') (Some None)
      | TPartialEq | TPartialOrd => when (supported_b s' && none_b d) (Some None)
      end
  | TyS s, TyQ s' d =>
      let? o := std_raw_op op s s' in
      when (supported_b s)
      match op with
      | TAdd | TSub => when (sty_eqb s s' && none_b d) (Some (Some (o, d)))
      | TMul => Some (Some (o, d))
      | TDiv => let? e := dim_neg X fields d in Some (Some (o, e))
      | TAddAssign | TSubAssign | TMulAssign | TDivAssign => when (sty_eqb s s' && none_b d) (Some None)
      | TPartialEq | TPartialOrd => when (none_b d) (Some None)
      end
  | TyS _, TyS _ => None
  end.
Definition in_place (op : trait) : bool :=
  match op with TAddAssign | TSubAssign | TMulAssign | TDivAssign => true | _ => false end.

Definition method_type (m : method) (s : sty) (d : dimval) : option (res_ty X) :=
  match m with
  | MValue | MValueRef | MDeref => when (none_b d) (Some (ResRaw s))
  | MValueUnchecked | MValueUncheckedRef => when (negb strict) (Some (ResRaw s))
  | MFn _ => when (math && float_b s && none_b d) (Some (ResQ s d))
  | MSquared => when (float_b s) (let? e := dim_mul X fields d 2 in Some (ResQ s e))
  | MCubed => when (float_b s) (let? e := dim_mul X fields d 3 in Some (ResQ s e))
  | MPowi i => when ((- 2 ^ 31 <=? i)%Z && (i <? 2 ^ 31)%Z && float_b s)
                 (let? e := dim_mul X fields d i in Some (ResQ s e))
  | MSqrt => when (math && float_b s) (let? e := dim_div2 X fields d in Some (ResQ s e))
  | MCbrt => when (math && float_b s) (let? e := dim_div3 X fields d in Some (ResQ s e))
  | MZero => when (float_b s) (Some (ResQ s d))
  | MIsPositive | MIsPositiveOrZero | MIsNegative | MIsNegativeOrZero | MIsNan =>
      when (float_b s) (Some ResBool)
  | MAbs => when (supported_b s) (Some (ResQ s d))
  end.
Definition into_b (q : base_ty) (s : sty) (d : dimval) : bool :=
  match q with TyQ s' d' => sty_eqb s' s && dim_eqb X d' d | TyS s' => sty_eqb s' s && none_b d end.

Definition vector_ty (v : vector_type) (d : dimval) : base_ty := TyQ (Known (Vector v)) d.
Definition float_ty (v : vector_type) (d : dimval) : base_ty := TyQ (Known (Float (component v))) d.
Definition dim_of (b : base_ty) : option dimval := match b with TyQ _ d => Some d | TyS _ => None end.
Definition args_b (a b : list base_ty) : bool :=
  Nat.eqb (length a) (length b) && forallb (fun p => base_eqb (fst p) (snd p)) (combine a b).
(** The dimension of a vector method's receiver is that of its first argument. *)
Definition vec_type (v : vector_type) (o : vec_op) (args : list base_ty) : option base_ty :=
  when (existsb (vector_eqb v) (vector_types ft))
  (let? b := hd_error args in
   let? d := dim_of b in
   let vec := vector_ty v d in let flt := float_ty v d in
   match o with
   | VNew => when (args_b args (repeat flt (num_dims v))) (Some vec)
   | VNewAxis a => when (Nat.ltb (axis_index a) (num_dims v) && args_b args [flt]) (Some vec)
   | VGet a => when (Nat.ltb (axis_index a) (num_dims v) && args_b args [vec]) (Some flt)
   | VSet a => when (Nat.ltb (axis_index a) (num_dims v) && args_b args [vec; flt]) (Some vec)
   | VZero => None
   | VMin | VMax => when (args_b args [vec; vec]) (Some vec)
   | VLength => when (args_b args [vec]) (Some flt)
   | VDistance => when (args_b args [vec; vec]) (Some flt)
   | VDistanceSquared => when (args_b args [vec; vec]) (let? e := dim_mul X fields d 2 in Some (float_ty v e))
   | VNormalize => when (args_b args [vec]) (let? e := dim_none X fields in Some (vector_ty v e))
   | VDot => match args with
             | [_; c] => let? dr := dim_of c in
                         when (args_b args [vec; vector_ty v dr]) (let? e := dim_add X fields d dr in Some (float_ty v e))
             | _ => None
             end
   end).
Definition type_b (t : type k) : bool :=
  match t with T (TyQ _ d) => dimension_b d | _ => true end.

Definition a_number (t : type k) : option storage :=
  match t with T (TyS (Known s)) => Some s | _ => None end.
Definition a_float (t : type k) : option float_type :=
  match t with T (TyS (Known (Float f))) => Some f | _ => None end.
Definition a_quantity (t : type k) : option (storage * dimval) :=
  match t with T (TyQ (Known s) d) => Some (s, d) | _ => None end.
Definition a_float_quantity (t : type k) : option (float_type * dimval) :=
  match t with T (TyQ (Known (Float f)) d) => Some (f, d) | _ => None end.
Definition a_base (t : type k) : option base_ty := match t with T b => Some b | Bool => None end.

Fixpoint infer (G : list (type k)) (p : prog k) {struct p} : option (type k) :=
  match p with
  | Var i => nth_error G i
  | Lit s _ => Some (number s)
  | Convert a =>
      let? t := infer G a in let? s := a_number t in let? n := dim_none X fields in Some (quantity s n)
  | Zero s d => when (dimension_b d) (Some (quantity s d))
  | New u a =>
      let? t := infer G a in let? f := a_float t in let? d := unit_dim u in Some (quantity (Float f) d)
  | NumberTimes a u | UnitOverNumber u a =>
      let? t := infer G a in let? s := a_number t in let? d := unit_dim u in Some (quantity s d)
  | NumberOver a u =>
      let? t := infer G a in let? s := a_number t in let? d := unit_dim u in
      when (negb strict) (Some (quantity s d))
  | Times a u =>
      let? t := infer G a in let? (f, d1) := a_float_quantity t in let? d := unit_dim u in
      let? e := dim_add X fields d1 d in Some (quantity (Float f) e)
  | TimesLeft u a =>
      let? t := infer G a in let? (f, d1) := a_float_quantity t in let? d := unit_dim u in
      let? e := dim_add X fields d d1 in Some (quantity (Float f) e)
  | Over a u =>
      let? t := infer G a in let? (f, d1) := a_float_quantity t in let? d := unit_dim u in
      let? e := dim_sub X fields d1 d in Some (quantity (Float f) e)
  | UnitOver u a =>
      let? t := infer G a in let? (f, d1) := a_float_quantity t in let? d := unit_dim u in
      let? e := dim_sub X fields d d1 in when (negb strict) (Some (quantity (Float f) e))
  | ValueIn a u =>
      let? t := infer G a in let? (f, d1) := a_float_quantity t in let? d := unit_dim u in
      when (negb strict || dim_eqb X d1 d) (Some (number (Float f)))
  | Constant c => None
  | Bin op a b =>
      let? t := infer G a in let? t' := infer G b in
      let? b1 := a_base t in let? b2 := a_base t' in
      let? r := operator op b1 b2 in
      match r with
      | Some (s, d) => Some (T (TyQ s d))
      | None => when (in_place op) (Some (T b1))
      end
  | Neg a => let? t := infer G a in let? (s, d) := a_quantity t in Some (quantity s d)
  | Sum s d items =>
      let? bs := infer_each G items in
      when (dimension_b d && forallb (base_eqb (TyQ (Known s) d)) bs) (Some (quantity s d))
  | Call m a =>
      let? t := infer G a in let? (s, d) := a_quantity t in let? r := method_type m (Known s) d in
      Some (match r with ResQ s' d' => T (TyQ s' d') | ResRaw s' => T (TyS s') | ResBool => Bool end)
  | Call2 m a b c =>
      let? t := infer G a in let? (s, d) := a_quantity t in
      let? t1 := infer G b in let? q := a_base t1 in let? t2 := infer G c in let? q' := a_base t2 in
      when (base_eqb q q' && float_b (Known s) && into_b q (Known s) d) (Some (quantity s d))
  | CallVec v o args =>
      let? bs := infer_each G args in let? r := vec_type v o bs in when (type_b (T r)) (Some (T r))
  | Compare r a b =>
      let? t := infer G a in let? t' := infer G b in
      let? b1 := a_base t in let? b2 := a_base t' in
      let? o := operator (trait_of r) b1 b2 in
      match o with None => Some Bool | Some _ => None end
  | If c a b =>
      let? t := infer G c in let? t1 := infer G a in let? t2 := infer G b in
      when (type_eqb t Bool && type_eqb t1 t2) (Some t1)
  | Let a b => let? t := infer G a in infer (t :: G) b
  | Repeat n a b =>
      let? t := infer G a in let? t' := infer (t :: G) b in when (type_eqb t t') (Some t)
  end
with infer_each (G : list (type k)) (ps : progs k) {struct ps} : option (list base_ty) :=
  match ps with
  | Nil => Some []
  | Cons a rest => let? t := infer G a in let? b := a_base t in let? bs := infer_each G rest in Some (b :: bs)
  end.

(** Expressions that say what they are: [Vec3::zero()] and constants of no particular float type
    need an annotation. *)
Fixpoint determined (p : prog k) : bool :=
  match p with
  | Var _ | Lit _ _ | Zero _ _ => true
  | Constant _ => false
  | Convert a | New _ a | NumberTimes a _ | NumberOver a _ | UnitOverNumber _ a | Times a _ | TimesLeft _ a
  | Over a _ | UnitOver _ a | ValueIn a _ | Neg a | Call _ a => determined a
  | Bin _ a b | Compare _ a b | Let a b | Repeat _ a b => determined a && determined b
  | Sum _ _ items => determined_all items
  | Call2 _ a b c | If a b c => determined a && determined b && determined c
  | CallVec _ VZero _ => false
  | CallVec _ _ args => determined_all args
  end
with determined_all (ps : progs k) : bool :=
  match ps with Nil => true | Cons a rest => determined a && determined_all rest end.
End Infer.
