(** * Programs over quantities, typed by the generated impls and run over the reals

    Expressions built from the generated operators, methods, units and constants.  A program is
    accepted ([typed]) if every operator and method in it is accepted by the impls the macro emits
    ([compiles], [method_ok], [arg_method_ok], [vec_call]: the models of operator_trait.rs,
    float_methods.rs, generic_methods.rs, quantity_type.rs and vector_methods.rs).
    It is run on exact real numbers instead of floats (simplification: no rounding; C10, C16-C18 and
    C61 bound the rounding of the single operations).  [None]: the operation has no real value, e.g.
    division by zero. *)
From Coq Require Import String List Bool ZArith QArith Qcanon Qreals Reals.
From Verif Require Import MachineInt Ratio F64 Magnitude Exponent ExponentFacts SMap Types CodegenDimension
  Setting Storage Operators FloatMethods Vector CodegenDimensionFacts.
Import ListNotations.
Local Close Scope Q_scope.
Local Close Scope Qc_scope.
Local Open Scope R_scope.

(** ** Exact numbers: what the bodies compute, over the reals *)

(** A scalar or a vector. *)
Inductive num := Sc (x : R) | Ve (xs : list R).
Definition comps (a : num) : list R := match a with Sc x => [x] | Ve xs => xs end.

Definition arith1 (op : trait) (x y : R) : option R :=
  match op with
  | TAdd | TAddAssign => Some (x + y)
  | TSub | TSubAssign => Some (x - y)
  | TMul | TMulAssign => Some (x * y)
  | TDiv | TDivAssign => if Req_EM_T y 0 then None else Some (x / y)
  | TPartialEq | TPartialOrd => None
  end.
(** Floats and glam vectors, see Raw.v. *)
Definition arith (op : trait) (a b : num) : option num :=
  match a, b with
  | Sc x, Sc y => option_map Sc (arith1 op x y)
  | Ve xs, Sc y => option_map Ve (mapM (fun x => arith1 op x y) xs)
  | Sc x, Ve ys => option_map Ve (mapM (fun y => arith1 op x y) ys)
  | Ve xs, Ve ys => option_map Ve (mapM (fun p => arith1 op (fst p) (snd p)) (combine xs ys))
  end.

Inductive relation := Eq | Ne | Lt | Le | Gt | Ge.
Definition trait_of (r : relation) : trait := match r with Eq | Ne => TPartialEq | _ => TPartialOrd end.
Definition dec {P} (d : {P} + {~ P}) : bool := if d then true else false.
Definition compare_num (r : relation) (a b : num) : option bool :=
  match r, a, b with
  | Eq, _, _ => Some (dec (list_eq_dec Req_EM_T (comps a) (comps b)))
  | Ne, _, _ => Some (negb (dec (list_eq_dec Req_EM_T (comps a) (comps b))))
  | Lt, Sc x, Sc y => Some (dec (Rlt_dec x y))
  | Le, Sc x, Sc y => Some (dec (Rle_dec x y))
  | Gt, Sc x, Sc y => Some (dec (Rlt_dec y x))
  | Ge, Sc x, Sc y => Some (dec (Rle_dec y x))
  | _, _, _ => None
  end.

Definition power_int (x : R) (i : Z) : option R :=
  if Req_EM_T x 0 then (if (0 <=? i)%Z then Some (powerRZ x i) else None) else Some (powerRZ x i).
Definition cube_root (x : R) : R :=
  if Rlt_dec 0 x then Rpower x (/ 3) else if Rlt_dec x 0 then - Rpower (- x) (/ 3) else 0.

Inductive val := VNum (a : num) | VBool (b : bool).

(** [functions]: the functions of std or libm (sin, exp, ...), as partial functions on the reals. *)
Section Run.
Context (functions : float_fn -> R -> option R).
Definition on_scalar (g : R -> option R) (a : num) : option val :=
  match a with Sc x => option_map (fun y => VNum (Sc y)) (g x) | Ve _ => None end.
Definition test_scalar (g : R -> bool) (a : num) : option val :=
  match a with Sc x => Some (VBool (g x)) | Ve _ => None end.

(** [method_value] (FloatMethods.v) over the reals. *)
Definition method_real (m : method) (a : num) : option val :=
  match m with
  | MValue | MValueRef | MDeref | MValueUnchecked | MValueUncheckedRef => Some (VNum a)
  | MFn f => on_scalar (functions f) a
  | MSquared => on_scalar (fun x => power_int x 2) a
  | MCubed => on_scalar (fun x => power_int x 3) a
  | MPowi i => on_scalar (fun x => power_int x i) a
  | MSqrt => on_scalar (fun x => if Rlt_dec x 0 then None else Some (sqrt x)) a
  | MCbrt => on_scalar (fun x => Some (cube_root x)) a
  | MZero => on_scalar (fun _ => Some 0) a
  | MIsPositive => test_scalar (fun x => dec (Rlt_dec 0 x)) a
  | MIsPositiveOrZero => test_scalar (fun x => dec (Rle_dec 0 x)) a
  | MIsNegative => test_scalar (fun x => dec (Rlt_dec x 0)) a
  | MIsNegativeOrZero => test_scalar (fun x => dec (Rle_dec x 0)) a
  | MIsNan => test_scalar (fun _ => false) a
  | MAbs => Some (VNum (match a with Sc x => Sc (Rabs x) | Ve xs => Ve (map Rabs xs) end))
  end.
(** [arg_method_value]; [clamp] panics unless the bounds are ordered. *)
Definition arg_method_real (m : arg_method) (x a b : num) : option val :=
  match m, x, a, b with
  | MMin, Sc x, Sc a, _ => Some (VNum (Sc (Rmin x a)))
  | MMax, Sc x, Sc a, _ => Some (VNum (Sc (Rmax x a)))
  | MClamp, Sc x, Sc a, Sc b => if Rle_dec a b then Some (VNum (Sc (Rmin (Rmax x a) b))) else None
  | _, _, _, _ => None
  end.
(** The same vector algorithms as on floats; the zero vector cannot be normalized. *)
Definition vec_real (v : vector_type) (o : vec_op) (args : list num) : option num :=
  if match o, map comps args with VNormalize, [xs] => dec (Req_EM_T (g_length Rplus Rmult sqrt 0 xs) 0) | _, _ => false end
  then None
  else let? r := g_value Rplus Rminus Rmult Rdiv sqrt Rmin Rmax 0 1 (num_dims v) o (map comps args) in
       if scalar_result o then match r with [x] => Some (Sc x) | _ => None end else Some (Ve r).

Definition zero_of (s : storage) : num :=
  match s with Float _ => Sc 0 | Vector v => Ve (repeat 0 (num_dims v)) end.
End Run.

(** ** Programs *)
Section Programs.
Context (k : mode) (fields : list string) (ft : features) (math : bool).
Notation X := (ops k).
Notation dimval := (dimval X).

(** A unit of the system by its number, or a product or quotient of two (unit_type.rs:24-43). *)
Inductive unit_expr := U (i : nat) | UTimes (i j : nat) | UOver (i j : nat).

Inductive prog :=
| Var (i : nat)                                  (* an input or a variable *)
| Lit (s : storage) (a : num)                    (* a bare number *)
| Convert (a : prog)                             (* [Quantity::from(a)] *)
| Zero (s : storage) (d : dimval)                (* [Quantity::<s, d>::default()], [zero()] *)
| New (u : unit_expr) (a : prog)                 (* [u.new(a)] *)
| NumberTimes (a : prog) (u : unit_expr)         (* [a * u], [u * a] for a bare number [a] *)
| NumberOver (a : prog) (u : unit_expr)          (* [a / u] for a bare number [a] *)
| UnitOverNumber (u : unit_expr) (a : prog)      (* [u / a] for a bare number [a] *)
| Times (a : prog) (u : unit_expr)               (* [a * u] for a quantity [a] *)
| TimesLeft (u : unit_expr) (a : prog)           (* [u * a] for a quantity [a] *)
| Over (a : prog) (u : unit_expr)                (* [a / u] for a quantity [a] *)
| UnitOver (u : unit_expr) (a : prog)            (* [u / a] for a quantity [a] *)
| ValueIn (a : prog) (u : unit_expr)             (* [a.value_in(u)] *)
| Constant (c : nat)                             (* [c.new(1.0)]: constants are generated as units (units_and_constants.rs:74-82) *)
| Bin (op : trait) (a b : prog)                  (* [a + b] etc.; [a += b] etc.: the updated [a] *)
| Neg (a : prog)
| Sum (s : storage) (d : dimval) (items : progs) (* [iter.sum::<Quantity<s, d>>()] *)
| Call (m : method) (a : prog)
| Call2 (m : arg_method) (a b c : prog)          (* [min], [max] (without [c]), [clamp] *)
| CallVec (v : vector_type) (o : vec_op) (args : progs)
| Compare (r : relation) (a b : prog)
| If (c a b : prog)
| Let (a b : prog)                               (* [b] sees the value of [a] as variable 0 *)
| Repeat (n : nat) (a b : prog)                  (* [let mut x = a; for _ in 0..n { x = b }; x] *)
with progs := Nil | Cons (a : prog) (rest : progs).

(** *** Types *)
Inductive type := T (b : base_ty X) | Bool.
Definition quantity (s : storage) (d : dimval) : type := T (TyQ (Known s) d).
Definition number (s : storage) : type := T (TyS (Known s)).

(** A dimension that can be written down: one valid exponent for each base dimension. *)
Definition is_dimension (d : dimval) : Prop := exists v, stands_for X fields (laws k) d v.
Definition type_ok (t : type) : Prop := match t with T (TyQ _ d) => is_dimension d | _ => True end.

(** The dimensions of the system's units and of its constants. *)
Context (units constants : list dimval).

Inductive unit_typed : unit_expr -> dimval -> Prop :=
| UT_U i d : nth_error units i = Some d -> unit_typed (U i) d
| UT_Times i j d1 d2 d : nth_error units i = Some d1 -> nth_error units j = Some d2 ->
    dim_add X fields d1 d2 = Some d -> unit_typed (UTimes i j) d
| UT_Over i j d1 d2 d : nth_error units i = Some d1 -> nth_error units j = Some d2 ->
    dim_sub X fields d1 d2 = Some d -> unit_typed (UOver i j) d.

(** With [strict], without the four operations that escape the dimensional discipline: dividing a
    bare number by a unit and a unit by a quantity (C11), [value_in] with a unit of another dimension
    (C14), and [value_unchecked]. *)
Context (strict : bool).

Inductive typed (G : list type) : prog -> type -> Prop :=
| T_Var i t : nth_error G i = Some t -> typed G (Var i) t
| T_Lit s a : typed G (Lit s a) (number s)
(* num_traits/mod.rs:52-66 *)
| T_Convert a s b : typed G a (number s) -> from_number_compiles X fields (Known s) b -> typed G (Convert a) (T b)
| T_Zero s d : is_dimension d -> typed G (Zero s d) (quantity s d)
(* unit_type.rs:97-104, 158-165 *)
| T_New u d a f : unit_typed u d -> typed G a (number (Float f)) -> typed G (New u a) (quantity (Float f) d)
(* unit_type.rs:201-206, 217-222, 233-238, 249-254 *)
| T_NumberTimes u d a s : unit_typed u d -> typed G a (number s) -> typed G (NumberTimes a u) (quantity s d)
(* unit_type.rs:209-214, 241-246 *)
| T_NumberOver u d a s : strict = false -> unit_typed u d -> typed G a (number s) ->
    typed G (NumberOver a u) (quantity s d)
(* unit_type.rs:225-230, 257-262 *)
| T_UnitOverNumber u d a s : unit_typed u d -> typed G a (number s) -> typed G (UnitOverNumber u a) (quantity s d)
(* unit_type.rs:59-69, 120-130 *)
| T_Times u d a f d1 d2 : unit_typed u d -> typed G a (quantity (Float f) d1) ->
    dim_add X fields d1 d = Some d2 -> typed G (Times a u) (quantity (Float f) d2)
(* unit_type.rs:46-56, 107-117 *)
| T_TimesLeft u d a f d1 d2 : unit_typed u d -> typed G a (quantity (Float f) d1) ->
    dim_add X fields d d1 = Some d2 -> typed G (TimesLeft u a) (quantity (Float f) d2)
(* unit_type.rs:85-95, 146-156 *)
| T_Over u d a f d1 d2 : unit_typed u d -> typed G a (quantity (Float f) d1) ->
    dim_sub X fields d1 d = Some d2 -> typed G (Over a u) (quantity (Float f) d2)
(* unit_type.rs:72-82, 133-143 *)
| T_UnitOver u d a f d1 d2 : strict = false -> unit_typed u d -> typed G a (quantity (Float f) d1) ->
    dim_sub X fields d d1 = Some d2 -> typed G (UnitOver u a) (quantity (Float f) d2)
(* quantity_type.rs:60-67 *)
| T_ValueIn u d a f d1 : unit_typed u d -> typed G a (quantity (Float f) d1) -> (strict = true -> d1 = d) ->
    typed G (ValueIn a u) (number (Float f))
(* units_and_constants.rs:64-93 *)
| T_Constant c d f : nth_error constants c = Some d -> typed G (Constant c) (quantity (Float f) d)
(* operator_trait.rs *)
| T_Bin op a b b1 b2 s d : typed G a (T b1) -> typed G b (T b2) ->
    compiles X fields std_raw_op std_raw_copy ft op (Value, b1) (Value, b2) (Some (s, d)) ->
    typed G (Bin op a b) (T (TyQ s d))
| T_Assign op a b b1 b2 : In op [TAddAssign; TSubAssign; TMulAssign; TDivAssign] ->
    typed G a (T b1) -> typed G b (T b2) ->
    compiles X fields std_raw_op std_raw_copy ft op (Value, b1) (Value, b2) None -> typed G (Bin op a b) (T b1)
(* num_traits/mod.rs:38-50, 22-36 *)
| T_Neg a s d : typed G a (quantity s d) -> typed G (Neg a) (quantity s d)
| T_Sum items s d : is_dimension d -> typed_all G items (quantity s d) -> typed G (Sum s d items) (quantity s d)
(* float_methods.rs, generic_methods.rs, quantity_type.rs *)
| T_Call_quantity m a s d s' d' : typed G a (quantity s d) -> method_ok X fields ft math m (Known s) d (ResQ s' d') ->
    typed G (Call m a) (T (TyQ s' d'))
| T_Call_number m a s d s' : typed G a (quantity s d) -> method_ok X fields ft math m (Known s) d (ResRaw s') ->
    (strict = true -> m <> MValueUnchecked /\ m <> MValueUncheckedRef) -> typed G (Call m a) (T (TyS s'))
| T_Call_test m a s d : typed G a (quantity s d) -> method_ok X fields ft math m (Known s) d ResBool ->
    typed G (Call m a) Bool
| T_Call2 m a b c s d q s' d' : typed G a (quantity s d) -> typed G b (T q) -> typed G c (T q) ->
    arg_method_ok X fields ft m (Known s) d q (ResQ s' d') -> typed G (Call2 m a b c) (T (TyQ s' d'))
(* vector_methods.rs *)
| T_CallVec v o args ts r : typed_each G args ts -> vec_call X fields ft v o ts r ->
    type_ok (T r) -> typed G (CallVec v o args) (T r)
| T_Compare r a b b1 b2 : typed G a (T b1) -> typed G b (T b2) ->
    compares X fields std_raw_op std_raw_copy ft (trait_of r) (Value, b1) (Value, b2) -> typed G (Compare r a b) Bool
| T_If c a b t : typed G c Bool -> typed G a t -> typed G b t -> typed G (If c a b) t
| T_Let a b t t' : typed G a t -> typed (t :: G) b t' -> typed G (Let a b) t'
| T_Repeat n a b t : typed G a t -> typed (t :: G) b t -> typed G (Repeat n a b) t
with typed_all (G : list type) : progs -> type -> Prop :=
| A_Nil t : typed_all G Nil t
| A_Cons a rest t : typed G a t -> typed_all G rest t -> typed_all G (Cons a rest) t
with typed_each (G : list type) : progs -> list (base_ty X) -> Prop :=
| E_Nil : typed_each G Nil []
| E_Cons a rest b bs : typed G a (T b) -> typed_each G rest bs -> typed_each G (Cons a rest) (b :: bs).

(** *** Running *)
(** The factors of the units and the stored values of the constants. *)
Section Eval.
Context (functions : float_fn -> R -> option R) (factors cvals : list R).

Definition factor_of (u : unit_expr) : option R :=
  match u with
  | U i => nth_error factors i
  | UTimes i j => let? x := nth_error factors i in let? y := nth_error factors j in Some (x * y)
  | UOver i j => let? x := nth_error factors i in let? y := nth_error factors j in arith1 TDiv x y
  end.
Definition get_num (v : val) : option num := match v with VNum a => Some a | VBool _ => None end.
Definition with_unit (op : trait) (v : val) (u : unit_expr) : option val :=
  let? a := get_num v in let? f := factor_of u in option_map VNum (arith op a (Sc f)).
Definition unit_with (op : trait) (u : unit_expr) (v : val) : option val :=
  let? a := get_num v in let? f := factor_of u in option_map VNum (arith op (Sc f) a).
Definition neg_num (a : num) : num := match a with Sc x => Sc (- x) | Ve xs => Ve (map Ropp xs) end.
Fixpoint sum_nums (total : num) (items : list num) : option num :=
  match items with [] => Some total | a :: r => let? t := arith TAddAssign total a in sum_nums t r end.

(** Each line computes what the body at the line cited in [typed] computes; [u / a] for a quantity
    [a] is [a / u] in the code (C11). *)
Fixpoint eval (rho : list val) (p : prog) {struct p} : option val :=
  match p with
  | Var i => nth_error rho i
  | Lit _ a => Some (VNum a)
  | Convert a => eval rho a
  | Zero s _ => Some (VNum (zero_of s))
  | New u a | NumberTimes a u | Times a u => let? v := eval rho a in with_unit TMul v u
  | TimesLeft u a => let? v := eval rho a in with_unit TMul v u
  | NumberOver a u | Over a u | ValueIn a u => let? v := eval rho a in with_unit TDiv v u
  | UnitOver u a => let? v := eval rho a in with_unit TDiv v u
  | UnitOverNumber u a => let? v := eval rho a in unit_with TDiv u v
  | Constant c => option_map (fun x => VNum (Sc x)) (nth_error cvals c)
  | Bin op a b =>
      let? v := eval rho a in let? w := eval rho b in
      let? x := get_num v in let? y := get_num w in option_map VNum (arith op x y)
  | Neg a => let? v := eval rho a in let? x := get_num v in Some (VNum (neg_num x))
  | Sum s _ items =>
      let? vs := eval_all rho items in let? xs := mapM get_num vs in
      option_map VNum (sum_nums (zero_of s) xs)
  | Call m a => let? v := eval rho a in let? x := get_num v in method_real functions m x
  | Call2 m a b c =>
      let? v := eval rho a in let? w := eval rho b in let? z := eval rho c in
      let? x := get_num v in let? y := get_num w in let? t := get_num z in arg_method_real m x y t
  | CallVec ty o args =>
      let? vs := eval_all rho args in let? xs := mapM get_num vs in option_map VNum (vec_real ty o xs)
  | Compare r a b =>
      let? v := eval rho a in let? w := eval rho b in
      let? x := get_num v in let? y := get_num w in option_map VBool (compare_num r x y)
  | If c a b =>
      let? v := eval rho c in
      match v with VBool true => eval rho a | VBool false => eval rho b | VNum _ => None end
  | Let a b => let? v := eval rho a in eval (v :: rho) b
  | Repeat n a b => Nat.iter n (fun x => let? v := x in eval (v :: rho) b) (eval rho a)
  end
with eval_all (rho : list val) (ps : progs) {struct ps} : option (list val) :=
  match ps with
  | Nil => Some []
  | Cons a rest => let? v := eval rho a in let? vs := eval_all rho rest in Some (v :: vs)
  end.
End Eval.
End Programs.
Arguments T {k}. Arguments Bool {k}. Arguments quantity {k}. Arguments number {k}.
Arguments Var {k}. Arguments Lit {k}. Arguments Convert {k}. Arguments Zero {k}. Arguments New {k}.
Arguments NumberTimes {k}. Arguments NumberOver {k}. Arguments UnitOverNumber {k}. Arguments Times {k}.
Arguments TimesLeft {k}. Arguments Over {k}. Arguments UnitOver {k}. Arguments ValueIn {k}.
Arguments Constant {k}. Arguments Bin {k}. Arguments Neg {k}. Arguments Sum {k}. Arguments Call {k}.
Arguments Call2 {k}. Arguments CallVec {k}. Arguments Compare {k}. Arguments If {k}. Arguments Let {k}.
Arguments Repeat {k}. Arguments Nil {k}. Arguments Cons {k}. Arguments eval {k}. Arguments eval_all {k}.
Scheme typed_mind := Minimality for typed Sort Prop
with typed_all_mind := Minimality for typed_all Sort Prop
with typed_each_mind := Minimality for typed_each Sort Prop.
Combined Scheme typed_mutind from typed_mind, typed_all_mind, typed_each_mind.
