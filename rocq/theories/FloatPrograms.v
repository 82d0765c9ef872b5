(** * Programs over quantities, run on floats

    The programs of Programs.v again, now computed by the operations the generated code performs on
    the stored numbers: [Magnitude]s are decoded, and every operation rounds.  Left out, [None]:
    literal numbers (they come in as variables) and [Constant] (constants are generated as units, so
    [U] covers them).  [None] is also the result of a program that panics. *)
From Coq Require Import String List Bool ZArith.
From Flocq Require Import IEEE754.Binary IEEE754.Bits.
From Verif Require Import MachineInt Ratio F64 FloatOps Magnitude Exponent Types CodegenDimension
  Setting Storage Operators Raw FloatMethods Vector Programs.
Import ListNotations.

(** core: the operators on floats; glam: component by component on two vectors, and a vector with a
    scalar on either side. *)
Definition raw_lift (g32 : f32 -> f32 -> f32) (g64 : f64 -> f64 -> f64) (a b : raw) : option raw :=
  match a, b with
  | RF32 x, RF32 y => Some (RF32 (g32 x y))
  | RF64 x, RF64 y => Some (RF64 (g64 x y))
  | RVec32 xs, RVec32 ys => Some (RVec32 (g_zip g32 xs ys))
  | RVec64 xs, RVec64 ys => Some (RVec64 (g_zip g64 xs ys))
  | RVec32 xs, RF32 y => Some (RVec32 (map (fun x => g32 x y) xs))
  | RVec64 xs, RF64 y => Some (RVec64 (map (fun x => g64 x y) xs))
  | RF32 x, RVec32 ys => Some (RVec32 (map (fun y => g32 x y) ys))
  | RF64 x, RVec64 ys => Some (RVec64 (map (fun y => g64 x y) ys))
  | _, _ => None
  end.
(** core and glam: negation. *)
Definition raw_neg (a : raw) : raw :=
  match a with
  | RF32 x => RF32 (b32_opp x)
  | RF64 x => RF64 (b64_opp x)
  | RVec32 xs => RVec32 (map b32_opp xs)
  | RVec64 xs => RVec64 (map b64_opp xs)
  end.
(** operator_trait.rs:469-508: the operator on the stored values ([raw_arith] of Operators.v). *)
Definition raw_op (op : trait) (a b : raw) : option raw :=
  match op with
  | TAdd | TAddAssign => raw_lift f32_add f64_add a b
  | TSub | TSubAssign => raw_lift f32_sub f64_sub a b
  | TMul | TMulAssign => raw_lift f32_mul f64_mul a b
  | TDiv | TDivAssign => raw_lift f32_div f64_div a b
  | TPartialEq | TPartialOrd => None
  end.
(** core: the six relations, by [PartialEq::eq] and [PartialOrd::partial_cmp] on floats. *)
Definition float_relation {prec emax} (r : relation) (x y : binary_float prec emax) : bool :=
  let same := match fcmp x y with Some Datatypes.Eq => true | _ => false end in
  match r with
  | Eq => same
  | Ne => negb same
  | Lt => flt x y
  | Le => fle x y
  | Gt => flt y x
  | Ge => fle y x
  end.
(** glam: vectors are equal if all components are, and have no order. *)
Definition vector_relation {prec emax} (r : relation) (xs ys : list (binary_float prec emax)) : option bool :=
  let same := forallb (fun p => float_relation Eq (fst p) (snd p)) (combine xs ys) in
  match r with Eq => Some same | Ne => Some (negb same) | _ => None end.
Definition raw_relation (r : relation) (a b : raw) : option bool :=
  match a, b with
  | RF32 x, RF32 y => Some (float_relation r x y)
  | RF64 x, RF64 y => Some (float_relation r x y)
  | RVec32 xs, RVec32 ys => vector_relation r xs ys
  | RVec64 xs, RVec64 ys => vector_relation r xs ys
  | _, _ => None
  end.

Inductive fval := FNum (x : raw) | FBool (b : bool).
Definition fnum (v : fval) : option raw := match v with FNum x => Some x | FBool _ => None end.
Definition of_res (r : res) : fval := match r with VQ x | VRaw x => FNum x | FloatMethods.VBool b => FBool b end.

Section Run.
(** [panic x]: what becomes of a call that panics, with [self] being [x]; [stop] in the code. *)
Definition stop (x : raw) : option raw := None.
Context {k : mode} (panic : raw -> option raw) (env : fenv) (M : math) (mags : list magnitude).

(** A unit (unit_type.rs:13) or a product or quotient of two (unit_type.rs:24-43). *)
Definition magnitude_of (u : unit_expr) : option magnitude :=
  match u with
  | U i => nth_error mags i
  | UTimes i j => let? x := nth_error mags i in let? y := nth_error mags j in Some (mag_mul env x y)
  | UOver i j => let? x := nth_error mags i in let? y := nth_error mags j in Some (mag_div env x y)
  end.
Definition with_mag (g : raw -> magnitude -> option raw) (v : fval) (u : unit_expr) : option fval :=
  let? x := fnum v in let? m := magnitude_of u in option_map FNum (g x m).

Fixpoint frun (rho : list fval) (p : prog k) {struct p} : option fval :=
  match p with
  | Var i => nth_error rho i
  | Lit _ _ | Constant _ => None
  (* num_traits/mod.rs:52-66 *)
  | Convert a => frun rho a
  | Zero s _ => Some (FNum (raw_default s))
  (* unit_type.rs:97-104, 158-165; 46-69, 107-130 *)
  | New u a | Times a u | TimesLeft u a => let? v := frun rho a in with_mag (raw_mul_mag env) v u
  (* unit_type.rs:72-95, 133-156; quantity_type.rs:60-67 *)
  | Over a u | UnitOver u a | ValueIn a u => let? v := frun rho a in with_mag (raw_div_mag env) v u
  (* unit_type.rs:201-206, 217-222, 233-238, 249-254 *)
  | NumberTimes a u => let? v := frun rho a in with_mag (fun x m => raw_mul x (conversion env x m)) v u
  (* unit_type.rs:209-214, 241-246 *)
  | NumberOver a u => let? v := frun rho a in with_mag (fun x m => raw_div x (conversion env x m)) v u
  (* unit_type.rs:225-230, 257-262 *)
  | UnitOverNumber u a => let? v := frun rho a in with_mag (fun x m => raw_div (conversion env x m) x) v u
  | Bin op a b =>
      let? v := frun rho a in let? w := frun rho b in
      let? x := fnum v in let? y := fnum w in option_map FNum (raw_op op x y)
  (* num_traits/mod.rs:38-50, 22-36 *)
  | Neg a => let? v := frun rho a in let? x := fnum v in Some (FNum (raw_neg x))
  | Sum s _ items =>
      let? vs := frun_all rho items in let? xs := mapM fnum vs in option_map FNum (raw_sum s xs)
  (* float_methods.rs, generic_methods.rs, quantity_type.rs *)
  | Call m a => let? v := frun rho a in let? x := fnum v in option_map of_res (method_value M m x)
  | Call2 m a b c =>
      let? v := frun rho a in let? w := frun rho b in let? z := frun rho c in
      let? x := fnum v in let? y := fnum w in let? t := fnum z in
      let? r := arg_method_value M m x y t in
      match r with Done r => Some (FNum r) | Panics => option_map FNum (panic x) end
  (* vector_methods.rs *)
  | CallVec ty o args =>
      let? vs := frun_all rho args in let? xs := mapM fnum vs in option_map FNum (vec_value M ty o xs)
  | Compare r a b =>
      let? v := frun rho a in let? w := frun rho b in
      let? x := fnum v in let? y := fnum w in option_map FBool (raw_relation r x y)
  | If c a b =>
      let? v := frun rho c in
      match v with FBool true => frun rho a | FBool false => frun rho b | FNum _ => None end
  | Let a b => let? v := frun rho a in frun (v :: rho) b
  | Repeat n a b => Nat.iter n (fun x => let? v := x in frun (v :: rho) b) (frun rho a)
  end
with frun_all (rho : list fval) (ps : progs k) {struct ps} : option (list fval) :=
  match ps with
  | Nil => Some []
  | Cons a rest => let? v := frun rho a in let? vs := frun_all rho rest in Some (v :: vs)
  end.
End Run.
