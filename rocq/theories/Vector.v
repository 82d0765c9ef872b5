(** * Model of codegen/vector_methods.rs: methods of vector quantities *)
From Coq Require Import String ZArith Bool List.
From Flocq Require Import Core IEEE754.Binary IEEE754.Bits.
From Verif Require Import MachineInt Ratio F64 FloatOps Magnitude Exponent SMap Types CodegenDimension
  Storage Operators Raw FloatMethods.
Import ListNotations.

Inductive axis := AxX | AxY | AxZ.
(** vector_methods.rs:73-147, in order. *)
Inductive vec_op :=
| VNew | VNewAxis (a : axis) | VGet (a : axis) | VSet (a : axis) | VZero | VMin | VMax
| VLength | VDistance | VDistanceSquared | VNormalize | VDot.

Definition axis_index (a : axis) : nat := match a with AxX => 0 | AxY => 1 | AxZ => 2 end.
(** vector_methods.rs:24-50: the [z] methods are generated for three components only. *)
Definition has_axis (v : vector_type) (a : axis) : Prop := axis_index a < num_dims v.

Section Types.
Context (X : exp_ops) (fields : list string) (ft : features).
Notation dimval := (dimval X).
Notation base_ty := (base_ty X).
(** [vec_call v o args r]: the method [o] of [Quantity<v, D>] exists for some D such that it takes
    arguments of the types [args] (including [self], references dropped) and returns [r].  For the
    setters, which return nothing, [r] is the type of the updated receiver.
    [dot] names [Dimension] and [Quantity] literally (vector_methods.rs:141-143); the model assumes
    that the system's types have these names. *)
Definition vec_call (v : vector_type) (o : vec_op) (args : list base_ty) (r : base_ty) : Prop :=
  In v (vector_types ft) /\ exists d : dimval,
  let vec := TyQ (Known (Vector v)) d in
  let flt := TyQ (Known (Float (component v))) d in
  match o with
  (* vector_methods.rs:51-71 *)
  | VNew => args = repeat flt (num_dims v) /\ r = vec
  (* vector_methods.rs:24-32, 76-82 *)
  | VNewAxis a => has_axis v a /\ args = [flt] /\ r = vec
  (* vector_methods.rs:33-41, 86-92 *)
  | VGet a => has_axis v a /\ args = [vec] /\ r = flt
  (* vector_methods.rs:42-50, 96-102 *)
  | VSet a => has_axis v a /\ args = [vec; flt] /\ r = vec
  (* vector_methods.rs:106-108 *)
  | VZero => args = [] /\ r = vec
  (* vector_methods.rs:110-116 *)
  | VMin | VMax => args = [vec; vec] /\ r = vec
  (* vector_methods.rs:118-120 *)
  | VLength => args = [vec] /\ r = flt
  (* vector_methods.rs:122-124 *)
  | VDistance => args = [vec; vec] /\ r = flt
  (* vector_methods.rs:126-134 *)
  | VDistanceSquared => args = [vec; vec] /\
      exists d', dim_mul X fields d 2 = Some d' /\ r = TyQ (Known (Float (component v))) d'
  (* vector_methods.rs:136-138 *)
  | VNormalize => args = [vec] /\ exists d', dim_none X fields = Some d' /\ r = TyQ (Known (Vector v)) d'
  (* vector_methods.rs:140-146 *)
  | VDot => exists dr d', args = [vec; TyQ (Known (Vector v)) dr] /\
      dim_add X fields d dr = Some d' /\ r = TyQ (Known (Float (component v))) d'
  end.
End Types.

(** ** Values *)
(** glam 0.24's scalar implementation of Vec2, Vec3, DVec2, DVec3, in either format: a vector is the
    list of its components.  Not part of /repo. *)
Section Glam.
Context {F : Type} (add sub mul div : F -> F -> F) (sqrt : F -> F) (fmin fmax : F -> F -> F) (zero one : F).
Definition g_zip (f : F -> F -> F) (xs ys : list F) : list F := map (fun p => f (fst p) (snd p)) (combine xs ys).
(** [(x*x') + (y*y') + (z*z')] *)
Definition g_dot (xs ys : list F) : F :=
  match g_zip mul xs ys with p :: ps => fold_left add ps p | [] => zero end.
Definition g_length (xs : list F) : F := sqrt (g_dot xs xs).
Definition g_distance (xs ys : list F) : F := g_length (g_zip sub xs ys).
Definition g_distance_squared (xs ys : list F) : F := let d := g_zip sub xs ys in g_dot d d.
(** [self * self.length().recip()] *)
Definition g_normalize (xs : list F) : list F := let r := div one (g_length xs) in map (fun x => mul x r) xs.
(** [Vec3::X] and so on. *)
Definition g_axis (n : nat) (a : axis) : list F :=
  map (fun i => if Nat.eqb i (axis_index a) then one else zero) (seq 0 n).
Fixpoint g_set (i : nat) (x : F) (xs : list F) : list F :=
  match xs, i with
  | _ :: r, O => x :: r
  | y :: r, S i => y :: g_set i x r
  | [], _ => []
  end.

(** The bodies at the lines cited in [vec_call]; [args] are the stored values, the first of a method
    with a receiver being the receiver's.  A scalar is a list of one component. *)
Definition g_value (n : nat) (o : vec_op) (args : list (list F)) : option (list F) :=
  match o, args with
  | VNew, _ => Some (concat args)
  | VNewAxis a, [[q]] => Some (map (fun y => mul q y) (g_axis n a))
  | VGet a, [xs] => option_map (fun x => [x]) (nth_error xs (axis_index a))
  | VSet a, [xs; [q]] => Some (g_set (axis_index a) q xs)
  | VZero, [] => Some (repeat zero n)
  | VMin, [xs; ys] => Some (g_zip fmin xs ys)
  | VMax, [xs; ys] => Some (g_zip fmax xs ys)
  | VLength, [xs] => Some [g_length xs]
  | VDistance, [xs; ys] => Some [g_distance xs ys]
  | VDistanceSquared, [xs; ys] => Some [g_distance_squared xs ys]
  | VNormalize, [xs] => Some (g_normalize xs)
  | VDot, [xs; ys] => Some [g_dot xs ys]
  | _, _ => None
  end.
End Glam.

(** In the two formats; min and max are core's. *)
Definition vec_value32 (M : math) : nat -> vec_op -> list (list f32) -> option (list f32) :=
  g_value f32_add f32_sub f32_mul f32_div f32_sqrt (m_min (math32 M)) (m_max (math32 M)) f32_zero f32_one.
Definition vec_value64 (M : math) : nat -> vec_op -> list (list f64) -> option (list f64) :=
  g_value f64_add f64_sub f64_mul f64_div f64_sqrt (m_min (math64 M)) (m_max (math64 M)) f64_zero f64_one.

Definition comps32 (r : raw) : option (list f32) :=
  match r with RF32 x => Some [x] | RVec32 xs => Some xs | _ => None end.
Definition comps64 (r : raw) : option (list f64) :=
  match r with RF64 x => Some [x] | RVec64 xs => Some xs | _ => None end.
Fixpoint all_some {A} (l : list (option A)) : option (list A) :=
  match l with
  | [] => Some []
  | Some x :: r => option_map (cons x) (all_some r)
  | None :: _ => None
  end.
Definition scalar_result (o : vec_op) : bool :=
  match o with VGet _ | VLength | VDistance | VDistanceSquared | VDot => true | _ => false end.
Definition as_raw {F} (scalar : F -> raw) (vector : list F -> raw) (o : vec_op) (xs : list F) : option raw :=
  if scalar_result o then match xs with [x] => Some (scalar x) | _ => None end else Some (vector xs).
(** The stored result of method [o] of vector type [v] on stored arguments. *)
Definition vec_value (M : math) (v : vector_type) (o : vec_op) (args : list raw) : option raw :=
  match component v with
  | F32 =>
      match all_some (map comps32 args) with
      | Some a => match vec_value32 M (num_dims v) o a with Some r => as_raw RF32 RVec32 o r | None => None end
      | None => None
      end
  | F64 =>
      match all_some (map comps64 args) with
      | Some a => match vec_value64 M (num_dims v) o a with Some r => as_raw RF64 RVec64 o r | None => None end
      | None => None
      end
  end.
