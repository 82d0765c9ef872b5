(** * Model of codegen/float_methods.rs, generic_methods.rs and the methods of quantity_type.rs *)
From Coq Require Import String ZArith Bool List.
From Flocq Require Import Core IEEE754.Binary IEEE754.Bits.
From Verif Require Import MachineInt Ratio F64 FloatOps Magnitude Exponent SMap Types CodegenDimension
  Storage Operators Raw.
Import ListNotations.

(** float_methods.rs:54-76. *)
Inductive float_fn :=
| Log2 | Ln | Log10 | Exp | Exp2 | Ceil | Floor | Sin | Cos | Tan | Asin | Acos | Atan
| Sinh | Cosh | Tanh | Asinh | Acosh | Atanh | ExpM1 | Ln1p.

(** Methods without arguments (and the static [zero]). *)
Inductive method :=
| MValue | MValueRef | MDeref | MValueUnchecked | MValueUncheckedRef
| MFn (f : float_fn)
| MSquared | MCubed | MPowi (i : Z) | MSqrt | MCbrt
| MZero | MIsPositive | MIsPositiveOrZero | MIsNegative | MIsNegativeOrZero | MIsNan
| MAbs.
(** float_methods.rs:146-156. *)
Inductive arg_method := MMin | MMax | MClamp.

Section Types.
Context (X : exp_ops) (fields : list string).
Notation dimval := (dimval X).
Inductive res_ty := ResQ (s : sty) (d : dimval) | ResRaw (s : sty) | ResBool.

(** [math]: feature [std] or [num-traits-libm] is on. *)
Context (ft : features) (math : bool).
Definition is_float (s : sty) : Prop := exists f, s = Known (Float f) /\ In f (float_types ft).
Definition is_storage_ty (s : sty) : Prop := exists c, s = Known c /\ In c (storage_types ft).

(** [m] can be called on a [Quantity<s, d>] and has the result type [r]. *)
Definition method_ok (m : method) (s : sty) (d : dimval) (r : res_ty) : Prop :=
  match m with
  (* quantity_type.rs:25-35, 69-75 *)
  | MValue | MValueRef | MDeref => dim_none X fields = Some d /\ r = ResRaw s
  (* quantity_type.rs:37-50 *)
  | MValueUnchecked | MValueUncheckedRef => r = ResRaw s
  (* float_methods.rs:23-38, 80-86 *)
  | MFn _ => math = true /\ is_float s /\ dim_none X fields = Some d /\ r = ResQ s d
  (* float_methods.rs:119-141 *)
  | MSquared => is_float s /\ exists d', dim_mul X fields d 2 = Some d' /\ r = ResQ s d'
  | MCubed => is_float s /\ exists d', dim_mul X fields d 3 = Some d' /\ r = ResQ s d'
  | MPowi i => (- 2 ^ 31 <= i < 2 ^ 31)%Z /\ is_float s /\ exists d', dim_mul X fields d i = Some d' /\ r = ResQ s d'
  (* float_methods.rs:101-114 *)
  | MSqrt => math = true /\ is_float s /\ exists d', dim_div2 X fields d = Some d' /\ r = ResQ s d'
  | MCbrt => math = true /\ is_float s /\ exists d', dim_div3 X fields d = Some d' /\ r = ResQ s d'
  (* float_methods.rs:158-180 *)
  | MZero => is_float s /\ r = ResQ s d
  | MIsPositive | MIsPositiveOrZero | MIsNegative | MIsNegativeOrZero | MIsNan =>
      is_float s /\ r = ResBool
  (* generic_methods.rs:8-30 *)
  | MAbs => is_storage_ty s /\ r = ResQ s d
  end.

(** [Q: Into<Quantity<s, d>>]: core's reflexive impl, or num_traits/mod.rs:52-66. *)
Definition into_quantity (q : base_ty X) (s : sty) (d : dimval) : Prop :=
  q = TyQ s d \/ exists src, q = TyS src /\ from_number_compiles X fields src (TyQ s d).
(** float_methods.rs:146-156: the argument type [q] (of both arguments of [clamp]). *)
Definition arg_method_ok (m : arg_method) (s : sty) (d : dimval) (q : base_ty X) (r : res_ty) : Prop :=
  is_float s /\ into_quantity q s d /\ r = ResQ s d.
End Types.
Arguments ResQ {X}. Arguments ResRaw {X}. Arguments ResBool {X}.

(** ** Values *)
(** What core, std or libm provide for one float type. *)
Record float_math (F : Type) := {
  m_powi : F -> Z -> F;
  m_fn : float_fn -> F -> F;
  m_cbrt : F -> F;
  m_min : F -> F -> F;
  m_max : F -> F -> F }.
Arguments m_powi {F}. Arguments m_fn {F}. Arguments m_cbrt {F}. Arguments m_min {F}. Arguments m_max {F}.
Record math := { math32 : float_math f32; math64 : float_math f64 }.

Section Values.
Context (M : math).
Inductive res := VQ (x : raw) | VRaw (x : raw) | VBool (b : bool).

(** Apply a float operation in the operand's format. *)
Definition on_float (g32 : f32 -> f32) (g64 : f64 -> f64) (x : raw) : option res :=
  match x with RF32 x => Some (VQ (RF32 (g32 x))) | RF64 x => Some (VQ (RF64 (g64 x))) | _ => None end.
Definition test_float (g32 : f32 -> bool) (g64 : f64 -> bool) (x : raw) : option res :=
  match x with RF32 x => Some (VBool (g32 x)) | RF64 x => Some (VBool (g64 x)) | _ => None end.

(** The bodies, at the lines cited in [method_ok]. *)
Definition method_value (m : method) (x : raw) : option res :=
  match m with
  | MValue | MValueRef | MDeref | MValueUnchecked | MValueUncheckedRef => Some (VRaw x)
  | MFn f => on_float (m_fn (math32 M) f) (m_fn (math64 M) f) x
  | MSquared => on_float (fun x => m_powi (math32 M) x 2) (fun x => m_powi (math64 M) x 2) x
  | MCubed => on_float (fun x => m_powi (math32 M) x 3) (fun x => m_powi (math64 M) x 3) x
  | MPowi i => on_float (fun x => m_powi (math32 M) x i) (fun x => m_powi (math64 M) x i) x
  | MSqrt => on_float f32_sqrt f64_sqrt x
  | MCbrt => on_float (m_cbrt (math32 M)) (m_cbrt (math64 M)) x
  | MZero => on_float (fun _ => f32_zero) (fun _ => f64_zero) x
  | MIsPositive => test_float (fun x => flt f32_zero x) (fun x => flt f64_zero x) x
  | MIsPositiveOrZero => test_float (fun x => fle f32_zero x) (fun x => fle f64_zero x) x
  | MIsNegative => test_float (fun x => flt x f32_zero) (fun x => flt x f64_zero) x
  | MIsNegativeOrZero => test_float (fun x => fle x f32_zero) (fun x => fle x f64_zero) x
  | MIsNan => test_float (is_nan 24 128) (is_nan 53 1024) x
  | MAbs =>
      match x with
      | RF32 x => Some (VQ (RF32 (fabs x)))
      | RF64 x => Some (VQ (RF64 (fabs x)))
      | RVec32 xs => Some (VQ (RVec32 (map fabs xs)))
      | RVec64 xs => Some (VQ (RVec64 (map fabs xs)))
      end
  end.

(** The outcome of a call that may panic. *)
Inductive outcome := Done (r : raw) | Panics.
Definition clamp_outcome {F} (inj : F -> raw) (r : option F) : outcome :=
  match r with Some x => Done (inj x) | None => Panics end.
(** float_methods.rs:146-156; [b] is the second argument of [clamp]. *)
Definition arg_method_value (m : arg_method) (x a b : raw) : option outcome :=
  match m, x, a, b with
  | MMin, RF32 x, RF32 a, _ => Some (Done (RF32 (m_min (math32 M) x a)))
  | MMin, RF64 x, RF64 a, _ => Some (Done (RF64 (m_min (math64 M) x a)))
  | MMax, RF32 x, RF32 a, _ => Some (Done (RF32 (m_max (math32 M) x a)))
  | MMax, RF64 x, RF64 a, _ => Some (Done (RF64 (m_max (math64 M) x a)))
  | MClamp, RF32 x, RF32 a, RF32 b => Some (clamp_outcome RF32 (fclamp x a b))
  | MClamp, RF64 x, RF64 a, RF64 b => Some (clamp_outcome RF64 (fclamp x a b))
  | _, _, _, _ => None
  end.
End Values.

(** num_traits/mod.rs:22-36 on floats and vectors: [Default] is zero, [+=] is IEEE addition,
    component by component. *)
Definition raw_add (a b : raw) : option raw :=
  match a, b with
  | RF32 x, RF32 y => Some (RF32 (f32_add x y))
  | RF64 x, RF64 y => Some (RF64 (f64_add x y))
  | RVec32 xs, RVec32 ys => Some (RVec32 (map (fun p => f32_add (fst p) (snd p)) (combine xs ys)))
  | RVec64 xs, RVec64 ys => Some (RVec64 (map (fun p => f64_add (fst p) (snd p)) (combine xs ys)))
  | _, _ => None
  end.
Definition raw_default (s : storage) : raw :=
  match s with
  | Float F32 => RF32 f32_zero
  | Float F64 => RF64 f64_zero
  | Vector v => match component v with
                | F32 => RVec32 (repeat f32_zero (num_dims v))
                | F64 => RVec64 (repeat f64_zero (num_dims v))
                end
  end.
(** [total = default; for item in iter { total += item }]. *)
Fixpoint sum_from (total : raw) (items : list raw) : option raw :=
  match items with
  | [] => Some total
  | x :: items => let? total := raw_add total x in sum_from total items
  end.
Definition raw_sum (s : storage) (items : list raw) : option raw := sum_from (raw_default s) items.
