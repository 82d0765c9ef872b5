(** * More of Rust's [f32]/[f64]: comparisons, abs, sqrt, clamp, sums and powi

    Not part of /repo: semantics of core's float methods, for both formats at once. *)
From Coq Require Import ZArith Bool List.
From Flocq Require Import Core IEEE754.Binary IEEE754.Bits.
From Verif Require Import MachineInt Ratio F64.
Import ListNotations.

Definition f32_add : f32 -> f32 -> f32 := b32_plus mode_NE.
Definition f32_sub : f32 -> f32 -> f32 := b32_minus mode_NE.
Definition f64_sqrt : f64 -> f64 := b64_sqrt mode_NE.
Definition f32_sqrt : f32 -> f32 := b32_sqrt mode_NE.

Section Ops.
Context {prec emax : Z}.
Notation fl := (binary_float prec emax).

(** core: [PartialOrd::partial_cmp] and the comparison operators. *)
Definition fcmp (x y : fl) : option comparison := Bcompare prec emax x y.
Definition flt (x y : fl) : bool := match fcmp x y with Some Lt => true | _ => false end.
Definition fle (x y : fl) : bool := match fcmp x y with Some Lt | Some Eq => true | _ => false end.

(** core: [abs] clears the sign bit. *)
Definition fabs (x : fl) : fl :=
  match x with
  | B754_zero _ _ _ => B754_zero _ _ false
  | B754_infinity _ _ _ => B754_infinity _ _ false
  | B754_nan _ _ _ pl H => B754_nan _ _ false pl H
  | B754_finite _ _ _ m e H => B754_finite _ _ false m e H
  end.

(** core: [f64::clamp]: panics ([None]) unless [min <= max]. *)
Definition fclamp (x lo hi : fl) : option fl :=
  if fle lo hi
  then let x := if flt x lo then lo else x in Some (if flt hi x then hi else x)
  else None.

(** core: the documented behaviour of [f64::min]/[f64::max]: a NaN argument is ignored, and which of
    two equal arguments is returned is not specified ([-0.0] and [0.0]). *)
Record min_contract (fmin : fl -> fl -> fl) : Prop := {
  min_nan_l : forall x y, is_nan _ _ x = true -> is_nan _ _ y = false -> fmin x y = y;
  min_nan_r : forall x y, is_nan _ _ y = true -> is_nan _ _ x = false -> fmin x y = x;
  min_nan_both : forall x y, is_nan _ _ x = true -> is_nan _ _ y = true -> is_nan _ _ (fmin x y) = true;
  min_lt : forall x y, fcmp x y = Some Lt -> fmin x y = x;
  min_gt : forall x y, fcmp x y = Some Gt -> fmin x y = y;
  min_eq : forall x y, fcmp x y = Some Eq -> fmin x y = x \/ fmin x y = y }.
Record max_contract (fmax : fl -> fl -> fl) : Prop := {
  max_nan_l : forall x y, is_nan _ _ x = true -> is_nan _ _ y = false -> fmax x y = y;
  max_nan_r : forall x y, is_nan _ _ y = true -> is_nan _ _ x = false -> fmax x y = x;
  max_nan_both : forall x y, is_nan _ _ x = true -> is_nan _ _ y = true -> is_nan _ _ (fmax x y) = true;
  max_lt : forall x y, fcmp x y = Some Lt -> fmax x y = y;
  max_gt : forall x y, fcmp x y = Some Gt -> fmax x y = x;
  max_eq : forall x y, fcmp x y = Some Eq -> fmax x y = x \/ fmax x y = y }.
(** One implementation each. *)
Definition min_impl (x y : fl) : fl :=
  if is_nan _ _ x then y else match fcmp x y with Some Gt => y | _ => x end.
Definition max_impl (x y : fl) : fl :=
  if is_nan _ _ x then y else match fcmp x y with Some Lt => y | _ => x end.
End Ops.

(** compiler-rt's [__powidf2]/[__powisf2]: square and multiply, reciprocal at the end. *)
Section Powi.
Context {F : Type} (mul div : F -> F -> F) (one : F).
Fixpoint gpowi_pos (r a : F) (n : positive) : F :=
  match n with
  | xH => mul r a
  | xO n' => gpowi_pos r (mul a a) n'
  | xI n' => gpowi_pos (mul r a) (mul a a) n'
  end.
Definition gpowi (a : F) (n : Z) : F :=
  match n with
  | Z0 => one
  | Zpos p => gpowi_pos one a p
  | Zneg p => div one (gpowi_pos one a p)
  end.
End Powi.
Definition f32_one : f32 := f64_to_f32 f64_one.
Definition f32_zero : f32 := f64_to_f32 f64_zero.
Definition powi_rt32 : f32 -> Z -> f32 := gpowi f32_mul f32_div f32_one.
Lemma powi_rt_eq x n : powi_rt x n = gpowi f64_mul f64_div f64_one x n.
Proof.
  assert (H : forall p r a, powi_rt_pos r a p = gpowi_pos f64_mul r a p).
  { induction p as [p IH|p IH|]; intros r a; cbn [powi_rt_pos gpowi_pos]; [apply IH|apply IH|reflexivity]. }
  destruct n; [reflexivity|apply H|]. cbn [powi_rt gpowi]. now rewrite H.
Qed.
