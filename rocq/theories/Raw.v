(** * Raw numbers: the values stored in quantities (f32, f64 and glam vectors)

    Not part of /repo: semantics of the primitive and glam types.  A glam vector is the list of its
    components; glam's operators on vectors act component by component. *)
From Coq Require Import ZArith Bool List.
From Flocq Require Import IEEE754.Binary IEEE754.Bits.
From Verif Require Import MachineInt Ratio F64 Magnitude Storage.
Import ListNotations.

Inductive raw := RF32 (x : f32) | RF64 (x : f64) | RVec32 (xs : list f32) | RVec64 (xs : list f64).

(** core: [*] and [/] on floats; glam: vector with scalar, scalar with vector. *)
Definition raw_mul (a b : raw) : option raw :=
  match a, b with
  | RF32 x, RF32 y => Some (RF32 (f32_mul x y))
  | RF64 x, RF64 y => Some (RF64 (f64_mul x y))
  | RVec32 xs, RF32 y => Some (RVec32 (map (fun x => f32_mul x y) xs))
  | RVec64 xs, RF64 y => Some (RVec64 (map (fun x => f64_mul x y) xs))
  | RF32 x, RVec32 ys => Some (RVec32 (map (fun y => f32_mul x y) ys))
  | RF64 x, RVec64 ys => Some (RVec64 (map (fun y => f64_mul x y) ys))
  | _, _ => None
  end.
Definition raw_div (a b : raw) : option raw :=
  match a, b with
  | RF32 x, RF32 y => Some (RF32 (f32_div x y))
  | RF64 x, RF64 y => Some (RF64 (f64_div x y))
  | RVec32 xs, RF32 y => Some (RVec32 (map (fun x => f32_div x y) xs))
  | RVec64 xs, RF64 y => Some (RVec64 (map (fun x => f64_div x y) xs))
  | RF32 x, RVec32 ys => Some (RVec32 (map (fun y => f32_div x y) ys))
  | RF64 x, RVec64 ys => Some (RVec64 (map (fun y => f64_div x y) ys))
  | _, _ => None
  end.

(** magnitude.rs:96-110, 128-142: [S * Magnitude] and [S / Magnitude] exist for f64 and f32 only. *)
Definition raw_mul_mag (env : fenv) (a : raw) (m : magnitude) : option raw :=
  match a with
  | RF32 x => Some (RF32 (f32_mul_mag env x m))
  | RF64 x => Some (RF64 (f64_mul_mag env x m))
  | _ => None
  end.
Definition raw_div_mag (env : fenv) (a : raw) (m : magnitude) : option raw :=
  match a with
  | RF32 x => Some (RF32 (f32_div_mag env x m))
  | RF64 x => Some (RF64 (f64_div_mag env x m))
  | _ => None
  end.

(** storage_types.rs:32-50 ([base_storage]), 102-125: the conversion method of the type's base storage
    (unit_type.rs:182-187). *)
Definition conversion (env : fenv) (a : raw) (m : magnitude) : raw :=
  match a with
  | RF32 _ | RVec32 _ => RF32 (into_f32 env m)
  | RF64 _ | RVec64 _ => RF64 (into_f64 env m)
  end.
