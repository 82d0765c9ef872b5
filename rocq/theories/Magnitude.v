(** * Model of diman_lib/src/magnitude.rs and diman_lib/src/dimension_exponent.rs *)
From Coq Require Import ZArith Bool.
From Flocq Require Import IEEE754.Binary IEEE754.Bits.
From Verif Require Import MachineInt Ratio F64.
Local Open Scope Z_scope.

(** magnitude.rs:14-19; derived [PartialEq] is structural. *)
Record magnitude := mkMag { mantissa : Z; mexponent : Z; msign : Z }.

(** The floating-point library functions the code calls but does not define:
    [f64::powi] (core/compiler-rt or num-traits) and [f64::powf] (libm).  They are parameters
    of the model; [F64.powi_rt] and [F64.powi_nt] are the two [powi] algorithms in use. *)
Record fenv := mkFenv { f_powi : f64 -> Z -> f64; f_powf : f64 -> f64 -> f64 }.

(** magnitude.rs:22-34. *)
Definition integer_decode_f64 (f : f64) : Z * Z * Z :=
  let bits := bits_of_b64 f in
  let sign := if Z.shiftr bits 63 =? 0 then 1 else -1 in
  let exponent := Z.land (Z.shiftr bits 52) 2047 in
  let frac := Z.land bits 4503599627370495 in
  let mant := if exponent =? 0 then Z.shiftl frac 1 else Z.lor frac 4503599627370496 in
  (mant, exponent - (1023 + 52), sign).

(** magnitude.rs:37-44. *)
Definition from_f64 (f : f64) : magnitude :=
  let '(m, e, s) := integer_decode_f64 f in mkMag m e s.

Section Env.
Context (env : fenv).

(** magnitude.rs:46-48: [sign as f64 * mantissa as f64 * 2.0f64.powi(exponent as i32)]. *)
Definition into_f64 (x : magnitude) : f64 :=
  f64_mul (f64_mul (f64_of_Z (msign x)) (f64_of_Z (mantissa x)))
          (f_powi env (f64_of_Z 2) (mexponent x)).

(** magnitude.rs:50-52. *)
Definition into_f32 (x : magnitude) : f32 := f64_to_f32 (into_f64 x).

(** magnitude.rs:54-57. *)
Definition pow_rational (x : magnitude) (n d : Z) : magnitude :=
  from_f64 (f_powf env (into_f64 x) (f64_div (f64_of_Z n) (f64_of_Z d))).

(** magnitude.rs:59-61. *)
Definition is_one (x : magnitude) : bool := f64_eqb (into_f64 x) f64_one.

(** magnitude.rs:64-78: [Magnitude * Magnitude], [Magnitude / Magnitude]. *)
Definition mag_mul (x y : magnitude) : magnitude := from_f64 (f64_mul (into_f64 x) (into_f64 y)).
Definition mag_div (x y : magnitude) : magnitude := from_f64 (f64_div (into_f64 x) (into_f64 y)).

(** magnitude.rs:80-94: [Magnitude * f64], [Magnitude / f64]. *)
Definition mag_mul_f64 (x : magnitude) (y : f64) : magnitude := from_f64 (f64_mul (into_f64 x) y).
Definition mag_div_f64 (x : magnitude) (y : f64) : magnitude := from_f64 (f64_div (into_f64 x) y).

(** magnitude.rs:96-110: [f64 * Magnitude], [f64 / Magnitude]. *)
Definition f64_mul_mag (x : f64) (y : magnitude) : f64 := f64_mul x (into_f64 y).
Definition f64_div_mag (x : f64) (y : magnitude) : f64 := f64_div x (into_f64 y).

(** magnitude.rs:112-126: [Magnitude * f32], [Magnitude / f32]. *)
Definition mag_mul_f32 (x : magnitude) (y : f32) : magnitude :=
  from_f64 (f32_to_f64 (f32_mul (into_f32 x) y)).
Definition mag_div_f32 (x : magnitude) (y : f32) : magnitude :=
  from_f64 (f32_to_f64 (f32_div (into_f32 x) y)).

(** magnitude.rs:128-142: [f32 * Magnitude], [f32 / Magnitude]. *)
Definition f32_mul_mag (x : f32) (y : magnitude) : f32 := f32_mul x (into_f32 y).
Definition f32_div_mag (x : f32) (y : magnitude) : f32 := f32_div x (into_f32 y).

(** dimension_exponent.rs:28-30: [float_pow] for [i64] exponents ([exponent as i32] truncates). *)
Definition float_pow_i64 (x : magnitude) (e : Z) : magnitude :=
  from_f64 (f_powi env (into_f64 x) (as_i32 e)).

(** ratio.rs:96-98: [float_pow] for [Ratio] exponents. *)
Definition float_pow_ratio (x : magnitude) (e : ratio) : magnitude :=
  pow_rational x (num e) (denom e).
End Env.

(** Structural equality test (derived [PartialEq]). *)
Definition mag_eqb (x y : magnitude) : bool :=
  (mantissa x =? mantissa y) && (mexponent x =? mexponent y) && (msign x =? msign y).
