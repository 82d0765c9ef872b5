(** * Dimension exponents: the two builds of the library

    [types/mod.rs:16-20]: [Exponent] is [i64], or [Ratio] with the [rational-dimensions] feature.
    The operations below are the ones the macro (dimension_math.rs) and the generated code
    (codegen/dimension_type.rs) apply to exponents.  [None] is a panic (overflow with checks on,
    division by zero, or the explicit panics of [div_2]/[div_3]). *)
From Coq Require Import ZArith Bool String.
From Verif Require Import MachineInt Ratio F64 Magnitude.
Local Open Scope Z_scope.

Record exp_ops := {
  exT :> Type;
  e_eqb : exT -> exT -> bool;
  e_one : exT;
  e_zero : exT;
  e_add : exT -> exT -> option exT;
  e_sub : exT -> exT -> option exT;
  e_neg : exT -> option exT;
  e_mul : exT -> exT -> option exT;
  e_mul_int : exT -> Z -> option exT;
  e_div2 : exT -> option exT;
  e_div3 : exT -> option exT;
  e_of_i32 : Z -> exT;
  e_float_pow : fenv -> magnitude -> exT -> magnitude
}.

(** codegen/dimension_type.rs:118-132, 106-116: the int-mode [div_2]/[div_3]: panic unless
    divisible, then truncating division. *)
Definition i64_exact_div (k a : Z) : option Z :=
  let? r := i64_rem a k in if r =? 0 then i64_div a k else None.

(** The [i64] build.  [e_add]/[e_neg]/[e_mul]: core's operators as used at
    dimension_math.rs:72, 84, 105; [e_add]..[e_div3] generated at
    codegen/dimension_type.rs:82-132; [e_of_i32]: dimension_exponent.rs:32-34;
    [e_float_pow]: dimension_exponent.rs:28-30. *)
Definition int_exp (m : ovf) : exp_ops := {|
  exT := Z;
  e_eqb := Z.eqb;
  e_one := 1;
  e_zero := 0;
  e_add := i64_add m;
  e_sub := i64_sub m;
  e_neg := i64_neg m;
  e_mul := i64_mul m;
  e_mul_int := i64_mul m;
  e_div2 := i64_exact_div 2;
  e_div3 := i64_exact_div 3;
  e_of_i32 := fun i => i;
  e_float_pow := float_pow_i64
|}.

(** The [Ratio] build: dimension_math.rs:72, 84, 105 and codegen/dimension_type.rs:27-69;
    ratio.rs:88-102. *)
Definition rat_exp (m : ovf) : exp_ops := {|
  exT := ratio;
  e_eqb := ratio_eqb;
  e_one := rone;
  e_zero := rzero;
  e_add := radd m;
  e_sub := rsub m;
  e_neg := rneg m;
  e_mul := rmul m;
  e_mul_int := fun a k => rmul m a (rint k);
  e_div2 := fun a => rdiv m a (rint 2);
  e_div3 := fun a => rdiv m a (rint 3);
  e_of_i32 := rfrom_int;
  e_float_pow := float_pow_ratio
|}.
