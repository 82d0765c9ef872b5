(** * Specification: how many roundings the factor of a unit takes

    [G] is the exact rational value of every unit (see [Accuracy]); [C n] bounds the number of
    roundings in the computation of the factor of [n]: one for a number that is written, one for each
    product or quotient, [2 * |z|] for a power [z] (whose operand counts [|z|] times), none for a base
    unit or an alias, two for a prefix.  Exact values, also intermediate ones, have to be moderate,
    so that nothing overflows or loses digits by underflow. *)
From Coq Require Import String List Bool ZArith QArith Qreals Reals.
From Flocq Require Import Core.
From Verif Require Import F64 Magnitude Setting Types Parse Grammar Accuracy.
Import ListNotations.
Close Scope R_scope. Close Scope Q_scope.

Definition moderate (q : Q) : Prop := (bpow radix2 (-900) <= Rabs (Q2R q) <= bpow radix2 900)%R.

Section Cost.
Context (G : ident -> Q) (C : ident -> nat).
Inductive rounds_x : sx -> Q -> nat -> Prop :=
| r_one f q n : rounds_f f q n -> rounds_x (SxOne f) q n
| r_mul l o f a b m n : o <> BySlash -> rounds_x l a m -> rounds_f f b n -> moderate (a * b) ->
    rounds_x (SxBin l o f) (a * b) (m + n + 1)
| r_div l f a b m n : rounds_x l a m -> rounds_f f b n -> moderate (a / b) ->
    rounds_x (SxBin l BySlash f) (a / b) (m + n + 1)
with rounds_f : sf -> Q -> nat -> Prop :=
| r_name s : moderate (G s) -> rounds_f (SfVal (AtIdent s)) (G s) (C s)
| r_lit l : moderate (lit_Q l) -> rounds_f (SfVal (AtLit l)) (lit_Q l) 1
| r_pow a e z q n : exp_Z e = Some z -> (Z.abs z < 2 ^ 31)%Z -> rounds_f (SfVal a) q n -> moderate (q ^ z) ->
    rounds_f (SfPow a e) (q ^ z) (Z.abs_nat z * n + 2 * Z.abs_nat z)
| r_paren x q n : rounds_x x q n -> rounds_f (SfParen x) q n.

Inductive rounds_def : xdef -> Q -> nat -> Prop :=
| r_base : rounds_def XBase 1 0
| r_expr x q n : rounds_x x q n -> rounds_def (XExpr x) q n
| r_alias i : moderate (G i) -> rounds_def (XScaled 0 i) (G i) (C i)
| r_prefix k i : moderate (G i) -> moderate ((10 # 1) ^ k) -> moderate ((10 # 1) ^ k * G i) ->
    rounds_def (XScaled k i) ((10 # 1) ^ k * G i) (C i + 2).

(** [G] and [C] are right for the file. *)
Definition budget (f : slist stmt) : Prop :=
  (forall n d, In (n, d) (file_defs f) -> exists q c, rounds_def d q c /\ (G n == q)%Q /\ (c <= C n)%nat) /\
  (forall n, (Z.of_nat (C n) <= 2 ^ 40)%Z).
End Cost.

(** What is assumed of [f64::powi]: the result is finite and off by at most [2 * |z|] roundings,
    as long as the powers between are moderate.  Roundings are relative, in either direction. *)
Definition near (m : nat) (x y : R) : Prop :=
  exists t, ((1 - bpow radix2 (-53)) ^ m <= t <= / (1 - bpow radix2 (-53)) ^ m)%R /\ y = (x * t)%R.
Definition accurate_powi (powi : f64 -> Z -> f64) : Prop := forall a z,
  Binary.is_finite 53 1024 a = true -> (Z.abs z < 2 ^ 31)%Z ->
  (bpow radix2 (-1000) <= Rabs (powerRZ (Binary.B2R 53 1024 a) z) <= bpow radix2 1000)%R ->
  Binary.is_finite 53 1024 (powi a z) = true /\
  near (2 * Z.abs_nat z) (powerRZ (Binary.B2R 53 1024 a) z) (Binary.B2R 53 1024 (powi a z)).
(** The function the macro raises factors to powers with: [powi] with integer exponents (magnitude.rs),
    and with rational ones [powf], whose argument is the exponent as a double.  Budgets count whole
    exponents only, so nothing is assumed of [powf] for others. *)
Definition accurate_pow (k : mode) (env : fenv) : Prop :=
  accurate_powi (match k with IntegerExponents => f_powi env | RationalExponents => fun x z => f_powf env x (f64_of_Z z) end).
