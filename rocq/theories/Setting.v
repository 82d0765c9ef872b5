(** * The two builds of the library and the numeric platform

    [mode]: the library is built with [i64] exponents or, with the [rational-dimensions] feature,
    with [Ratio] exponents; the macro runs with overflow checks (an overflow is the panic [None]).
    [good_platform]: what is assumed of [f64::powi] (a libm/compiler function): powers of two are
    exact from [2^lo] on and zero below.  Both known implementations meet it (see the examples). *)
From Coq Require Import String List Bool ZArith QArith Qcanon Lia.
From Verif Require Import MachineInt Ratio F64 Magnitude MagnitudeFacts Exponent ExponentFacts
  Expression Types Resolve SystemSpec ResolveFacts ResolveEquations Expansion.
Import ListNotations.

Inductive mode := IntegerExponents | RationalExponents.

Definition ops (k : mode) : exp_ops :=
  match k with IntegerExponents => int_exp Checked | RationalExponents => rat_exp Checked end.
Definition laws (k : mode) : exp_laws (ops k) :=
  match k with IntegerExponents => int_laws | RationalExponents => rat_laws end.
Definition pow (k : mode) (env : fenv) : f64 -> ops k -> f64 :=
  match k with IntegerExponents => pow_int env | RationalExponents => pow_rat env end.

Lemma pow_law k env m p :
  into_f64 env (e_float_pow (ops k) env m p) = pow k env (into_f64 env m) p.
Proof. destruct k; [apply pow_int_law|apply pow_rat_law]. Qed.

Lemma pow_encoded k env m p : encoded (e_float_pow (ops k) env m p).
Proof. destruct k; [apply pow_encoded_int|apply pow_encoded_rat]. Qed.

Definition good_platform (env : fenv) (lo : Z) : Prop :=
  (-1074 <= lo <= -164)%Z /\ powi_from lo (f_powi env).

(** compiler-rt's [__powidf2] (what rustc links today) and repeated multiplication by the exact
    reciprocal: the first is zero below [2^-1023], the second exact down to [2^-1074]. *)
Definition env_rt (powf : f64 -> f64 -> f64) : fenv := mkFenv powi_rt powf.
Definition env_nt (powf : f64 -> f64 -> f64) : fenv := mkFenv powi_nt powf.
Lemma good_rt powf : good_platform (env_rt powf) (-1023).
Proof. split; [lia|apply powi_rt_from]. Qed.
Lemma good_nt powf : good_platform (env_nt powf) (-1074).
Proof. split; [lia|apply powi_nt_from]. Qed.

(** What the parser guarantees of the literals in a template: factors are encoded doubles, and
    ratio exponents are in lowest terms with positive denominator.  (A ratio exponent written with
    a negative denominator is the one way to break it, see C42.) *)
Definition literals_ok (k : mode) (T : unresolved (ops k) (unit_template (ops k))) : Prop :=
  literals_encoded (ops k) (expand_templates T) /\
  exponents_valid (ops k) (laws k) (expand_templates T).
