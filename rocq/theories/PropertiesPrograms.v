(** * Programs over quantities compute what they should, up to rounding: C79 *)
From Coq Require Import String List Bool ZArith QArith Qabs Qreals Reals Lra Lia.
From Flocq Require Import Core IEEE754.Binary IEEE754.Bits.
From Verif Require Import MachineInt Ratio F64 FloatOps DecimalFacts NumericFacts FloatFacts Magnitude MagnitudeFacts Exponent Expression Types PrefixSpec
  ExpansionSpec Resolve CodegenDimension Storage Operators Raw UnitOps FloatMethods
  SystemSpec Setting ExampleSystems Parse Grammar ParseFacts Accuracy FloatAccuracy RoundingSpec RoundingFacts AccuracyFacts
  ConversionFacts PropertiesParse FastCheck ResolveFacts ResolveEquations Expansion SystemFacts PropertiesSystem PropertiesSI
  Sources SiTree PropertiesSources Platform PropertiesUnits PropertiesMethods PropertiesAccuracy PropertiesConversion
  Vector Programs FloatPrograms TrackSpec TrackFacts TrackVector TrackRun.
Import ListNotations.
Close Scope Q_scope. Close Scope R_scope.
Local Open Scope string_scope.
Local Open Scope list_scope.

(** ** What the units of a program stand for *)
Section Units.
Context (G : ident -> Q) (C : ident -> nat) (names : list ident).
(** The program's units are [names]: exact values [G], roundings [C]; products and quotients of two
    units (a [RuntimeUnit]) are computed in double precision, with one more rounding. *)
Definition double_units (v : unit_expr) (f : R) (m : nat) : Prop :=
  match v with
  | U i => exists n, nth_error names i = Some n /\ f = Q2R (G n) /\ m = C n
  | UTimes i j => exists a b, nth_error names i = Some a /\ nth_error names j = Some b /\
      moderate (G a * G b) /\ (Z.of_nat m <= 2 ^ 40)%Z /\ f = (Q2R (G a) * Q2R (G b))%R /\ m = (C a + C b + 1)%nat
  | UOver i j => exists a b, nth_error names i = Some a /\ nth_error names j = Some b /\ ~ (G b == 0)%Q /\
      moderate (G a / G b) /\ (Z.of_nat m <= 2 ^ 40)%Z /\ f = (Q2R (G a) / Q2R (G b))%R /\ m = (C a + C b + 1)%nat
  end.
(** In single precision: not too many roundings and a value that fits; then the factor is off by two. *)
Definition single_units (v : unit_expr) (f : R) (m : nat) : Prop :=
  m = 2%nat /\ sized (-120) 120 f /\ exists m', double_units v f m' /\ (Z.of_nat m' <= 2 ^ 29)%Z.
End Units.
Definition exact_factors (G : ident -> Q) (names : list ident) : list R := map (fun n => Q2R (G n)) names.

(** An input: a float, taken as exact. *)
Definition input64 (x : f64) : est := EN (v64 x) (Rabs (v64 x)) 0.
Definition input32 (x : f32) : est := EN (v32 x) (Rabs (v32 x)) 0.
(** Inputs may be vectors too. *)
Definition finite64 (r : raw) : Prop := match r with RF64 x => fin64 x | RVec64 xs => Forall (fun x => fin64 x) xs | _ => False end.
Definition finite32 (r : raw) : Prop := match r with RF32 x => fin32 x | RVec32 xs => Forall (fun x => fin32 x) xs | _ => False end.
Definition given64 (r : raw) : est :=
  match r with RF64 x => input64 x | RVec64 xs => EV (map (fun x => (v64 x, Rabs (v64 x), 0%nat)) xs) | _ => EB false end.
Definition given32 (r : raw) : est :=
  match r with RF32 x => input32 x | RVec32 xs => EV (map (fun x => (v32 x, Rabs (v32 x), 0%nat)) xs) | _ => EB false end.
(** The real numbers they stand for. *)
Definition meaning64 (r : raw) : Programs.val :=
  match r with RF64 x => VNum (Sc (v64 x)) | RVec64 xs => VNum (Ve (map v64 xs)) | _ => Programs.VBool false end.
Definition meaning32 (r : raw) : Programs.val :=
  match r with RF32 x => VNum (Sc (v32 x)) | RVec32 xs => VNum (Ve (map v32 xs)) | _ => Programs.VBool false end.
(** The result is what [e] says. *)
Definition result64 (e : est) (v : fval) : Prop :=
  match e with
  | EN x s n => exists y, v = FNum (RF64 y) /\ fin64 y /\
      (few_roundings (bpow radix2 (-53)) n -> Rabs (v64 y - x) <= 2 * INR n * bpow radix2 (-53) * s)%R
  | EV bs => exists ys, v = FNum (RVec64 ys) /\
      Forall2 (fun '(x, s, n) y => fin64 y /\
        (few_roundings (bpow radix2 (-53)) n -> Rabs (v64 y - x) <= 2 * INR n * bpow radix2 (-53) * s)%R) bs ys
  | EB b => v = FBool b
  end.
Definition result32 (e : est) (v : fval) : Prop :=
  match e with
  | EN x s n => exists y, v = FNum (RF32 y) /\ fin32 y /\
      (few_roundings (bpow radix2 (-24)) n -> Rabs (v32 y - x) <= 2 * INR n * bpow radix2 (-24) * s)%R
  | EV bs => exists ys, v = FNum (RVec32 ys) /\
      Forall2 (fun '(x, s, n) y => fin32 y /\
        (few_roundings (bpow radix2 (-24)) n -> Rabs (v32 y - x) <= 2 * INR n * bpow radix2 (-24) * s)%R) bs ys
  | EB b => v = FBool b
  end.
Notation tracks64 units := (tracks (bpow radix2 (-53)) (-990) 990 units F64).
Notation tracks32 units := (tracks (bpow radix2 (-24)) (-110) 110 units F32).
(** What is assumed of [powi], in either precision. *)
Definition good_powers (M : math) : Prop :=
  accurate_powers 53 1024 1000 (m_powi (math64 M)) /\ accurate_powers 24 128 120 (m_powi (math32 M)).

Lemma one64_val : v64 f64_one = 1%R.
Proof. compute. lra. Qed.
Lemma vec_value_ok64 M v o rs ls : component v = F64 ->
  Forall2 (fun r l => (exists a, r = RF64 a /\ l = [a]) \/ r = RVec64 l) rs ls ->
  vec_value M v o rs = match vec_value64 M (num_dims v) o ls with Some r => as_raw RF64 RVec64 o r | None => None end.
Proof.
  intros Hv H. assert (E : all_some (map comps64 rs) = Some ls).
  { induction H as [|r l rs ls Hh _ IH]; [reflexivity|]. cbn [map]. destruct Hh as [(a & -> & ->)| ->]; cbn [comps64 all_some]; now rewrite IH. }
  unfold vec_value. now rewrite Hv, E.
Qed.
Lemma one32_val : v32 f32_one = 1%R.
Proof. compute. lra. Qed.
Lemma vec_value_ok32 M v o rs ls : component v = F32 ->
  Forall2 (fun r l => (exists a, r = RF32 a /\ l = [a]) \/ r = RVec32 l) rs ls ->
  vec_value M v o rs = match vec_value32 M (num_dims v) o ls with Some r => as_raw RF32 RVec32 o r | None => None end.
Proof.
  intros Hv H. assert (E : all_some (map comps32 rs) = Some ls).
  { induction H as [|r l rs ls Hh _ IH]; [reflexivity|]. cbn [map]. destruct Hh as [(a & -> & ->)| ->]; cbn [comps32 all_some]; now rewrite IH. }
  unfold vec_value. now rewrite Hv, E.
Qed.

(** ** Soundness of the bound, for any units with good factors *)
Section Sound.
Context {k : mode} (env : fenv) (lo : Z) (P : good_platform env lo) (Low : (lo <= -953)%Z).
Context (M : math) (GM : good_math M) (GP : good_powers M).
Context (G : ident -> Q) (C : ident -> nat) (names : list ident) (mags : list magnitude).
Context (Few : forall n, In n names -> (Z.of_nat (C n) <= 2 ^ 40)%Z).
Context (Good : Forall2 (fun n m => approx (C n) (Q2R (G n)) (into_f64 env m)) names mags).
Context (functions : float_fn -> R -> option R).
Notation factors := (exact_factors G names).

Lemma named_nth i n : nth_error names i = Some n ->
  nth_error factors i = Some (Q2R (G n)) /\ exists m, nth_error mags i = Some m /\ approx (C n) (Q2R (G n)) (into_f64 env m).
Proof.
  intros H. split; [unfold exact_factors; now rewrite (map_nth_error _ _ _ H)|]. revert i H.
  induction Good as [|n' m' ns ms Hh Ht IH]; intros [|i] H; cbn [nth_error] in *; try discriminate H.
  - injection H as ->. eauto.
  - apply IH; [|exact Ht|exact H]. intros x Hx. apply Few. now right.
Qed.
Lemma stored_near m q v : (Z.of_nat m <= 2 ^ 40)%Z -> moderate q -> approx m (Q2R q) v -> into_f64 env (from_f64 v) = v.
Proof. intros Hm Mq A. exact (stored_same env lo P Low m q v Hm Mq A). Qed.
Lemma double_units_ok v f m : double_units G C names v f m ->
  factor_of factors v = Some f /\ (exists g, magnitude_of env mags v = Some g /\ approx m f (into_f64 env g)).
Proof.
  destruct v as [i|i j|i j]; cbn [double_units factor_of magnitude_of].
  - intros (n & Hn & -> & ->). destruct (named_nth i n Hn) as (Ef & g & Eg & A). eauto.
  - intros (a & b & Ha & Hb & Mo & Sm & -> & Em). destruct (named_nth i a Ha) as (Ef & g & Eg & A).
    destruct (named_nth j b Hb) as (Ef' & g' & Eg' & A'). rewrite Ef, Ef', Eg, Eg'. split; [reflexivity|].
    eexists. split; [reflexivity|]. subst m. pose proof (Few a (nth_error_In _ _ Ha)). pose proof (Few b (nth_error_In _ _ Hb)).
    pose proof (moderate_wide _ Mo) as W. rewrite Q2R_mult in W.
    pose proof (approx_mul (C a) (C b) _ _ _ _ ltac:(lia) A A' W) as K. unfold mag_mul.
    rewrite (stored_near _ (G a * G b) _ Sm Mo); rewrite ?Q2R_mult; exact K.
  - intros (a & b & Ha & Hb & Nz & Mo & Sm & -> & Em). destruct (named_nth i a Ha) as (Ef & g & Eg & A).
    destruct (named_nth j b Hb) as (Ef' & g' & Eg' & A'). rewrite Ef, Ef', Eg, Eg'. 
    assert (Nz' : Q2R (G b) <> 0%R).
    { intros Z. apply Nz. apply eqR_Qeq. rewrite Z. symmetry. apply AccuracyFacts.Q2R_0. }
    split; [cbn [arith1]; destruct (Req_EM_T (Q2R (G b)) 0); [contradiction|reflexivity]|].
    eexists. split; [reflexivity|]. subst m. pose proof (Few a (nth_error_In _ _ Ha)). pose proof (Few b (nth_error_In _ _ Hb)).
    pose proof (moderate_wide _ Mo) as W. rewrite Q2R_div in W by exact Nz.
    pose proof (approx_div (C a) (C b) _ _ _ _ ltac:(lia) A A' Nz' W) as K. unfold mag_div.
    rewrite (stored_near _ (G a / G b) _ Sm Mo); rewrite ?Q2R_div by exact Nz; exact K.
Qed.

Lemma final p (Hp : (10 <= p)%Z) n x s y : few_roundings (bpow radix2 (- p)) n -> (Rabs x <= s)%R -> off_by (bpow radix2 (- p)) n x s y ->
  (Rabs (y - x) <= 2 * INR n * bpow radix2 (- p) * s)%R.
Proof.
  intros F S O. eapply Rle_trans; [exact O|]. pose proof (Rabs_pos x). apply Rmult_le_compat_r; [lra|].
  pose proof (nearp_factor p Hp n (/ (1 - bpow radix2 (- p)) ^ n) F) as K. pose proof (wpow p Hp n) as W. pose proof (grow_1 p Hp n) as G1.
  unfold grow in G1. destruct K as [_ K]; [split; lra|]. unfold spread. lra.
Qed.

Theorem sound64 inputs p e : Forall finite64 inputs ->
  tracks64 (double_units G C names) (map given64 inputs) p e ->
  eval functions factors [] (map meaning64 inputs) p = Some (exactly e) /\
  exists v, frun (k := k) stop env M mags (map (fun r => FNum r) inputs) p = Some v /\ result64 e v.
Proof.
  intros Fin H.
  pose proof (run_agrees (k := k) 53 1024 (-990) 990 eq_refl eq_refl ltac:(lia) ltac:(lia) ltac:(lia)
    binop_nan_pl64 binop_nan_pl64 binop_nan_pl64 binop_nan_pl64 unop_nan_pl64 unop_nan_pl64
    env M mags functions factors F64 RF64 (into_f64 env) (math64 M) f64_zero f64_one RVec64 (double_units G C names) 1000) as K.
  specialize (K ltac:(reflexivity)). specialize (K ltac:(intros []; reflexivity)). do 8 (specialize (K ltac:(reflexivity))).
  specialize (K zero64_val). do 2 (specialize (K ltac:(reflexivity))).
  specialize (K ltac:(intros m z a [[-> ->]|[[-> ->]| ->]]; reflexivity)).
  do 9 (specialize (K ltac:(reflexivity))).
  specialize (K (conj eq_refl one64_val)). do 3 (specialize (K ltac:(intros []; reflexivity))). do 8 (specialize (K ltac:(reflexivity))).
  specialize (K ltac:(intros []; (reflexivity || discriminate))). specialize (K (vec_value_ok64 M)).
  destruct GM as (G1 & G2 & _). specialize (K G1 G2 (proj1 GP) ltac:(lia) ltac:(lia)).
  assert (Un : forall v f m, double_units G C names v f m -> factor_of factors v = Some f /\
    (exists g, magnitude_of env mags v = Some g /\ is_finite 53 1024 (into_f64 env g) = true /\ nearp 53 m f (B2R 53 1024 (into_f64 env g)))).
  { intros v f m Hv. destruct (double_units_ok v f m Hv) as (E & g & Eg & Fg & Ng). split; [exact E|]. exists g. auto. }
  specialize (K Un (map given64 inputs)). destruct K as [K _]. specialize (K p e H (map (fun r => FNum r) inputs)).
  destruct K as (E & v & Rv & Hv).
  - clear -Fin. induction Fin as [|r xs Fx _ IH]; cbn [map]; constructor; [|exact IH]. destruct r as [x|x|xs1|xs1]; try (exfalso; exact Fx).
    + exists x. split; [reflexivity|]. split; [exact Fx|]. split; [apply Rle_refl|]. apply off_exact. apply Rabs_pos.
    + eexists. split; [reflexivity|]. cbn [finite64] in Fx. induction Fx as [|x xs2 Fx _ IHx]; cbn [map]; constructor; [|exact IHx].
      split; [exact Fx|]. split; [apply Rle_refl|]. apply off_exact. apply Rabs_pos.
  - rewrite map_map in E. split; [|exists v; split; [exact Rv|]].
    + rewrite <- E. f_equal. apply map_ext. intros []; try reflexivity. cbn [given64 exactly meaning64]. now rewrite map_map.
    + destruct e as [x s n|bs|b]; cbn [result64].
      * destruct v as [r|]; [|destruct Hv]. destruct Hv as (y & -> & Fy & Sy & Oy). exists y. split; [reflexivity|]. split; [exact Fy|].
        intros F. exact (final 53 ltac:(lia) n x s _ F Sy Oy).
      * destruct v as [r|]; [|destruct Hv]. destruct Hv as (ys & -> & Hys). exists ys. split; [reflexivity|].
        clear -Hys. induction Hys as [|[[x s] n] y bs ys (Fy & Sy & Oy) _ IH]; constructor; [|exact IH]. split; [exact Fy|].
        intros F. exact (final 53 ltac:(lia) n x s _ F Sy Oy).
      * destruct v as [r|]; [destruct Hv|]. now rewrite <- Hv.
Qed.
Theorem sound32 inputs p e : Forall finite32 inputs ->
  tracks32 (single_units G C names) (map given32 inputs) p e ->
  eval functions factors [] (map meaning32 inputs) p = Some (exactly e) /\
  exists v, frun (k := k) stop env M mags (map (fun r => FNum r) inputs) p = Some v /\ result32 e v.
Proof.
  intros Fin H.
  pose proof (run_agrees (k := k) 24 128 (-110) 110 eq_refl eq_refl ltac:(lia) ltac:(lia) ltac:(lia)
    binop_nan_pl32 binop_nan_pl32 binop_nan_pl32 binop_nan_pl32 unop_nan_pl32 unop_nan_pl32
    env M mags functions factors F32 RF32 (into_f32 env) (math32 M) f32_zero f32_one RVec32 (single_units G C names) 120) as K.
  specialize (K ltac:(reflexivity)). specialize (K ltac:(intros []; reflexivity)). do 8 (specialize (K ltac:(reflexivity))).
  specialize (K zero32_val). do 2 (specialize (K ltac:(reflexivity))).
  specialize (K ltac:(intros m z a [[-> ->]|[[-> ->]| ->]]; reflexivity)).
  do 9 (specialize (K ltac:(reflexivity))).
  specialize (K (conj eq_refl one32_val)). do 3 (specialize (K ltac:(intros []; reflexivity))). do 8 (specialize (K ltac:(reflexivity))).
  specialize (K ltac:(intros []; (reflexivity || discriminate))). specialize (K (vec_value_ok32 M)).
  destruct GM as (_ & _ & G1 & G2). specialize (K G1 G2 (proj2 GP) ltac:(lia) ltac:(lia)).
  assert (Un : forall v f m, single_units G C names v f m -> factor_of factors v = Some f /\
    (exists g, magnitude_of env mags v = Some g /\ is_finite 24 128 (into_f32 env g) = true /\ nearp 24 m f (B2R 24 128 (into_f32 env g)))).
  { intros v f m (-> & Sz & m' & Hv & Hm). destruct (double_units_ok v f m' Hv) as (E & g & Eg & A). split; [exact E|]. exists g.
    split; [exact Eg|]. exact (single_factor m' f (into_f64 env g) Hm A Sz). }
  specialize (K Un (map given32 inputs)). destruct K as [K _]. specialize (K p e H (map (fun r => FNum r) inputs)).
  destruct K as (E & v & Rv & Hv).
  - clear -Fin. induction Fin as [|r xs Fx _ IH]; cbn [map]; constructor; [|exact IH]. destruct r as [x|x|xs1|xs1]; try (exfalso; exact Fx).
    + exists x. split; [reflexivity|]. split; [exact Fx|]. split; [apply Rle_refl|]. apply off_exact. apply Rabs_pos.
    + eexists. split; [reflexivity|]. cbn [finite32] in Fx. induction Fx as [|x xs2 Fx _ IHx]; cbn [map]; constructor; [|exact IHx].
      split; [exact Fx|]. split; [apply Rle_refl|]. apply off_exact. apply Rabs_pos.
  - rewrite map_map in E. split; [|exists v; split; [exact Rv|]].
    + rewrite <- E. f_equal. apply map_ext. intros []; try reflexivity. cbn [given32 exactly meaning32]. now rewrite map_map.
    + destruct e as [x s n|bs|b]; cbn [result32].
      * destruct v as [r|]; [|destruct Hv]. destruct Hv as (y & -> & Fy & Sy & Oy). exists y. split; [reflexivity|]. split; [exact Fy|].
        intros F. exact (final 24 ltac:(lia) n x s _ F Sy Oy).
      * destruct v as [r|]; [|destruct Hv]. destruct Hv as (ys & -> & Hys). exists ys. split; [reflexivity|].
        clear -Hys. induction Hys as [|[[x s] n] y bs ys (Fy & Sy & Oy) _ IH]; constructor; [|exact IH]. split; [exact Fy|].
        intros F. exact (final 24 ltac:(lia) n x s _ F Sy Oy).
      * destruct v as [r|]; [destruct Hv|]. now rewrite <- Hv.
Qed.
End Sound.

(** ** C79 *)
(** For every accepted file, with either kind of exponents (and a budget of roundings, see C71), every program
    over quantities in double precision whose running error bound can be established: the program runs
    to the end, and its result is the exact one up to [n] roundings of the size [s] (without cancellation,
    [s] is the result itself); tests and comparisons that are clear come out as they do exactly.
    Inputs and results may be numbers or vectors; the bound of a vector is one for each component. *)
Theorem C79_vectors : forall k env lo M f T o G C,
  good_platform env lo -> (lo <= -953)%Z -> accurate_pow k env -> good_math M -> good_powers M ->
  wf_file f -> parse_system k (print_file f) = Some T ->
  run_unit_system (ops k) env T = Some (o, []) ->
  budget G C f ->
  forall names mags, Forall2 (named o) names mags ->
  forall functions inputs (p : prog k) e, Forall finite64 inputs ->
  tracks64 (double_units G C names) (map given64 inputs) p e ->
  eval functions (exact_factors G names) [] (map meaning64 inputs) p = Some (exactly e) /\
  exists v, frun stop env M mags (map (fun r => FNum r) inputs) p = Some v /\ result64 e v.
Proof.
  intros k env lo M f T o G C P Low A GM GP W E R B names mags Nm functions inputs p e Fin H.
  rewrite parse_print in E by exact W. assert (Few : forall s, small (C s)) by exact (proj2 B).
  pose proof (factors_near k env lo P Low A G C Few f T o E R B) as K.
  apply (sound64 env lo P Low M GM GP G C names mags (fun n _ => Few n)); [|exact Fin|exact H].
  clear -K Nm. induction Nm as [|n m ns ms Hh _ IH]; constructor; [|exact IH]. apply K. now apply named_fac.
Qed.
Print Assumptions C79_vectors.

(** When all inputs are numbers: *)
Theorem C79_programs : forall k env lo M f T o G C,
  good_platform env lo -> (lo <= -953)%Z -> accurate_pow k env -> good_math M -> good_powers M ->
  wf_file f -> parse_system k (print_file f) = Some T ->
  run_unit_system (ops k) env T = Some (o, []) ->
  budget G C f ->
  forall names mags, Forall2 (named o) names mags ->
  forall functions inputs (p : prog k) e, Forall (fun x => is_finite 53 1024 x = true) inputs ->
  tracks64 (double_units G C names) (map input64 inputs) p e ->
  eval functions (exact_factors G names) [] (map (fun x => VNum (Sc (B2R 53 1024 x))) inputs) p = Some (exactly e) /\
  exists v, frun stop env M mags (map (fun x => FNum (RF64 x)) inputs) p = Some v /\ result64 e v.
Proof.
  intros k env lo M f T o G C P Low A GM GP W E R B names mags Nm functions inputs p e Fin H.
  pose proof (C79_vectors k env lo M f T o G C P Low A GM GP W E R B names mags Nm functions (map RF64 inputs) p e) as K.
  rewrite !map_map in K. apply K; [|exact H]. clear -Fin. induction Fin as [|x xs Fx _ IH]; constructor; [exact Fx|exact IH].
Qed.
Print Assumptions C79_programs.

(** In single precision a unit costs two roundings, unless its factor was too inaccurate. *)
Theorem C79_vectors_single : forall k env lo M f T o G C,
  good_platform env lo -> (lo <= -953)%Z -> accurate_pow k env -> good_math M -> good_powers M ->
  wf_file f -> parse_system k (print_file f) = Some T ->
  run_unit_system (ops k) env T = Some (o, []) ->
  budget G C f ->
  forall names mags, Forall2 (named o) names mags ->
  forall functions inputs (p : prog k) e, Forall finite32 inputs ->
  tracks32 (single_units G C names) (map given32 inputs) p e ->
  eval functions (exact_factors G names) [] (map meaning32 inputs) p = Some (exactly e) /\
  exists v, frun stop env M mags (map (fun r => FNum r) inputs) p = Some v /\ result32 e v.
Proof.
  intros k env lo M f T o G C P Low A GM GP W E R B names mags Nm functions inputs p e Fin H.
  rewrite parse_print in E by exact W. assert (Few : forall s, small (C s)) by exact (proj2 B).
  pose proof (factors_near k env lo P Low A G C Few f T o E R B) as K.
  apply (sound32 env lo P Low M GM GP G C names mags (fun n _ => Few n)); [|exact Fin|exact H].
  clear -K Nm. induction Nm as [|n m ns ms Hh _ IH]; constructor; [|exact IH]. apply K. now apply named_fac.
Qed.
Print Assumptions C79_vectors_single.

(** When all inputs are numbers: *)
Theorem C79_programs_single : forall k env lo M f T o G C,
  good_platform env lo -> (lo <= -953)%Z -> accurate_pow k env -> good_math M -> good_powers M ->
  wf_file f -> parse_system k (print_file f) = Some T ->
  run_unit_system (ops k) env T = Some (o, []) ->
  budget G C f ->
  forall names mags, Forall2 (named o) names mags ->
  forall functions inputs (p : prog k) e, Forall (fun x => is_finite 24 128 x = true) inputs ->
  tracks32 (single_units G C names) (map input32 inputs) p e ->
  eval functions (exact_factors G names) [] (map (fun x => VNum (Sc (B2R 24 128 x))) inputs) p = Some (exactly e) /\
  exists v, frun stop env M mags (map (fun x => FNum (RF32 x)) inputs) p = Some v /\ result32 e v.
Proof.
  intros k env lo M f T o G C P Low A GM GP W E R B names mags Nm functions inputs p e Fin H.
  pose proof (C79_vectors_single k env lo M f T o G C P Low A GM GP W E R B names mags Nm functions (map RF32 inputs) p e) as K.
  rewrite !map_map in K. apply K; [|exact H]. clear -Fin. induction Fin as [|x xs Fx _ IH]; constructor; [exact Fx|exact IH].
Qed.
Print Assumptions C79_programs_single.

(** Programs over the bundled SI units: five roundings for a unit. *)
Theorem C79_si : forall powf env M, env = env_rt powf \/ env = env_nt powf -> good_math M -> good_powers M ->
  exists T o, parse_system IntegerExponents si_source = Some T /\
  run_unit_system (ops IntegerExponents) env T = Some (o, []) /\
  forall G, exact_solution G si_file -> forall names mags, Forall2 (named o) names mags ->
  Forall (fun n => ~ (G n == 0)%Q) names ->
  (forall functions inputs (p : prog IntegerExponents) e, Forall finite64 inputs ->
     tracks64 (double_units G (fun _ => 5%nat) names) (map given64 inputs) p e ->
     eval functions (exact_factors G names) [] (map meaning64 inputs) p = Some (exactly e) /\
     exists v, frun stop env M mags (map (fun r => FNum r) inputs) p = Some v /\ result64 e v) /\
  (forall functions inputs (p : prog IntegerExponents) e, Forall finite32 inputs ->
     tracks32 (single_units G (fun _ => 5%nat) names) (map given32 inputs) p e ->
     eval functions (exact_factors G names) [] (map meaning32 inputs) p = Some (exactly e) /\
     exists v, frun stop env M mags (map (fun r => FNum r) inputs) p = Some v /\ result32 e v).
Proof.
  intros powf env M He GM GP. destruct (C66_si_factors powf env He) as (T & o & E & R & K). exists T, o.
  split; [exact E|]. split; [exact R|]. intros G S names mags Nm Nz.
  assert (P : exists lo, good_platform env lo /\ (lo <= -953)%Z).
  { destruct He as [->| ->]; eexists; (split; [apply good_rt || apply good_nt|lia]). }
  destruct P as (lo & P & Low).
  assert (Good : Forall2 (fun n m => approx 5 (Q2R (G n)) (into_f64 env m)) names mags).
  { clear -K S Nm Nz. induction Nm as [|n m ns ms Hh _ IH]; constructor; inversion Nz; subst.
    - apply near_5; [apply (K G S); now apply named_fac|]. intros Z. apply H1. apply eqR_Qeq. rewrite Z. symmetry. apply AccuracyFacts.Q2R_0.
    - auto. }
  split; intros functions inputs p e Fin H.
  - apply (sound64 env lo P Low M GM GP G (fun _ => 5%nat) names mags); [intros; lia|exact Good|exact Fin|exact H].
  - apply (sound32 env lo P Low M GM GP G (fun _ => 5%nat) names mags); [intros; lia|exact Good|exact Fin|exact H].
Qed.
Print Assumptions C79_si.

(** ** Two instances: adding and comparing quantities given in different units *)
Lemma few64 n : (Z.of_nat n <= 2 ^ 45)%Z -> few_roundings (bpow radix2 (-53)) n.
Proof. intros H. unfold few_roundings. now apply few. Qed.
Lemma error64 n s : (Z.of_nat n <= 2 ^ 45)%Z -> (0 <= s)%R -> (error (bpow radix2 (-53)) s n <= 2 * INR n * bpow radix2 (-53) * s)%R.
Proof.
  intros H P. pose proof (final 53 ltac:(lia) n 0 s (error (bpow radix2 (-53)) s n) (few64 n H) ltac:(rewrite Rabs_R0; exact P)) as K.
  rewrite Rminus_0_r in K. change (- (53))%Z with (-53)%Z in K. unfold off_by in K. rewrite Rminus_0_r in K.
  assert (G : (0 <= spread (bpow radix2 (-53)) n)%R).
  { pose proof (grow_1 53 ltac:(lia) n) as G. unfold grow in G. unfold spread. change (- (53))%Z with (-53)%Z in G. lra. }
  assert (E0 : (0 <= error (bpow radix2 (-53)) s n)%R) by (unfold error; now apply Rmult_le_pos).
  rewrite Rabs_pos_eq in K by exact E0. apply K. apply Rle_refl.
Qed.
(** [(n1.new(x) + n2.new(y)).value_in(n3)] *)
Definition sum_program {k} : prog k := ValueIn (Bin TAdd (New (U 0) (Var 0)) (New (U 1) (Var 1))) (U 2).
(** [n1.new(x) < n2.new(y)] and so on. *)
Definition compare_program {k} (r : relation) : prog k := Compare r (New (U 0) (Var 0)) (New (U 1) (Var 1)).

Section Instances.
Context (k : mode) (env : fenv) (lo : Z) (M : math) (f : slist stmt) (T : template k) (o : defs (ops k)) (G : ident -> Q) (C : ident -> nat).
Context (P : good_platform env lo) (Low : (lo <= -953)%Z) (A : accurate_pow k env) (GM : good_math M) (GP : good_powers M).
Context (W : wf_file f) (E : parse_system k (print_file f) = Some T).
Context (R : run_unit_system (ops k) env T = Some (o, [])) (B : budget G C f).
Notation u := (bpow radix2 (-53)).

Lemma track_new rho i j x n names : nth_error rho j = Some (EN x (Rabs x) 0) -> nth_error names i = Some n ->
  good_size (-990) 990 (Rabs x * Rabs (Q2R (G n))) ->
  tracks64 (double_units G C names) rho (New (k := k) (U i) (Var j))
    (EN (x * Q2R (G n)) (Rabs x * Rabs (Q2R (G n))) (0 + C n + 1)).
Proof.
  intros Hj Hi Sz. apply k_times with (a := Var j) (v := U i); [now left|now constructor|exists n; auto|]. split; [|exact Sz].
  apply few64. pose proof (proj2 B n). lia.
Qed.

Theorem C79_sum : forall n1 n2 n3 m1 m2 m3 x y, named o n1 m1 -> named o n2 m2 -> named o n3 m3 -> ~ (G n3 == 0)%Q ->
  is_finite 53 1024 x = true -> is_finite 53 1024 y = true ->
  let e1 := (B2R 53 1024 x * Q2R (G n1))%R in let e2 := (B2R 53 1024 y * Q2R (G n2))%R in let g := Q2R (G n3) in
  sized (-990) 990 e1 -> sized (-990) 990 e2 -> sized (-990) 990 (Rabs e1 + Rabs e2)%R ->
  sized (-990) 990 ((Rabs e1 + Rabs e2) / g)%R ->
  exists z, frun stop env M [m1; m2; m3] [FNum (RF64 x); FNum (RF64 y)] (sum_program (k := k)) = Some (FNum (RF64 z)) /\
    is_finite 53 1024 z = true /\
    (Rabs (B2R 53 1024 z - (e1 + e2) / g) <= 2 * INR (Nat.max (C n1) (C n2) + C n3 + 3) * u * ((Rabs e1 + Rabs e2) / Rabs g))%R.
Proof.
  intros n1 n2 n3 m1 m2 m3 x y H1 H2 H3 Nz Fx Fy e1 e2 g S1 S2 S3 S4.
  assert (Nz' : g <> 0%R).
  { intros Z. apply Nz. apply eqR_Qeq. unfold g in Z. rewrite Z. symmetry. apply AccuracyFacts.Q2R_0. }
  assert (Sz : forall a, sized (-990) 990 a -> good_size (-990) 990 (Rabs a)).
  { intros a [-> |S]; [left; apply Rabs_R0|now right]. }
  assert (Pe : (0 <= Rabs e1 + Rabs e2)%R) by (pose proof (Rabs_pos e1); pose proof (Rabs_pos e2); lra).
  pose proof (proj2 B n1) as C1. pose proof (proj2 B n2) as C2. pose proof (proj2 B n3) as C3.
  pose (names := [n1; n2; n3]). pose (rho := map input64 [x; y]).
  assert (T1 : tracks64 (double_units G C names) rho (New (k := k) (U 0) (Var 0)) (EN e1 (Rabs e1) (0 + C n1 + 1))).
  { unfold e1. rewrite Rabs_mult. apply track_new; [reflexivity|reflexivity|]. rewrite <- Rabs_mult. now apply Sz. }
  assert (T2 : tracks64 (double_units G C names) rho (New (k := k) (U 1) (Var 1)) (EN e2 (Rabs e2) (0 + C n2 + 1))).
  { unfold e2. rewrite Rabs_mult. apply track_new; [reflexivity|reflexivity|]. rewrite <- Rabs_mult. now apply Sz. }
  assert (T3 : tracks64 (double_units G C names) rho (Bin TAdd (New (k := k) (U 0) (Var 0)) (New (U 1) (Var 1)))
    (EN (e1 + e2) (Rabs e1 + Rabs e2) (Nat.max (0 + C n1 + 1) (0 + C n2 + 1) + 1))).
  { apply k_add; [now left|exact T1|exact T2|]. split; [apply few64; lia|]. specialize (Sz _ S3). rewrite Rabs_pos_eq in Sz by exact Pe. exact Sz. }
  assert (T4 : tracks64 (double_units G C names) rho (sum_program (k := k))
    (EN ((e1 + e2) / g) ((Rabs e1 + Rabs e2) / Rabs g) (Nat.max (0 + C n1 + 1) (0 + C n2 + 1) + 1 + C n3 + 1))).
  { apply k_over with (a := Bin TAdd (New (U 0) (Var 0)) (New (U 1) (Var 1))) (v := U 2); [right; now left|exact T3|exists n3; auto|exact Nz'|].
    split; [apply few64; lia|]. specialize (Sz _ S4). unfold Rdiv in Sz |- *. rewrite Rabs_mult, Rabs_inv, Rabs_pos_eq in Sz by exact Pe. exact Sz. }
  destruct (C79_programs k env lo M f T o G C P Low A GM GP W E R B names [m1; m2; m3]
    (Forall2_cons _ _ H1 (Forall2_cons _ _ H2 (Forall2_cons _ _ H3 (Forall2_nil _))))
    (fun _ _ => None) [x; y] _ _ (Forall_cons _ Fx (Forall_cons _ Fy (Forall_nil _))) T4) as (_ & v & Rv & z & -> & Fz & Oz).
  exists z. split; [exact Rv|]. split; [exact Fz|].
  replace (Nat.max (C n1) (C n2) + C n3 + 3)%nat with (Nat.max (0 + C n1 + 1) (0 + C n2 + 1) + 1 + C n3 + 1)%nat by lia.
  apply Oz. apply few64. lia.
Qed.

Theorem C79_compare : forall n1 n2 m1 m2 x y, named o n1 m1 -> named o n2 m2 ->
  is_finite 53 1024 x = true -> is_finite 53 1024 y = true ->
  let e1 := (B2R 53 1024 x * Q2R (G n1))%R in let e2 := (B2R 53 1024 y * Q2R (G n2))%R in
  sized (-990) 990 e1 -> sized (-990) 990 e2 ->
  (2 * INR (C n1 + 1) * u * Rabs e1 + 2 * INR (C n2 + 1) * u * Rabs e2 < Rabs (e1 - e2))%R ->
  forall r, exists c, frun stop env M [m1; m2] [FNum (RF64 x); FNum (RF64 y)] (compare_program (k := k) r) = Some (FBool c) /\
    (c = true <-> match r with Eq => e1 = e2 | Ne => e1 <> e2 | Lt => e1 < e2 | Le => e1 <= e2 | Gt => e1 > e2 | Ge => e1 >= e2 end)%R.
Proof.
  intros n1 n2 m1 m2 x y H1 H2 Fx Fy e1 e2 S1 S2 Cl r.
  assert (Sz : forall a, sized (-990) 990 a -> good_size (-990) 990 (Rabs a)).
  { intros a [-> |S]; [left; apply Rabs_R0|now right]. }
  pose proof (proj2 B n1) as C1. pose proof (proj2 B n2) as C2.
  assert (Rc : exists c, relates r e1 e2 c).
  { unfold relates. destruct (total_order_T e1 e2) as [[L|Q]|L]; destruct r;
      solve [exists true; split; intros; (reflexivity || lra)|exists false; split; intros; (discriminate || lra)]. }
  destruct Rc as (c & Rc). exists c. split; [|exact Rc].
  pose (names := [n1; n2]). pose (rho := map input64 [x; y]).
  assert (T1 : tracks64 (double_units G C names) rho (New (k := k) (U 0) (Var 0)) (EN e1 (Rabs e1) (0 + C n1 + 1))).
  { unfold e1. rewrite Rabs_mult. apply track_new; [reflexivity|reflexivity|]. rewrite <- Rabs_mult. now apply Sz. }
  assert (T2 : tracks64 (double_units G C names) rho (New (k := k) (U 1) (Var 1)) (EN e2 (Rabs e2) (0 + C n2 + 1))).
  { unfold e2. rewrite Rabs_mult. apply track_new; [reflexivity|reflexivity|]. rewrite <- Rabs_mult. now apply Sz. }
  assert (T3 : tracks64 (double_units G C names) rho (compare_program (k := k) r) (EB c)).
  { eapply k_compare; [exact Rc|exact T1|exact T2|]. left.
    pose proof (error64 (0 + C n1 + 1) (Rabs e1) ltac:(lia) (Rabs_pos _)). pose proof (error64 (0 + C n2 + 1) (Rabs e2) ltac:(lia) (Rabs_pos _)).
    cbn [Nat.add] in *. lra. }
  destruct (C79_programs k env lo M f T o G C P Low A GM GP W E R B names [m1; m2]
    (Forall2_cons _ _ H1 (Forall2_cons _ _ H2 (Forall2_nil _)))
    (fun _ _ => None) [x; y] _ _ (Forall_cons _ Fx (Forall_cons _ Fy (Forall_nil _))) T3) as (_ & v & Rv & Hv).
  rewrite Hv in Rv. exact Rv.
Qed.
End Instances.
Print Assumptions C79_sum.
Print Assumptions C79_compare.

(** ** The hypotheses can be met *)
Lemma powers64 powi : accurate_powi powi -> accurate_powers 53 1024 1000 powi.
Proof.
  intros H a z Fa Hz _ x Sz. destruct (H a z Fa Hz Sz) as [F N]. split; [exact F|].
  eapply Rle_trans; [apply RoundingFacts.near_error; [|exact N]; lia|].
  pose proof (bpow_gt_0 radix2 (-53)). pose proof (Rabs_pos x) as Px. fold x.
  assert (E : INR (2 * Z.abs_nat z) = (2 * IZR (Z.abs z))%R).
  { rewrite INR_IZR_INZ, Nat2Z.inj_mul, Nat2Z.inj_abs_nat, mult_IZR. reflexivity. }
  rewrite E. change (- (53))%Z with (-53)%Z. assert (P : (0 <= IZR (Z.abs z))%R) by (apply IZR_le; lia).
  apply Rmult_le_compat_r; [exact Px|]. nra.
Qed.
(** compiler-rt's algorithm, in either precision, and num-traits' algorithm. *)
Theorem C79_powi_good :
  accurate_powers 53 1024 1000 powi_rt /\ accurate_powers 53 1024 1000 powi_nt /\ accurate_powers 24 128 120 powi_rt32.
Proof.
  split; [apply powers64, powi_rt_accurate|]. split; [apply powers64, powi_nt_accurate|].
  intros a z Fa Hz Few x Sz.
  assert (A := gpowi_accurate 24 128 eq_refl eq_refl ltac:(lia) binop_nan_pl32 binop_nan_pl32 binop_nan_pl32 f32_one a z
    eq_refl ltac:(compute; lra) Fa). cbv zeta in A. destruct A as [A1 A2].
  - eapply Rle_trans; [exact Few|]. lra.
  - assert (E : forall y n, (0 <= n)%Z -> (Rabs y ^ Z.to_nat n)%R = Rabs (powerRZ y n)).
    { intros y n Hn. rewrite RPow_abs, pow_powerRZ, Z2Nat.id by exact Hn. reflexivity. }
    destruct (Z.le_gt_cases 0 z) as [P|P].
    + rewrite E by lia. rewrite Z.abs_eq by exact P. fold x. split; [eapply Rle_trans; [|apply Sz]|eapply Rle_trans; [apply Sz|]]; apply bpow_le; lia.
    + assert (X : x = (/ (B2R 24 128 a ^ Z.to_nat (Z.abs z)))%R).
      { unfold x. destruct z as [|p|p]; try lia. reflexivity. }
      rewrite RPow_abs. set (y := (B2R 24 128 a ^ Z.to_nat (Z.abs z))%R) in *. rewrite X, Rabs_inv in Sz.
      assert (Py : (0 < Rabs y)%R).
      { destruct (Rle_lt_or_eq_dec 0 (Rabs y) (Rabs_pos y)) as [Q|Q]; [exact Q|]. rewrite <- Q, Rinv_0 in Sz.
        pose proof (bpow_gt_0 radix2 (-120)). change (- (120))%Z with (-120)%Z in Sz. lra. }
      rewrite <- (Rinv_inv (Rabs y)). split.
      * apply Rle_trans with (bpow radix2 (- (120))); [apply bpow_le; lia|]. rewrite bpow_opp. apply Rinv_le_contravar; [now apply Rinv_0_lt_compat|apply Sz].
      * apply Rle_trans with (bpow radix2 (- - (120))); [|apply bpow_le; lia]. rewrite bpow_opp. apply Rinv_le_contravar; [apply bpow_gt_0|apply Sz].
  - split; [exact A1|]. eapply Rle_trans; [exact A2|]. apply Rmult_le_compat_r; [apply Rabs_pos|].
    pose proof (bpow_gt_0 radix2 (- (24))). assert (P : (0 <= IZR (Z.abs z))%R) by (apply IZR_le; lia).
    change (bpow radix2 (-24)) with (bpow radix2 (- (24))). nra.
Qed.
Print Assumptions C79_powi_good.
Lemma math0_powers : good_powers math0.
Proof. split; [exact (proj1 C79_powi_good)|exact (proj2 (proj2 C79_powi_good))]. Qed.

(** [let a = acre.new(x); let b = inch.new(x) * inch.new(x); if a > b { (a - b).value_in(acre) } else { x }]:
    for [x = 2] the bound can be established: the result is off by at most 23 roundings of the size of
    [(a + b) / acre]. *)
Definition acres_program {k} : prog k :=
  Let (New (U 0) (Var 0)) (Let (Bin TMul (New (U 1) (Var 1)) (New (U 1) (Var 1)))
    (If (Compare Gt (Var 1) (Var 0)) (ValueIn (Bin TSub (Var 1) (Var 0)) (U 0)) (Var 2))).
Lemma fine_size x n : (Z.of_nat n <= 2 ^ 45)%Z -> (/ 1000000 <= x <= 1000000)%R -> fine (bpow radix2 (-53)) (-990) 990 x n.
Proof.
  intros H [L U]. split; [now apply few64|]. right. split.
  - apply Rle_trans with (bpow radix2 (-30)); [apply bpow_le; lia|]. eapply Rle_trans; [|exact L]. cbn. lra.
  - apply Rle_trans with (bpow radix2 30); [|apply bpow_le; lia]. eapply Rle_trans; [exact U|]. cbn. lra.
Qed.
Example C79_applies : forall k, exists T o G C ma mi x s,
  wf_file acre_file /\ good_platform env_whole (-1023) /\ accurate_pow k env_whole /\ good_math math0 /\ good_powers math0 /\
  parse_system k (print_file acre_file) = Some T /\
  run_unit_system (ops k) env_whole T = Some (o, []) /\ budget G C acre_file /\
  Forall2 (named o) ["acre"; "inch"] [ma; mi] /\ Forall (fun x => is_finite 53 1024 x = true) [two] /\
  tracks64 (double_units G C ["acre"; "inch"]) (map input64 [two]) (acres_program (k := k)) (EN x s 23).
Proof.
  intros k. destruct (C71_applies_both k) as (T & o & G & C & W & P & A & E & R & B & G1 & G2 & C1 & C2).
  assert (K : match parse_system k (print_file acre_file) with
    Some t => existsb (names_itemb "acre") (decls (declared t)) && existsb (names_itemb "inch") (decls (declared t))
    | None => false end = true) by (destruct k; vm_compute; reflexivity).
  rewrite E in K. apply andb_true_iff in K as [K1 K2].
  destruct (named_exists env_whole (-1023) T o _ P R K1) as [ma Ma]. destruct (named_exists env_whole (-1023) T o _ P R K2) as [mi Mi].
  exists T, o, G, C, ma, mi. do 2 eexists. do 3 (split; [assumption|]). split; [exact math0_good|]. split; [exact math0_powers|].
  do 3 (split; [assumption|]). split; [exact (Forall2_cons _ _ Ma (Forall2_cons _ _ Mi (Forall2_nil _)))|].
  destruct two_value as [F2 V2]. split; [exact (Forall_cons _ F2 (Forall_nil _))|].
  pose (units := double_units G C ["acre"; "inch"]). fold units.
  assert (Ua : units (U 0) (Q2R (G "acre")) 10%nat) by (exists "acre"; auto).
  assert (Ui : units (U 1) (Q2R (G "inch")) 2%nat) by (exists "inch"; auto).
  rewrite G2 in Ua. rewrite G1 in Ui. cbn [map]. unfold input64. rewrite V2.
  set (a := Q2R (316160658 # 78125)) in *. set (i := Q2R (127 # 5000)) in *.
  assert (Va : a = (316160658 / 78125)%R) by reflexivity. assert (Vi : i = (127 / 5000)%R) by reflexivity.
  assert (Aa : Rabs a = a) by (apply Rabs_pos_eq; rewrite Va; lra). assert (Ai : Rabs i = i) by (apply Rabs_pos_eq; rewrite Vi; lra).
  assert (A2 : Rabs 2 = 2%R) by (apply Rabs_pos_eq; lra). rewrite A2.
  apply k_let with (e := EN (2 * a) (2 * Rabs a) (0 + 10 + 1)).
  { apply k_times with (a := Var 0) (v := U 0); [now left|now constructor|exact Ua|]. rewrite Aa. apply fine_size; [lia|rewrite Va; lra]. }
  apply k_let with (e := EN (2 * i * (2 * i)) (2 * Rabs i * (2 * Rabs i)) ((0 + 2 + 1) + (0 + 2 + 1) + 1)).
  { assert (K : tracks64 units [EN (2 * a) (2 * Rabs a) (0 + 10 + 1); EN 2 2 0] (New (k := k) (U 1) (Var 1)) (EN (2 * i) (2 * Rabs i) (0 + 2 + 1))).
    { apply k_times with (a := Var 1) (v := U 1); [now left|now constructor|exact Ui|]. rewrite Ai. apply fine_size; [lia|rewrite Vi; lra]. }
    apply k_mul; [now left|exact K|exact K|]. rewrite Ai. apply fine_size; [lia|rewrite Vi; lra]. }
  apply k_if with (v := true).
  - eapply k_compare; [|now constructor|now constructor|].
    + unfold relates. split; [intros _; rewrite Va, Vi; lra|reflexivity].
    + left. rewrite Aa, Ai.
      pose proof (error64 (0 + 2 + 1 + (0 + 2 + 1) + 1) (2 * i * (2 * i)) ltac:(lia) ltac:(rewrite Vi; lra)) as K1'.
      pose proof (error64 (0 + 10 + 1) (2 * a) ltac:(lia) ltac:(rewrite Va; lra)) as K2'.
      cbn [Nat.add INR] in K1', K2' |- *. eapply Rle_lt_trans; [apply Rplus_le_compat; [exact K2'|exact K1']|].
      rewrite Rabs_pos_eq by (rewrite Va, Vi; lra).
      assert (U : (0 < bpow radix2 (-53) <= / 1000)%R).
      { split; [apply bpow_gt_0|]. apply Rle_trans with (bpow radix2 (-10)); [apply bpow_le; lia|cbn; lra]. }
      rewrite Va, Vi. set (w := bpow radix2 (-53)) in *. lra.
  - eapply k_over with (a := Bin TSub (Var 1) (Var 0)) (v := U 0) (n := 12%nat) (m := 10%nat); [right; now left| |exact Ua|rewrite Va; lra|].
    + apply k_sub with (n := 11%nat) (m := 7%nat); [now left|now constructor|now constructor|].
      rewrite Aa, Ai. apply fine_size; [lia|rewrite Va, Vi; lra].
    + rewrite Aa, Ai. apply fine_size; [lia|]. rewrite Va, Vi. lra.
Qed.
