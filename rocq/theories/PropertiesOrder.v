(** * Units never get the order of values wrong: C92 *)
From Coq Require Import String List Bool ZArith QArith Qabs Qreals Reals Lra Lia.
From Flocq Require Import Core IEEE754.Binary IEEE754.Bits.
From Verif Require Import MachineInt Ratio F64 FloatOps DecimalFacts NumericFacts FloatFacts Magnitude Exponent Types PrefixSpec
  ExpansionSpec Resolve CodegenDimension Storage Operators Raw UnitOps FloatMethods Vector Programs FloatPrograms
  SystemSpec Setting ExampleSystems Parse Grammar ParseFacts Accuracy RoundingSpec RoundingFacts AccuracyFacts
  ConversionFacts PropertiesParse ResolveFacts PropertiesSystem PropertiesSI
  Sources SiTree PropertiesSources Platform PropertiesUnits PropertiesAccuracy PropertiesConversion PropertiesExact
  OrderSpec OrderFacts.
Import ListNotations.
Close Scope Q_scope. Close Scope R_scope.
Local Open Scope string_scope.
Local Open Scope list_scope.

Lemma relation_holds {prec emax} (x y : binary_float prec emax) c : fcmp x y = Some c ->
  forall r, float_relation r x y = holds r c.
Proof.
  intros E r. pose proof (fcmp_swap prec emax x y) as E'. rewrite E in E'. cbn in E'.
  destruct r; unfold float_relation, flt, fle; rewrite ?E, ?E'; destruct c; reflexivity.
Qed.

Section Two.
Context {k : mode} (panic : raw -> option raw) (env : fenv) (M : math) (mags : list magnitude).
Notation run rho p := (frun panic env M mags rho p).
Notation factor64 m := (into_f64 env m).
Notation factor32 m := (into_f32 env m).

Lemma compare_run rho (p q : prog k) r x y : run rho p = Some (FNum x) -> run rho q = Some (FNum y) ->
  run rho (Compare r p q) = option_map FBool (raw_relation r x y).
Proof. intros A B. cbn [frun]. now rewrite A, B. Qed.

Lemma multiplies_64 u (p q : prog k) m rho x : magnitude_of env mags u = Some m -> multiplies u p q ->
  run rho p = Some (FNum (RF64 x)) -> run rho q = Some (FNum (RF64 (f64_mul x (factor64 m)))).
Proof. intros Hm [] E; cbn [frun]; rewrite E; cbn [with_mag fnum]; rewrite Hm; reflexivity. Qed.
Lemma multiplies_32 u (p q : prog k) m rho x : magnitude_of env mags u = Some m -> multiplies u p q ->
  run rho p = Some (FNum (RF32 x)) -> run rho q = Some (FNum (RF32 (f32_mul x (factor32 m)))).
Proof. intros Hm [] E; cbn [frun]; rewrite E; cbn [with_mag fnum]; rewrite Hm; reflexivity. Qed.
Lemma divides_64 u (p q : prog k) m rho x : magnitude_of env mags u = Some m -> divides u p q ->
  run rho p = Some (FNum (RF64 x)) -> run rho q = Some (FNum (RF64 (f64_div x (factor64 m)))).
Proof. intros Hm [] E; cbn [frun]; rewrite E; cbn [with_mag fnum]; rewrite Hm; reflexivity. Qed.
Lemma divides_32 u (p q : prog k) m rho x : magnitude_of env mags u = Some m -> divides u p q ->
  run rho p = Some (FNum (RF32 x)) -> run rho q = Some (FNum (RF32 (f32_div x (factor32 m)))).
Proof. intros Hm [] E; cbn [frun]; rewrite E; cbn [with_mag fnum]; rewrite Hm; reflexivity. Qed.

(** The comparison of two rounded numbers. *)
Lemma rounded_compare prec emax (Hp : Prec_gt_0 prec) (z w : binary_float prec emax) a b :
  rounded prec emax a z -> rounded prec emax b w ->
  exists c, fcmp z w = Some c /\ (c = Datatypes.Lt -> ext_lt a b) /\ (c = Datatypes.Gt -> ext_lt b a).
Proof.
  intros A B. destruct (fcmp_total prec emax z w (rounded_number _ _ _ _ A) (rounded_number _ _ _ _ B)) as [c E].
  exists c. split; [exact E|]. split; intros ->.
  - exact (rounded_lt _ _ Hp _ _ _ _ A B E).
  - apply (rounded_lt _ _ Hp _ _ _ _ B A). rewrite fcmp_swap, E. reflexivity.
Qed.
End Two.

(** Two values [x] and [y], infinities included, times one unit each: exactly one of [<], [==] and [>]
    holds of the two results ([c]), and if it is [<] or [>], then it holds of the exact products, too. *)
Theorem C92_units_keep_the_order : forall k panic env M mags u1 u2 m1 m2 (p q : prog k),
  magnitude_of env mags u1 = Some m1 -> magnitude_of env mags u2 = Some m2 ->
  multiplies u1 (Var 0) p -> multiplies u2 (Var 1) q ->
  (forall x y a b, positive (into_f64 env m1) -> positive (into_f64 env m2) -> stands x a -> stands y b ->
   let a' := scaled a (B2R 53 1024 (into_f64 env m1)) in let b' := scaled b (B2R 53 1024 (into_f64 env m2)) in
   exists c, (forall r, frun panic env M mags [FNum (RF64 x); FNum (RF64 y)] (Compare r p q) = Some (FBool (holds r c))) /\
     (c = Datatypes.Lt -> ext_lt a' b') /\ (c = Datatypes.Gt -> ext_lt b' a')) /\
  (forall x y a b, positive (into_f32 env m1) -> positive (into_f32 env m2) -> stands x a -> stands y b ->
   let a' := scaled a (B2R 24 128 (into_f32 env m1)) in let b' := scaled b (B2R 24 128 (into_f32 env m2)) in
   exists c, (forall r, frun panic env M mags [FNum (RF32 x); FNum (RF32 y)] (Compare r p q) = Some (FBool (holds r c))) /\
     (c = Datatypes.Lt -> ext_lt a' b') /\ (c = Datatypes.Gt -> ext_lt b' a')).
Proof.
  intros k panic env M mags u1 u2 m1 m2 p q H1 H2 Hp Hq. split; intros x y a b P1 P2 A B a' b'.
  - destruct (rounded_compare 53 1024 eq_refl (f64_mul x (into_f64 env m1)) (f64_mul y (into_f64 env m2)) a' b') as (c & E & C).
    { apply mult_rounded; assumption. } { apply mult_rounded; assumption. }
    exists c. split; [|exact C]. intros r. erewrite compare_run.
    2:{ eapply multiplies_64; [exact H1|exact Hp|reflexivity]. } 2:{ eapply multiplies_64; [exact H2|exact Hq|reflexivity]. }
    cbn [raw_relation option_map]. now rewrite (relation_holds _ _ _ E).
  - destruct (rounded_compare 24 128 eq_refl (f32_mul x (into_f32 env m1)) (f32_mul y (into_f32 env m2)) a' b') as (c & E & C).
    { apply mult_rounded; assumption. } { apply mult_rounded; assumption. }
    exists c. split; [|exact C]. intros r. erewrite compare_run.
    2:{ eapply multiplies_32; [exact H1|exact Hp|reflexivity]. } 2:{ eapply multiplies_32; [exact H2|exact Hq|reflexivity]. }
    cbn [raw_relation option_map]. now rewrite (relation_holds _ _ _ E).
Qed.
Print Assumptions C92_units_keep_the_order.

(** The same of reading two quantities, each in a unit of its own. *)
Theorem C92_reading_keeps_the_order : forall k panic env M mags u1 u2 m1 m2 (p q : prog k),
  magnitude_of env mags u1 = Some m1 -> magnitude_of env mags u2 = Some m2 ->
  divides u1 (Var 0) p -> divides u2 (Var 1) q ->
  (forall x y a b, positive (into_f64 env m1) -> positive (into_f64 env m2) -> stands x a -> stands y b ->
   let a' := scaled a (/ B2R 53 1024 (into_f64 env m1)) in let b' := scaled b (/ B2R 53 1024 (into_f64 env m2)) in
   exists c, (forall r, frun panic env M mags [FNum (RF64 x); FNum (RF64 y)] (Compare r p q) = Some (FBool (holds r c))) /\
     (c = Datatypes.Lt -> ext_lt a' b') /\ (c = Datatypes.Gt -> ext_lt b' a')) /\
  (forall x y a b, positive (into_f32 env m1) -> positive (into_f32 env m2) -> stands x a -> stands y b ->
   let a' := scaled a (/ B2R 24 128 (into_f32 env m1)) in let b' := scaled b (/ B2R 24 128 (into_f32 env m2)) in
   exists c, (forall r, frun panic env M mags [FNum (RF32 x); FNum (RF32 y)] (Compare r p q) = Some (FBool (holds r c))) /\
     (c = Datatypes.Lt -> ext_lt a' b') /\ (c = Datatypes.Gt -> ext_lt b' a')).
Proof.
  intros k panic env M mags u1 u2 m1 m2 p q H1 H2 Hp Hq. split; intros x y a b P1 P2 A B a' b'.
  - destruct (rounded_compare 53 1024 eq_refl (f64_div x (into_f64 env m1)) (f64_div y (into_f64 env m2)) a' b') as (c & E & C).
    { apply div_rounded; assumption. } { apply div_rounded; assumption. }
    exists c. split; [|exact C]. intros r. erewrite compare_run.
    2:{ eapply divides_64; [exact H1|exact Hp|reflexivity]. } 2:{ eapply divides_64; [exact H2|exact Hq|reflexivity]. }
    cbn [raw_relation option_map]. now rewrite (relation_holds _ _ _ E).
  - destruct (rounded_compare 24 128 eq_refl (f32_div x (into_f32 env m1)) (f32_div y (into_f32 env m2)) a' b') as (c & E & C).
    { apply div_rounded; assumption. } { apply div_rounded; assumption. }
    exists c. split; [|exact C]. intros r. erewrite compare_run.
    2:{ eapply divides_32; [exact H1|exact Hp|reflexivity]. } 2:{ eapply divides_32; [exact H2|exact Hq|reflexivity]. }
    cbn [raw_relation option_map]. now rewrite (relation_holds _ _ _ E).
Qed.
Print Assumptions C92_reading_keeps_the_order.

(** Two numbers converted from one unit to another: if the results are in strict order, so were the numbers,
    and equal numbers give equal results; none of the results is a NaN. *)
Lemma convert_rounded prec emax (Hp : Prec_gt_0 prec) (mul div : binary_float prec emax -> binary_float prec emax -> binary_float prec emax)
  (Hm : forall x f a, stands x a -> positive f -> rounded prec emax (scaled a (B2R prec emax f)) (mul x f))
  (Hd : forall x f a, stands x a -> positive f -> rounded prec emax (scaled a (/ B2R prec emax f)) (div x f)) f1 f2 x y a b :
  positive f1 -> positive f2 -> stands x a -> stands y b ->
  exists c, fcmp (div (mul x f1) f2) (div (mul y f1) f2) = Some c /\
    (c = Datatypes.Lt -> ext_lt a b) /\ (c = Datatypes.Gt -> ext_lt b a).
Proof.
  intros P1 P2 A B. pose proof (Hm x f1 a A P1) as X. pose proof (Hm y f1 b B P1) as Y.
  destruct (stands_exists prec emax _ (rounded_number _ _ _ _ X)) as [a' A'].
  destruct (stands_exists prec emax _ (rounded_number _ _ _ _ Y)) as [b' B'].
  assert (I2 : (0 < / B2R prec emax f2)%R) by (apply Rinv_0_lt_compat; apply P2).
  destruct (rounded_compare _ _ Hp _ _ _ _ (Hd _ f2 _ A' P2) (Hd _ f2 _ B' P2)) as (c & E & L & G).
  exists c. split; [exact E|]. split; intros H.
  - apply (scaled_lt _ _ _ (proj2 P1)). apply (rounded_lt _ _ Hp _ _ _ _ X Y).
    apply (stands_lt _ _ _ _ a' b' A' B'). apply (scaled_lt _ _ _ I2). now apply L.
  - apply (scaled_lt _ _ _ (proj2 P1)). apply (rounded_lt _ _ Hp _ _ _ _ Y X).
    apply (stands_lt _ _ _ _ b' a' B' A'). apply (scaled_lt _ _ _ I2). now apply G.
Qed.

Theorem C92_conversion_keeps_the_order : forall k panic env M mags u1 u2 m1 m2 (p q p' q' : prog k),
  magnitude_of env mags u1 = Some m1 -> magnitude_of env mags u2 = Some m2 ->
  multiplies u1 (Var 0) p -> multiplies u1 (Var 1) q -> divides u2 p p' -> divides u2 q q' ->
  (forall x y a b, positive (into_f64 env m1) -> positive (into_f64 env m2) -> stands x a -> stands y b ->
   exists c, (forall r, frun panic env M mags [FNum (RF64 x); FNum (RF64 y)] (Compare r p' q') = Some (FBool (holds r c))) /\
     (c = Datatypes.Lt -> ext_lt a b) /\ (c = Datatypes.Gt -> ext_lt b a)) /\
  (forall x y a b, positive (into_f32 env m1) -> positive (into_f32 env m2) -> stands x a -> stands y b ->
   exists c, (forall r, frun panic env M mags [FNum (RF32 x); FNum (RF32 y)] (Compare r p' q') = Some (FBool (holds r c))) /\
     (c = Datatypes.Lt -> ext_lt a b) /\ (c = Datatypes.Gt -> ext_lt b a)).
Proof.
  intros k panic env M mags u1 u2 m1 m2 p q p' q' H1 H2 Hp Hq Hp' Hq'. split; intros x y a b P1 P2 A B.
  - destruct (convert_rounded 53 1024 eq_refl f64_mul f64_div (fun x f a => mult_rounded _ _ _ _ _ x f a)
      (fun x f a => div_rounded _ _ _ _ _ x f a) _ _ x y a b P1 P2 A B) as (c & E & C).
    exists c. split; [|exact C]. intros r. erewrite compare_run.
    2:{ eapply divides_64; [exact H2|exact Hp'|]. eapply multiplies_64; [exact H1|exact Hp|reflexivity]. }
    2:{ eapply divides_64; [exact H2|exact Hq'|]. eapply multiplies_64; [exact H1|exact Hq|reflexivity]. }
    cbn [raw_relation option_map]. now rewrite (relation_holds _ _ _ E).
  - destruct (convert_rounded 24 128 eq_refl f32_mul f32_div (fun x f a => mult_rounded _ _ _ _ _ x f a)
      (fun x f a => div_rounded _ _ _ _ _ x f a) _ _ x y a b P1 P2 A B) as (c & E & C).
    exists c. split; [|exact C]. intros r. erewrite compare_run.
    2:{ eapply divides_32; [exact H2|exact Hp'|]. eapply multiplies_32; [exact H1|exact Hp|reflexivity]. }
    2:{ eapply divides_32; [exact H2|exact Hq'|]. eapply multiplies_32; [exact H1|exact Hq|reflexivity]. }
    cbn [raw_relation option_map]. now rewrite (relation_holds _ _ _ E).
Qed.
Print Assumptions C92_conversion_keeps_the_order.

(** ** Values that clearly differ *)
Lemma product64 x f g m : (Z.of_nat m <= 2 ^ 40)%Z -> fin64 x -> approx m g f -> within_range (-1000) 1000 (v64 x * g) ->
  fin64 (f64_mul x f) /\ (Rabs (v64 (f64_mul x f) - v64 x * g) <= 2 * INR (m + 1) * bpow radix2 (-53) * Rabs (v64 x * g))%R.
Proof.
  intros Hm Fx [F1 N1] W1. change (nearp 53 m g (v64 f)) in N1.
  assert (Sm : forall k, (Z.of_nat k <= 2 ^ 42)%Z -> (INR k * bpow radix2 (-53) <= / 8)%R) by (intros k Hk; apply few; lia).
  pose proof (nearp_mul 53 ltac:(lia) 0 m _ _ _ _ (nearp_0 53 (v64 x)) N1) as A.
  destruct (f64_mul_error x f Fx F1) as (Fz & e & Be & Ez); [apply (range64_by _ _ _ (Sm (0 + m)%nat ltac:(lia)) A W1)|].
  split; [exact Fz|]. apply (nearp_error 53 ltac:(lia) (m + 1)); [apply Sm; lia|]. rewrite Ez.
  eapply (nearp_trans 53 ltac:(lia) m 1); [exact A|]. apply nearp_round; [lia|exact Be].
Qed.
Lemma product32 x f g m : (Z.of_nat m <= 2 ^ 29)%Z -> fin32 x -> approx m g f -> within_range (-120) 120 g ->
  within_range (-120) 120 (v32 x * g) ->
  fin32 (f32_mul x (f64_to_f32 f)) /\
  (Rabs (v32 (f32_mul x (f64_to_f32 f)) - v32 x * g) <= 6 * bpow radix2 (-24) * Rabs (v32 x * g))%R.
Proof.
  intros Hm Fx A1 G1 W1. destruct (single_factor m g f Hm A1 G1) as [F1 N1].
  assert (S' : (bpow radix2 (- (24)) <= / 64)%R) by (change (/ 64)%R with (bpow radix2 (-6)); apply bpow_le; lia).
  assert (Sm : forall k, (k <= 6)%nat -> (INR k * bpow radix2 (- (24)) <= / 8)%R).
  { intros k Hk. apply le_INR in Hk. replace (INR 6) with 6%R in Hk by (cbn; lra).
    pose proof (pos_INR k). pose proof (bpow_ge_0 radix2 (- (24))). set (w := bpow radix2 (- (24))) in *. nra. }
  pose proof (nearp_mul 24 ltac:(lia) 0 2 _ _ _ _ (nearp_0 24 (v32 x)) N1) as A.
  destruct (f32_mul_error x (f64_to_f32 f) Fx F1) as (Fz & e & Be & Ez); [apply (range32_by _ _ _ (Sm 2%nat ltac:(lia)) A W1)|].
  split; [exact Fz|]. replace 6%R with (2 * INR 3)%R by (cbn; lra). apply (nearp_error 24 ltac:(lia) 3); [apply Sm; lia|].
  rewrite Ez. apply (nearp_trans 24 ltac:(lia) 2 1 _ _ _ A). apply nearp_round; [lia|exact Be].
Qed.
Lemma apart {prec emax} (z w : binary_float prec emax) a b ea eb :
  is_finite prec emax z = true -> is_finite prec emax w = true ->
  (Rabs (B2R prec emax z - a) <= ea)%R -> (Rabs (B2R prec emax w - b) <= eb)%R -> (ea + eb < b - a)%R ->
  fcmp z w = Some Datatypes.Lt.
Proof.
  intros Fz Fw A B L. rewrite compare_fin by assumption. f_equal. apply Rcompare_Lt.
  apply Rabs_le_inv in A, B. lra.
Qed.

(** Two finite numbers, each times a unit of an accepted file: if the exact products differ by more than the
    roundings of the two results, the smaller one compares as smaller. *)
Theorem C92_clearly_smaller : forall k env lo f T o G C,
  good_platform env lo -> (lo <= -953)%Z -> accurate_pow k env ->
  wf_file f -> parse_system k (print_file f) = Some T ->
  run_unit_system (ops k) env T = Some (o, []) ->
  budget G C f ->
  forall panic M mags u1 u2 n1 n2 m1 m2 (p q : prog k),
  named o n1 m1 -> named o n2 m2 ->
  magnitude_of env mags u1 = Some m1 -> magnitude_of env mags u2 = Some m2 ->
  multiplies u1 (Var 0) p -> multiplies u2 (Var 1) q ->
  (forall x y, is_finite 53 1024 x = true -> is_finite 53 1024 y = true ->
   let a := (B2R 53 1024 x * Q2R (G n1))%R in let b := (B2R 53 1024 y * Q2R (G n2))%R in
   sized (-1000) 1000 a -> sized (-1000) 1000 b ->
   (2 * bpow radix2 (-53) * (INR (C n1 + 1) * Rabs a + INR (C n2 + 1) * Rabs b) < b - a)%R ->
   forall r, frun panic env M mags [FNum (RF64 x); FNum (RF64 y)] (Compare r p q) = Some (FBool (holds r Datatypes.Lt))) /\
  (forall x y, is_finite 24 128 x = true -> is_finite 24 128 y = true ->
   (Z.of_nat (C n1) <= 2 ^ 29)%Z -> (Z.of_nat (C n2) <= 2 ^ 29)%Z ->
   sized (-120) 120 (Q2R (G n1)) -> sized (-120) 120 (Q2R (G n2)) ->
   let a := (B2R 24 128 x * Q2R (G n1))%R in let b := (B2R 24 128 y * Q2R (G n2))%R in
   sized (-120) 120 a -> sized (-120) 120 b ->
   (6 * bpow radix2 (-24) * (Rabs a + Rabs b) < b - a)%R ->
   forall r, frun panic env M mags [FNum (RF32 x); FNum (RF32 y)] (Compare r p q) = Some (FBool (holds r Datatypes.Lt))).
Proof.
  intros k env lo f T o G C P Low A W E R B panic M mags u1 u2 n1 n2 m1 m2 p q D1 D2 H1 H2 Hp Hq.
  rewrite parse_print in E by exact W. assert (Few : forall s, small (C s)) by exact (proj2 B).
  pose proof (factors_near k env lo P Low A G C Few f T o E R B) as K.
  pose proof (K _ _ (named_fac env o n1 m1 D1)) as A1. pose proof (K _ _ (named_fac env o n2 m2 D2)) as A2. split.
  - intros x y Fx Fy a b Sa Sb L r.
    destruct (product64 x _ _ _ (Few n1) Fx A1 Sa) as [F1 N1]. destruct (product64 y _ _ _ (Few n2) Fy A2 Sb) as [F2 N2].
    erewrite compare_run.
    2:{ eapply multiplies_64; [exact H1|exact Hp|reflexivity]. } 2:{ eapply multiplies_64; [exact H2|exact Hq|reflexivity]. }
    cbn [raw_relation option_map]. do 2 f_equal. apply relation_holds. apply (apart _ _ a b _ _ F1 F2 N1 N2).
    fold a b. lra.
  - intros x y Fx Fy L1 L2 G1 G2 a b Sa Sb L r.
    destruct (product32 x _ _ _ L1 Fx A1 G1 Sa) as [F1 N1]. destruct (product32 y _ _ _ L2 Fy A2 G2 Sb) as [F2 N2].
    erewrite compare_run.
    2:{ eapply multiplies_32; [exact H1|exact Hp|reflexivity]. } 2:{ eapply multiplies_32; [exact H2|exact Hq|reflexivity]. }
    cbn [raw_relation option_map]. do 2 f_equal. apply relation_holds. apply (apart _ _ a b _ _ F1 F2 N1 N2).
    fold a b. lra.
Qed.
Print Assumptions C92_clearly_smaller.

(** In the bundled SI system, in both builds: a difference of [44 * 2^-53] (five parts in [10^15])
    is enough in double precision, and [6 * 2^-24] (four parts in [10^7]) in single precision. *)
Theorem C92_si : forall k env lo, good_platform env lo -> (lo <= -953)%Z -> accurate_pow k env ->
  exists T o, parse_system k si_source = Some T /\ run_unit_system (ops k) env T = Some (o, []) /\
  forall G, exact_solution G si_file -> forall panic M mags u1 u2 n1 n2 m1 m2 (p q : prog k),
  named o n1 m1 -> named o n2 m2 ->
  magnitude_of env mags u1 = Some m1 -> magnitude_of env mags u2 = Some m2 ->
  multiplies u1 (Var 0) p -> multiplies u2 (Var 1) q ->
  (forall x y, is_finite 53 1024 x = true -> is_finite 53 1024 y = true ->
   let a := (B2R 53 1024 x * Q2R (G n1))%R in let b := (B2R 53 1024 y * Q2R (G n2))%R in
   sized (-1000) 1000 a -> sized (-1000) 1000 b -> (44 * bpow radix2 (-53) * (Rabs a + Rabs b) < b - a)%R ->
   forall r, frun panic env M mags [FNum (RF64 x); FNum (RF64 y)] (Compare r p q) = Some (FBool (holds r Datatypes.Lt))) /\
  (forall x y, is_finite 24 128 x = true -> is_finite 24 128 y = true ->
   sized (-120) 120 (Q2R (G n1)) -> sized (-120) 120 (Q2R (G n2)) ->
   let a := (B2R 24 128 x * Q2R (G n1))%R in let b := (B2R 24 128 y * Q2R (G n2))%R in
   sized (-120) 120 a -> sized (-120) 120 b -> (6 * bpow radix2 (-24) * (Rabs a + Rabs b) < b - a)%R ->
   forall r, frun panic env M mags [FNum (RF32 x); FNum (RF32 y)] (Compare r p q) = Some (FBool (holds r Datatypes.Lt))).
Proof.
  intros k env lo P Low A. destruct (C64_accepted k env) as (T & o & E & R & _). exists T, o. split; [exact E|]. split; [exact R|].
  intros G S panic M mags u1 u2 n1 n2 m1 m2 p q D1 D2 H1 H2 Hp Hq.
  pose proof (si_near k env lo P Low A T o E R G S _ _ (named_fac env o n1 m1 D1)) as A1.
  pose proof (si_near k env lo P Low A T o E R G S _ _ (named_fac env o n2 m2 D2)) as A2. split.
  - intros x y Fx Fy a b Sa Sb L r.
    destruct (product64 x _ _ 21 ltac:(lia) Fx A1 Sa) as [F1 N1]. destruct (product64 y _ _ 21 ltac:(lia) Fy A2 Sb) as [F2 N2].
    assert (E22 : INR (21 + 1) = 22%R) by (cbn; lra). rewrite E22 in N1, N2.
    erewrite compare_run.
    2:{ eapply multiplies_64; [exact H1|exact Hp|reflexivity]. } 2:{ eapply multiplies_64; [exact H2|exact Hq|reflexivity]. }
    cbn [raw_relation option_map]. do 2 f_equal. apply relation_holds. apply (apart _ _ a b _ _ F1 F2 N1 N2).
    fold a b. lra.
  - intros x y Fx Fy G1 G2 a b Sa Sb L r.
    destruct (product32 x _ _ 21 ltac:(lia) Fx A1 G1 Sa) as [F1 N1]. destruct (product32 y _ _ 21 ltac:(lia) Fy A2 G2 Sb) as [F2 N2].
    erewrite compare_run.
    2:{ eapply multiplies_32; [exact H1|exact Hp|reflexivity]. } 2:{ eapply multiplies_32; [exact H2|exact Hq|reflexivity]. }
    cbn [raw_relation option_map]. do 2 f_equal. apply relation_holds. apply (apart _ _ a b _ _ F1 F2 N1 N2).
    fold a b. lra.
Qed.
Print Assumptions C92_si.

(** The hypotheses are met: inches and acres (dimensions are not looked at here), in double and in single
    precision, and an infinity. *)
Lemma approx_positive m g f : (Z.of_nat m <= 2 ^ 40)%Z -> approx m g f -> (0 < g)%R -> positive f.
Proof.
  intros Hm [F (t & B & E)] P. split; [exact F|]. rewrite E. pose proof (pw m). apply Rmult_lt_0_compat; lra.
Qed.
Lemma single_positive m g f : (Z.of_nat m <= 2 ^ 29)%Z -> approx m g f -> within_range (-120) 120 g -> (0 < g)%R ->
  positive (f64_to_f32 f).
Proof.
  intros Hm A W P. destruct (single_factor m g f Hm A W) as [F (t & B & E)]. split; [exact F|].
  rewrite E. pose proof (wpow 24 ltac:(lia) 2). apply Rmult_lt_0_compat; lra.
Qed.
Example C92_applies : forall k, exists T o G C ma mi,
  good_platform env_whole (-1023) /\ accurate_pow k env_whole /\ wf_file acre_file /\
  parse_system k (print_file acre_file) = Some T /\
  run_unit_system (ops k) env_whole T = Some (o, []) /\ budget G C acre_file /\
  named o "inch" mi /\ named o "acre" ma /\
  magnitude_of env_whole [mi; ma] (U 0) = Some mi /\ magnitude_of env_whole [mi; ma] (U 1) = Some ma /\
  positive (into_f64 env_whole mi) /\ positive (into_f64 env_whole ma) /\
  positive (into_f32 env_whole mi) /\ positive (into_f32 env_whole ma) /\
  multiplies (k := k) (U 0) (Var 0) (New (U 0) (Var 0)) /\ divides (k := k) (U 1) (Var 0) (ValueIn (Var 0) (U 1)) /\
  stands two (At 2) /\ stands f32_one (At 1) /\ stands (B754_infinity 53 1024 false) Above /\
  (Z.of_nat (C "inch") <= 2 ^ 29)%Z /\ (Z.of_nat (C "acre") <= 2 ^ 29)%Z /\
  sized (-120) 120 (Q2R (G "inch")) /\ sized (-120) 120 (Q2R (G "acre")) /\
  (let a := (B2R 53 1024 two * Q2R (G "inch"))%R in let b := (B2R 53 1024 two * Q2R (G "acre"))%R in
   sized (-1000) 1000 a /\ sized (-1000) 1000 b /\
   (2 * bpow radix2 (-53) * (INR (C "inch" + 1) * Rabs a + INR (C "acre" + 1) * Rabs b) < b - a)%R) /\
  (let a := (B2R 24 128 f32_one * Q2R (G "inch"))%R in let b := (B2R 24 128 f32_one * Q2R (G "acre"))%R in
   sized (-120) 120 a /\ sized (-120) 120 b /\ (6 * bpow radix2 (-24) * (Rabs a + Rabs b) < b - a)%R).
Proof.
  intros k. destruct (C71_applies_both k) as (Tm & o & G & C & W & P & A & E & R & B & G1 & G2 & C1 & C2).
  assert (K : match parse_system k (print_file acre_file) with
    Some t => existsb (names_itemb "acre") (decls (declared t)) && existsb (names_itemb "inch") (decls (declared t))
    | None => false end = true) by (destruct k; vm_compute; reflexivity).
  rewrite E in K. apply andb_true_iff in K as [K1 K2].
  destruct (named_exists env_whole (-1023) Tm o _ P R K1) as [ma Ma]. destruct (named_exists env_whole (-1023) Tm o _ P R K2) as [mi Mi].
  pose proof E as M. rewrite parse_print in M by exact W. assert (Few : forall s, small (C s)) by exact (proj2 B).
  pose proof (factors_near k env_whole (-1023) P ltac:(lia) A G C Few acre_file Tm o M R B) as N.
  pose proof (N _ _ (named_fac env_whole o _ _ Ma)) as Na. pose proof (N _ _ (named_fac env_whole o _ _ Mi)) as Ni.
  assert (Sa : sized (-120) 120 (Q2R (G "acre"))) by (rewrite G2; apply sized_Q; [lia|lia|vm_compute; reflexivity]).
  assert (Si : sized (-120) 120 (Q2R (G "inch"))) by (rewrite G1; apply sized_Q; [lia|lia|vm_compute; reflexivity]).
  assert (Pa : (0 < Q2R (G "acre"))%R) by (rewrite G2; unfold Q2R; cbn; lra).
  assert (Pi : (0 < Q2R (G "inch"))%R) by (rewrite G1; unfold Q2R; cbn; lra).
  exists Tm, o, G, C, ma, mi. repeat (split; [first [assumption|reflexivity]|]).
  split; [exact (approx_positive _ _ _ (Few "inch") Ni Pi)|]. split; [exact (approx_positive _ _ _ (Few "acre") Na Pa)|].
  split; [apply (single_positive (C "inch") (Q2R (G "inch"))); [rewrite C1; lia|exact Ni|exact Si|exact Pi]|].
  split; [apply (single_positive (C "acre") (Q2R (G "acre"))); [rewrite C2; lia|exact Na|exact Sa|exact Pa]|].
  split; [constructor|]. split; [constructor|]. split; [exact two_value|].
  assert (One : stands f32_one (At 1)) by (split; [reflexivity|compute; lra]).
  split; [exact One|]. split; [reflexivity|]. rewrite C1, C2. split; [lia|]. split; [lia|]. split; [exact Si|]. split; [exact Sa|].
  rewrite (proj2 two_value), (proj2 One), G1, G2.
  assert (Q1 : (Q2R (127 # 5000) = 127 / 5000)%R) by (unfold Q2R; cbn; lra).
  assert (Q2 : (Q2R (316160658 # 78125) = 316160658 / 78125)%R) by (unfold Q2R; cbn; lra).
  assert (T2 : (2 = Q2R (2 # 1))%R) by (unfold Q2R; cbn; lra).
  assert (U53 : (0 < bpow radix2 (-53) <= / 1000)%R).
  { split; [apply bpow_gt_0|]. apply Rle_trans with (bpow radix2 (-10)); [apply bpow_le; lia|]. compute; lra. }
  assert (U24 : (0 < bpow radix2 (-24) <= / 1000)%R).
  { split; [apply bpow_gt_0|]. apply Rle_trans with (bpow radix2 (-10)); [apply bpow_le; lia|]. compute; lra. }
  split; (split; [|split]).
  - rewrite T2, <- Q2R_mult. apply sized_Q; [lia|lia|vm_compute; reflexivity].
  - rewrite T2, <- Q2R_mult. apply sized_Q; [lia|lia|vm_compute; reflexivity].
  - rewrite Q1, Q2, !Rabs_pos_eq by lra. replace (INR (2 + 1)) with 3%R by (cbn; lra). replace (INR (10 + 1)) with 11%R by (cbn; lra). lra.
  - rewrite Rmult_1_l. apply sized_Q; [lia|lia|vm_compute; reflexivity].
  - rewrite Rmult_1_l. apply sized_Q; [lia|lia|vm_compute; reflexivity].
  - rewrite Q1, Q2, !Rabs_pos_eq by lra. lra.
Qed.

(** Rounding can make different values equal: the smallest positive double, stored in a unit of factor 1/4,
    is zero. *)
Example C92_may_be_equal : let tiny := B754_finite 53 1024 false 1 (-1074) eq_refl in let quarter := f64_of_decimal 25 (-2) in
  fcmp (f64_mul tiny quarter) (f64_mul f64_zero quarter) = Some Datatypes.Eq /\ fcmp tiny f64_zero = Some Datatypes.Gt.
Proof. split; reflexivity. Qed.
