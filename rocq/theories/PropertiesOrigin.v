(** * C82: the dimension of a result comes from the inputs, units and constants it was computed from *)
From Coq Require Import String List Bool ZArith QArith Qcanon Qabs Qreals Reals Lra Lia.
From Flocq Require Import Core IEEE754.Binary IEEE754.Bits.
From Verif Require Import MachineInt Ratio F64 FloatOps DecimalFacts NumericFacts FloatFacts Magnitude MagnitudeFacts Exponent ExponentFacts
  Expression Types PrefixSpec ExpansionSpec Resolve CodegenDimension CodegenDimensionFacts CodegenLiteral Storage Operators OperatorSpec OperatorFacts
  Raw UnitOps FloatMethods SystemSpec Setting ExampleSystems Parse Grammar ParseFacts ParsedSystems Accuracy FloatAccuracy RoundingSpec RoundingFacts AccuracyFacts
  ConversionFacts PropertiesParse FastCheck ResolveFacts ResolveEquations Expansion SystemFacts PropertiesSystem PropertiesSI
  Sources SiTree PropertiesSources Platform PropertiesUnits PropertiesMethods PropertiesAccuracy PropertiesConversion PropertiesExact
  PropertiesDimension PropertiesExponents PropertiesOperators Vector Programs FloatPrograms TrackSpec TrackFacts TrackVector TrackRun PropertiesPrograms
  Equivariance EquivarianceFacts PropertiesEquivariance IndependenceFacts PropertiesIndependence OriginSpec OriginFacts.
Import ListNotations.
Close Scope Q_scope. Close Scope Qc_scope. Close Scope R_scope.
Local Open Scope string_scope.
Local Open Scope list_scope.

Section Grading.
Context (k : mode) (fields : list string) (w : string -> Qc).
Definition graded (f : string) : R := exp (q (w f)).
Lemma graded_dot v : weight fields graded v = q (dot fields w v).
Proof.
  unfold weight, dot, graded. induction fields as [|f l IH]; cbn [fold_right]; [symmetry; apply (q_Z 0)|].
  rewrite IH, ln_exp, q_plus, q_mult. lra.
Qed.
Lemma graded_one d v : stands_for (ops k) fields (laws k) d v -> dot fields w v = Q2Qc 0 -> rescale k graded d = 1%R.
Proof. intros S Z. rewrite (rescale_weight k fields graded d v S), graded_dot, Z. change (Q2Qc 0) with (ZQc 0). rewrite q_Z. apply exp_0. Qed.
Lemma graded_other d v : stands_for (ops k) fields (laws k) d v -> dot fields w v <> Q2Qc 0 -> rescale k graded d <> 1%R.
Proof.
  intros S Z E. rewrite (rescale_weight k fields graded d v S), graded_dot in E. rewrite <- exp_0 in E. apply exp_inv in E.
  apply Z. apply Qc_is_canon. apply eqR_Qeq. unfold q in E. rewrite E. unfold Q2R. cbn. lra.
Qed.
End Grading.

Lemma scale_num_one a : scale_num 1 a = a.
Proof. destruct a as [x|xs]; cbn [scale_num]; [f_equal; lra|]. f_equal. induction xs as [|x xs IH]; [reflexivity|]. cbn [map]. rewrite IH. f_equal. lra. Qed.
Lemma scale_fixed c a : c <> 1%R -> a = scale_num c a -> is_zero a.
Proof.
  intros N. unfold is_zero. assert (O : forall x, x = (c * x)%R -> x = 0%R).
  { intros x E. assert (K : ((c - 1) * x = 0)%R) by lra. apply Rmult_integral in K. destruct K; lra. }
  destruct a as [x|xs]; cbn [scale_num comps]; intros E.
  - injection E as E. constructor; [now apply O|constructor].
  - assert (E' : xs = map (Rmult c) xs) by congruence. clear E. induction xs as [|x xs IH]; constructor; cbn [map] in E'.
    + injection E' as E1 E2. now apply O.
    + apply IH. congruence.
Qed.

(** Whatever a program (without the four escapes of C07) computes from its inputs, over the reals: the
    dimension of the result is a product of powers of the dimensions of the inputs and of the units and
    constants the program names, or the result is zero. *)
Theorem C82_origin : forall k fields ft math units constants functions factors cvals G p s d v rho a,
  NoDup fields -> Forall (is_dimension k fields) units -> Forall (is_dimension k fields) constants ->
  Forall (type_ok k fields) G ->
  length factors = length units -> length cvals = length constants -> length rho = length G ->
  typed k fields ft math units constants true G p (T (TyQ s d)) -> stands_for (ops k) fields (laws k) d v ->
  eval functions factors cvals rho p = Some (VNum a) ->
  (exists terms, Forall (fun t => source k fields units constants G p (snd t)) terms /\
                 forall f, In f fields -> v f = combined terms f) \/
  is_zero a.
Proof.
  intros k fields ft math units constants functions factors cvals G p s d v rho a N HU HC HG LU LC LG Ht Hv Ev.
  (* the vectors of all sources *)
  assert (All : forall l, Forall (is_dimension k fields) l -> exists vs, Forall2 (fun d v => stands_for (ops k) fields (laws k) d v) l vs).
  { intros l H. induction H as [|x l [w Hw] _ [vs IH]]; [exists []; constructor|]. exists (w :: vs). now constructor. }
  pose (dims := flat_map (fun t => match t with T (TyQ _ d) => [d] | _ => [] end) G ++
    flat_map (fun i => match nth_error units i with Some d => [d] | None => [] end) (units_in p) ++
    flat_map (fun i => match nth_error constants i with Some d => [d] | None => [] end) (constants_in p)).
  assert (Src : Forall (fun d => is_dimension k fields d /\
    ((exists s, In (T (TyQ s d)) G) \/ (exists i, In i (units_in p) /\ nth_error units i = Some d) \/
     (exists i, In i (constants_in p) /\ nth_error constants i = Some d))) dims).
  { rewrite Forall_forall in HU, HC, HG. apply Forall_app. split; [|apply Forall_app; split]; apply Forall_forall; intros x Hx; apply in_flat_map in Hx as (y & Hy & Hx).
    - destruct y as [[s' d'|s']|]; [|destruct Hx|destruct Hx]. destruct Hx as [->|[]]. split; [exact (HG _ Hy)|left; eauto].
    - destruct (nth_error units y) as [d'|] eqn:E; [|destruct Hx]. destruct Hx as [->|[]]. split; [exact (HU _ (nth_error_In _ _ E))|right; left; eauto].
    - destruct (nth_error constants y) as [d'|] eqn:E; [|destruct Hx]. destruct Hx as [->|[]]. split; [exact (HC _ (nth_error_In _ _ E))|right; right; eauto]. }
  destruct (All dims) as (vs & Hvs); [eapply Forall_impl; [|exact Src]; intros x Hx; exact (proj1 Hx)|].
  destruct (span_or_separated fields N vs v) as [(cs & Lc & Hc)|(w & Hw & Hd)].
  - left. exists (combine cs vs). split; [|exact Hc]. apply Forall_forall. intros (c, x) Hx. cbn [snd]. apply in_combine_r in Hx.
    assert (K : exists y, In y dims /\ stands_for (ops k) fields (laws k) y x).
    { clear -Hvs Hx. induction Hvs as [|y z l l' Hyz _ IH]; [destruct Hx|]. destruct Hx as [->|Hx]; [exists y; split; [now left|exact Hyz]|].
      destruct (IH Hx) as (y' & Hy & Hz). exists y'. split; [now right|exact Hz]. }
    destruct K as (y & Hy & Sy). rewrite Forall_forall in Src. exists y. split; [exact Sy|apply (Src y Hy)].
  - right. pose (lambda := graded w).
    assert (One : forall y, In y dims -> rescale k lambda y = 1%R).
    { intros y Hy. clear -Hvs Hw Hy. revert Hw. induction Hvs as [|y' z l l' Hyz _ IH]; [destruct Hy|]. intros Hw. inversion Hw; subst.
      destruct Hy as [->|Hy]; [|now apply IH]. exact (graded_one k fields w y z Hyz H1). }
    destruct (none_stands_for (ops k) fields N (laws k)) as (none & _ & Hnone).
    assert (Zn : rescale k lambda none = 1%R).
    { apply (graded_one k fields w none _ Hnone). unfold dot. clear. induction fields as [|f l IH]; [reflexivity|]. cbn [fold_right]. rewrite IH. 
      change (ZQc 0) with (Q2Qc 0). ring. }
    assert (Tab : forall named l xs, length xs = length l ->
      (forall j x, In j named -> nth_error l j = Some x -> rescale k lambda x = 1%R) -> scale_table k lambda (keep none named 0 l) xs = xs).
    { intros named l xs L H. assert (K : forall x, In x (keep none named 0 l) -> rescale k lambda x = 1%R).
      { intros x Hx. destruct (keep_in none named l 0 x Hx) as [->|(j & Hj & E)]; [exact Zn|exact (H j x Hj E)]. }
      assert (L' : length xs = length (keep none named 0 l)) by now rewrite keep_length. clear -K L'. unfold scale_table. revert xs L' K.
      induction (keep none named 0 l) as [|x r IH]; intros [|y ys] L K; try discriminate L; [reflexivity|]. cbn [combine map fst snd].
      rewrite (K x (or_introl eq_refl)), Rmult_1_l. f_equal. apply IH; [cbn [length] in L; lia|]. intros; apply K; now right. }
    assert (In_u : forall i x, In i (units_in p) -> nth_error units i = Some x -> In x dims).
    { intros i x Hi E. unfold dims. apply in_app_iff. right. apply in_app_iff. left. apply in_flat_map. exists i. split; [exact Hi|]. rewrite E. now left. }
    assert (In_c : forall i x, In i (constants_in p) -> nth_error constants i = Some x -> In x dims).
    { intros i x Hi E. unfold dims. apply in_app_iff. right. apply in_app_iff. right. apply in_flat_map. exists i. split; [exact Hi|]. rewrite E. now left. }
    assert (KU : forall named l, Forall (is_dimension k fields) l -> Forall (is_dimension k fields) (keep none named 0 l)).
    { intros named l H. apply Forall_forall. intros x Hx. destruct (keep_in none named l 0 x Hx) as [->|(j & _ & E)]; [eexists; exact Hnone|].
      rewrite Forall_forall in H. exact (H x (nth_error_In _ _ E)). }
    assert (Ht' : typed k fields ft math (keep none (units_in p) 0 units) (keep none (constants_in p) 0 constants) true G p (T (TyQ s d))).
    { apply (proj1 (typed_named k fields ft math units constants _ _ true G)); [exact Ht|]. split; intros i Hi; symmetry; now apply keep_nth. }
    assert (Pos : forall f, (0 < lambda f)%R) by (intros f; apply exp_pos).
    pose proof (C07_base_unit_independence k fields ft math lambda _ _ functions factors cvals G p _ rho N Pos
      (KU _ _ HU) (KU _ _ HC) HG Ht') as E.
    rewrite !Tab in E; [|exact LC|intros j x Hj Ej; exact (One x (In_c j x Hj Ej))|exact LU|intros j x Hj Ej; exact (One x (In_u j x Hj Ej))].
    assert (SG : scale_all k lambda G rho = rho).
    { assert (K : forall s' d', In (T (TyQ s' d')) G -> rescale k lambda d' = 1%R).
      { intros s' d' Hin. apply One. unfold dims. apply in_app_iff. left. apply in_flat_map. eexists. split; [exact Hin|now left]. }
      clear -K LG. revert rho LG K. induction G as [|t G IH]; intros [|y ys] L K; try discriminate L; [reflexivity|]. cbn [scale_all]. f_equal.
      - destruct t as [[s' d'|s']|]; try reflexivity. destruct y as [b|]; [|reflexivity]. cbn [scale_val].
        now rewrite (K s' d' (or_introl eq_refl)), scale_num_one.
      - apply IH; [cbn [length] in L; lia|]. intros; eapply K; right; eassumption. }
    rewrite SG, Ev in E. cbn [option_map scale_val] in E. injection E as E.
    exact (scale_fixed _ a (graded_other k fields w d v Hv Hd) E).
Qed.
Print Assumptions C82_origin.

(** In particular: without units, constants and inputs that carry a dimension, nothing but zero has one. *)
Theorem C82_no_units : forall k fields ft math units constants functions factors cvals G p s d v rho a,
  NoDup fields -> Forall (is_dimension k fields) units -> Forall (is_dimension k fields) constants ->
  Forall (no_dimension k fields) G -> units_in p = [] -> constants_in p = [] ->
  length factors = length units -> length cvals = length constants -> length rho = length G ->
  typed k fields ft math units constants true G p (T (TyQ s d)) -> stands_for (ops k) fields (laws k) d v ->
  eval functions factors cvals rho p = Some (VNum a) ->
  (forall f, In f fields -> v f = Q2Qc 0) \/ is_zero a.
Proof.
  intros k fields ft math units constants functions factors cvals G p s d v rho a N HU HC HG NU NC LU LC LG Ht Hv Ev.
  assert (Tok : Forall (type_ok k fields) G).
  { eapply Forall_impl; [|exact HG]. intros [[s' d'|s']|] H; [eexists; exact H|exact Logic.I|exact Logic.I]. }
  destruct (C82_origin k fields ft math units constants functions factors cvals G p s d v rho a N HU HC Tok LU LC LG Ht Hv Ev) as [(terms & Src & Eq)|Z]; [left|now right].
  intros f Hf. rewrite Eq by exact Hf. clear Eq. induction Src as [|(c, w) terms Hs _ IH]; [reflexivity|]. cbn [combined]. rewrite IH.
  destruct Hs as (d' & Sd & [(s' & Hin)|[(i & Hi & _)|(i & Hi & _)]]); [|rewrite NU in Hi; destruct Hi|rewrite NC in Hi; destruct Hi].
  rewrite Forall_forall in HG. specialize (HG _ Hin). cbn [no_dimension] in HG. cbn [snd] in Sd.
  destruct (stands_for_get (ops k) fields N (laws k) d' w f Sd Hf) as (e & E1 & _ & E2).
  destruct (stands_for_get (ops k) fields N (laws k) d' _ f HG Hf) as (e' & E1' & _ & E2').
  assert (e' = e) by congruence. subst e'. rewrite <- E2, E2'. change (ZQc 0) with (Q2Qc 0). ring.
Qed.
Print Assumptions C82_no_units.

(** ** What is computed *)
Lemma unit_dimension_is k env f T o : wf_file f -> (k = RationalExponents -> positive_denominators f) -> parse_system k (print_file f) = Some T ->
  run_unit_system (ops k) env T = Some (o, []) -> struct_declaration_ok (df_base_dimensions o) = true ->
  forall names units, Forall2 (unit_dimension o) names units -> Forall (is_dimension k (df_base_dimensions o)) units.
Proof.
  intros W Pd E Run Nd names units H. induction H as [|n d ns ds (l & Hl & El) _ IH]; constructor; [|exact IH].
  destruct (C60_source k env f T o [] l W E Pd Run Nd) as (d' & Ed & Sd).
  { right. destruct Hl as [(u & Hu & _ & <-)|(c & Hc & _ & <-)]; eauto. }
  assert (d' = d) by (rewrite El in Ed; congruence). subst d'. eexists; exact Sd.
Qed.

(** The result is a number (or vector) that consists of rounding errors only: it differs from zero by no
    more than its error bound. *)
Definition only_rounding64 (e : est) (v : fval) : Prop :=
  match e with
  | EN x s n => x = 0%R /\ exists y, v = FNum (RF64 y) /\ is_finite 53 1024 y = true /\
      (few_roundings (bpow radix2 (-53)) n -> Rabs (B2R 53 1024 y) <= 2 * INR n * bpow radix2 (-53) * s)%R
  | EV bs => exists ys, v = FNum (RVec64 ys) /\
      Forall2 (fun '(x, s, n) y => x = 0%R /\ is_finite 53 1024 y = true /\
        (few_roundings (bpow radix2 (-53)) n -> Rabs (B2R 53 1024 y) <= 2 * INR n * bpow radix2 (-53) * s)%R) bs ys
  | EB _ => False
  end.
Definition only_rounding32 (e : est) (v : fval) : Prop :=
  match e with
  | EN x s n => x = 0%R /\ exists y, v = FNum (RF32 y) /\ is_finite 24 128 y = true /\
      (few_roundings (bpow radix2 (-24)) n -> Rabs (B2R 24 128 y) <= 2 * INR n * bpow radix2 (-24) * s)%R
  | EV bs => exists ys, v = FNum (RVec32 ys) /\
      Forall2 (fun '(x, s, n) y => x = 0%R /\ is_finite 24 128 y = true /\
        (few_roundings (bpow radix2 (-24)) n -> Rabs (B2R 24 128 y) <= 2 * INR n * bpow radix2 (-24) * s)%R) bs ys
  | EB _ => False
  end.
Notation tracks64 units := (tracks (bpow radix2 (-53)) (-990) 990 units F64).
Notation tracks32 units := (tracks (bpow radix2 (-24)) (-110) 110 units F32).

(** With the units of an accepted file, in double precision: if the dimension of the result does not come
    from the inputs and units of the program, then the result is nothing but rounding errors. *)
Theorem C82_rounding : forall k env lo M f T o G C,
  good_platform env lo -> (lo <= -953)%Z -> accurate_pow k env -> good_math M -> good_powers M ->
  wf_file f -> (k = RationalExponents -> positive_denominators f) -> parse_system k (print_file f) = Some T ->
  run_unit_system (ops k) env T = Some (o, []) -> struct_declaration_ok (df_base_dimensions o) = true ->
  budget G C f ->
  forall names mags units, Forall2 (named o) names mags -> Forall2 (unit_dimension o) names units ->
  forall ft math ts p s d v inputs e, Forall (type_ok k (df_base_dimensions o)) ts ->
  typed k (df_base_dimensions o) ft math units [] true ts p (Programs.T (TyQ s d)) ->
  stands_for (ops k) (df_base_dimensions o) (laws k) d v ->
  length inputs = length ts -> Forall finite64 inputs ->
  tracks64 (double_units G C names) (map given64 inputs) p e -> (forall b, e <> EB b) ->
  exists w, frun stop env M mags (map (fun r => FNum r) inputs) p = Some w /\ result64 e w /\
  ((exists terms, Forall (fun t => source k (df_base_dimensions o) units [] ts p (snd t)) terms /\
                  forall b, In b (df_base_dimensions o) -> v b = combined terms b) \/
   only_rounding64 e w).
Proof.
  intros k env lo M f T o G C P Low A GM GP W Pd E Run Nd B names mags units Nm Ud ft math ts p s d v inputs e Tok Ty Sd Ln Fin K NB.
  pose (none := fun (_ : float_fn) (_ : R) => @None R).
  destruct (C79_vectors k env lo M f T o G C P Low A GM GP W E Run B names mags Nm none inputs p e Fin K) as (X & w & F & H).
  exists w. split; [exact F|]. split; [exact H|].
  assert (N : NoDup (df_base_dimensions o)) by (now apply nodupb_iff).
  pose proof (unit_dimension_is k env f T o W Pd E Run Nd names units Ud) as Du.
  assert (Lu : length (exact_factors G names) = length units).
  { unfold exact_factors. rewrite map_length. clear -Ud. induction Ud; cbn [length]; congruence. }
  assert (Go : forall a, exactly e = VNum a -> (exists terms, Forall (fun t => source k (df_base_dimensions o) units [] ts p (snd t)) terms /\
                  forall b, In b (df_base_dimensions o) -> v b = combined terms b) \/ is_zero a).
  { intros a Ea. rewrite Ea in X. refine (C82_origin k _ ft math units [] none (exact_factors G names) [] ts p s d v
      (map meaning64 inputs) a N Du (Forall_nil _) Tok Lu eq_refl _ Ty Sd X). now rewrite map_length. }
  clear -Go H NB. destruct e as [x s' n|bs|b]; cbn [exactly result64 only_rounding64] in *.
  - destruct (Go _ eq_refl) as [Y|Z]; [now left|right]. inversion Z as [|? ? Zx]; subst. split; [reflexivity|].
    destruct H as (y & -> & Fy & Hy). exists y. split; [reflexivity|]. split; [exact Fy|]. now rewrite Rminus_0_r in Hy.
  - destruct (Go _ eq_refl) as [Y|Z]; [now left|right]. destruct H as (ys & -> & Hy). exists ys. split; [reflexivity|].
    unfold is_zero in Z. cbn [comps] in Z. clear Go NB. induction Hy as [|[[x sx] nx] y bs ys [Fy Hy] _ IH]; constructor.
    + cbn [map fst] in Z. inversion Z as [|? ? Zx]; subst. split; [reflexivity|]. split; [exact Fy|]. now rewrite Rminus_0_r in Hy.
    + apply IH. cbn [map] in Z. now inversion Z.
  - now destruct (NB b).
Qed.
Print Assumptions C82_rounding.

Theorem C82_rounding_single : forall k env lo M f T o G C,
  good_platform env lo -> (lo <= -953)%Z -> accurate_pow k env -> good_math M -> good_powers M ->
  wf_file f -> (k = RationalExponents -> positive_denominators f) -> parse_system k (print_file f) = Some T ->
  run_unit_system (ops k) env T = Some (o, []) -> struct_declaration_ok (df_base_dimensions o) = true ->
  budget G C f ->
  forall names mags units, Forall2 (named o) names mags -> Forall2 (unit_dimension o) names units ->
  forall ft math ts p s d v inputs e, Forall (type_ok k (df_base_dimensions o)) ts ->
  typed k (df_base_dimensions o) ft math units [] true ts p (Programs.T (TyQ s d)) ->
  stands_for (ops k) (df_base_dimensions o) (laws k) d v ->
  length inputs = length ts -> Forall finite32 inputs ->
  tracks32 (single_units G C names) (map given32 inputs) p e -> (forall b, e <> EB b) ->
  exists w, frun stop env M mags (map (fun r => FNum r) inputs) p = Some w /\ result32 e w /\
  ((exists terms, Forall (fun t => source k (df_base_dimensions o) units [] ts p (snd t)) terms /\
                  forall b, In b (df_base_dimensions o) -> v b = combined terms b) \/
   only_rounding32 e w).
Proof.
  intros k env lo M f T o G C P Low A GM GP W Pd E Run Nd B names mags units Nm Ud ft math ts p s d v inputs e Tok Ty Sd Ln Fin K NB.
  pose (none := fun (_ : float_fn) (_ : R) => @None R).
  destruct (C79_vectors_single k env lo M f T o G C P Low A GM GP W E Run B names mags Nm none inputs p e Fin K) as (X & w & F & H).
  exists w. split; [exact F|]. split; [exact H|].
  assert (N : NoDup (df_base_dimensions o)) by (now apply nodupb_iff).
  pose proof (unit_dimension_is k env f T o W Pd E Run Nd names units Ud) as Du.
  assert (Lu : length (exact_factors G names) = length units).
  { unfold exact_factors. rewrite map_length. clear -Ud. induction Ud; cbn [length]; congruence. }
  assert (Go : forall a, exactly e = VNum a -> (exists terms, Forall (fun t => source k (df_base_dimensions o) units [] ts p (snd t)) terms /\
                  forall b, In b (df_base_dimensions o) -> v b = combined terms b) \/ is_zero a).
  { intros a Ea. rewrite Ea in X. refine (C82_origin k _ ft math units [] none (exact_factors G names) [] ts p s d v
      (map meaning32 inputs) a N Du (Forall_nil _) Tok Lu eq_refl _ Ty Sd X). now rewrite map_length. }
  clear -Go H NB. destruct e as [x s' n|bs|b]; cbn [exactly result32 only_rounding32] in *.
  - destruct (Go _ eq_refl) as [Y|Z]; [now left|right]. inversion Z as [|? ? Zx]; subst. split; [reflexivity|].
    destruct H as (y & -> & Fy & Hy). exists y. split; [reflexivity|]. split; [exact Fy|]. now rewrite Rminus_0_r in Hy.
  - destruct (Go _ eq_refl) as [Y|Z]; [now left|right]. destruct H as (ys & -> & Hy). exists ys. split; [reflexivity|].
    unfold is_zero in Z. cbn [comps] in Z. clear Go NB. induction Hy as [|[[x sx] nx] y bs ys [Fy Hy] _ IH]; constructor.
    + cbn [map fst] in Z. inversion Z as [|? ? Zx]; subst. split; [reflexivity|]. split; [exact Fy|]. now rewrite Rminus_0_r in Hy.
    + apply IH. cbn [map] in Z. now inversion Z.
  - now destruct (NB b).
Qed.
Print Assumptions C82_rounding_single.

(** ** The hypotheses can be met *)
Definition exponents (a b : Z) (f : string) : Qc := ZQc (if String.eqb f "length" then a else b).
Lemma two_denotes a b : stands_for (ops IntegerExponents) two_fields (laws IntegerExponents)
  [("length"%string, a); ("time"%string, b)] (exponents a b).
Proof. split; [reflexivity|]. intros f e [E|[E|[]]]; injection E as <- <-; split; try exact Logic.I; reflexivity. Qed.
(** [max(x / t, 5 * u / c)] for a length [x], a time [t], a unit of length and a constant that is a time:
    the theorem applies, the result is not zero, so its dimension (a speed) does come from them; here it is
    spelled out. *)
Example C82_applies :
  NoDup two_fields /\ Forall (is_dimension IntegerExponents two_fields) [length_] /\
  Forall (is_dimension IntegerExponents two_fields) [time_] /\ Forall (type_ok IntegerExponents two_fields) example_inputs /\
  typed IntegerExponents two_fields all_features true [length_] [time_] true example_inputs example_program (quantity f64_ speed) /\
  stands_for (ops IntegerExponents) two_fields (laws IntegerExponents) speed (exponents 1 (-1)) /\
  eval (fun _ _ => None) [1000%R] [2%R] [VNum (Sc 6000); VNum (Sc 2)] example_program = Some (VNum (Sc 3000)) /\
  ~ is_zero (Sc 3000) /\
  source IntegerExponents two_fields [length_] [time_] example_inputs example_program (exponents 1 0) /\
  source IntegerExponents two_fields [length_] [time_] example_inputs example_program (exponents 0 1) /\
  forall f, In f two_fields -> exponents 1 (-1) f = combined [(ZQc 1, exponents 1 0); (ZQc (-1), exponents 0 1)] f.
Proof.
  destruct C07_applies as (H1 & H2 & H3 & H4 & H5 & H6).
  split; [exact H5|]. split; [exact H3|]. split; [exact H4|]. split; [exact H2|]. split; [exact H1|]. split; [apply two_denotes|].
  split; [exact H6|]. split; [intros H; inversion H as [|? ? E]; lra|].
  split; [exists length_; split; [apply two_denotes|right; left; exists 0%nat; split; [now left|reflexivity]]|].
  split; [exists time_; split; [apply two_denotes|right; right; exists 0%nat; split; [now left|reflexivity]]|].
  intros f [<-|[<-|[]]]; reflexivity.
Qed.
(** The other case: [Quantity::zero()] as a speed, without any sources. *)
Example C82_zero :
  typed IntegerExponents two_fields all_features true [] [] true [] (Zero f64_ speed) (quantity f64_ speed) /\
  eval (fun _ _ => None) [] [] [] (Zero (k := IntegerExponents) f64_ speed) = Some (VNum (Sc 0)) /\ is_zero (Sc 0) /\
  ~ (exists terms, Forall (fun t => source IntegerExponents two_fields [] [] [] (Zero f64_ speed) (snd t)) terms /\
      forall f, In f two_fields -> exponents 1 (-1) f = combined terms f).
Proof.
  split; [constructor; apply is_dimension_two|]. split; [reflexivity|]. split; [repeat constructor|].
  intros (terms & H & E). destruct terms as [|(c, v) terms].
  - specialize (E "length"%string (or_introl eq_refl)). cbn in E. discriminate E.
  - inversion H as [|? ? (d & _ & [(s & [])|[(i & [] & _)|(i & [] & _)]])].
Qed.

(** The program [METER.new(x)] in the system of [metre_file]. *)
Example C82_rounding_applies : exists T o G C m1 m2 x s n,
  good_platform env0 (-1023) /\ accurate_powi (f_powi env0) /\ good_math math0 /\ good_powers math0 /\
  wf_file metre_file /\ parse_system IntegerExponents (print_file metre_file) = Some T /\
  run_unit_system (ops IntegerExponents) env0 T = Some (o, []) /\ struct_declaration_ok (df_base_dimensions o) = true /\
  budget G C metre_file /\ Forall2 (named o) ["meter"; "inch"] [m1; m2] /\
  Forall2 (unit_dimension o) ["meter"; "inch"] [one_length; one_length] /\
  Forall (type_ok IntegerExponents (df_base_dimensions o)) [number (Float F64)] /\
  typed IntegerExponents (df_base_dimensions o) all_features true [one_length; one_length] [] true [number (Float F64)]
    (New (U 1) (Var 0)) (quantity (Float F64) one_length) /\
  stands_for (ops IntegerExponents) (df_base_dimensions o) (laws IntegerExponents) one_length (fun _ => ZQc 1) /\
  Forall finite64 [RF64 two] /\
  tracks64 (double_units G C ["meter"; "inch"]) (map given64 [RF64 two]) (New (k := IntegerExponents) (U 1) (Var 0)) (EN x s n) /\
  x <> 0%R.
Proof.
  destruct (small_file metre_file (or_introl eq_refl)) as (T1 & o1 & W1 & E1 & R1 & D1 & N1 & U1 & (a1 & b1 & M1) & B1 & S1).
  assert (K1 : tG (small_table metre_file) "inch" = (127 # 5000)%Q /\ tC (small_table metre_file) "inch" = 2%nat) by (vm_compute; auto).
  destruct K1 as (Kb1 & Kd1). destruct two_value as [F2 V2].
  pose (G := tG (small_table metre_file)). pose (C := tC (small_table metre_file)).
  pose (i := Q2R (127 # 5000)). assert (Hi : i = (127 / 5000)%R) by (unfold i, Q2R; cbn; lra).
  assert (Ui : double_units G C ["meter"; "inch"] (U 1) i 2) by (exists "inch"; unfold G, C, i; rewrite Kb1, Kd1; auto).
  exists T1, o1, G, C, a1, b1, (2 * i)%R, (2 * Rabs i)%R, 3%nat. rewrite D1.
  split; [apply good_rt|]. split; [exact powi_rt_accurate|]. split; [exact math0_good|]. split; [exact math0_powers|].
  do 4 (split; [assumption || reflexivity|]). split; [exact B1|]. split; [exact M1|]. split; [exact U1|].
  split; [repeat constructor|]. split; [apply T_New; [now constructor|now constructor]|].
  split. { split; [reflexivity|]. intros g e [[= <- <-]|[]]. split; [exact Logic.I|reflexivity]. }
  split; [exact (Forall_cons (RF64 two) F2 (Forall_nil _))|]. split; [|rewrite Hi; lra].
  change (map given64 [RF64 two]) with (map input64 [two]). cbn [map]. unfold input64. rewrite V2. assert (A2 : Rabs 2 = 2%R) by (apply Rabs_pos_eq; lra). rewrite A2.
  apply k_times with (a := Var 0) (v := U 1) (x := 2%R) (s := 2%R) (n := 0%nat) (f := i) (m := 2%nat); [now left|now constructor|exact Ui|].
  assert (Ai : Rabs i = i) by (apply Rabs_pos_eq; rewrite Hi; lra). rewrite Ai, Hi. apply fine_size; [lia|lra].
Qed.
