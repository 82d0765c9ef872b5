(** * Deserialization: C50, C51, C52

    [deserialize X fields units env s D e = Ok r]: reading the value [e] handed over by the data
    format, for the quantity type with storage [s] and dimension [D], gives the stored value [r];
    [Err]: it is an error; [Panic]: it panics (exponent arithmetic overflows). *)
From Coq Require Import String Ascii List Bool ZArith QArith Qcanon Lia Reals Permutation.
From Flocq Require Import IEEE754.Binary IEEE754.Bits.
From Verif Require Import MachineInt Ratio RatioFacts F64 Magnitude MagnitudeFacts Exponent ExponentFacts SMap
  Expression DimensionMath DimensionMathFacts Types Snake Resolve SystemSpec ResolveFacts
  ResolveEquations Expansion CodegenDimension CodegenDimensionFacts CodegenLiteral Setting
  SystemFacts ExampleSystems PropertiesDimension Storage Raw Text TextFacts Debug TextSystem
  PropertiesDebug Serde SerdeFacts.
Import ListNotations.
Local Close Scope R_scope.
Local Close Scope Q_scope.
Local Close Scope Qc_scope.
Local Open Scope list_scope.
Local Open Scope Z_scope.

(** ** Specification *)

(** Powers of factors: [powi] in the integer build, [powf] in the rational one, and the result as
    the library stores factors ([stored] is the identity on doubles of at least [2^-970], C37). *)
Definition unit_power k env (factor : f64) (e : Z) : f64 :=
  stored env (match k with
              | IntegerExponents => f_powi env factor e
              | RationalExponents => f_powf env factor (f64_of_Z e)
              end).
(** The product of the unit factors raised to their exponents, in double precision. *)
Definition product k env (terms : list (unit_def (ops k) * Z)) : f64 :=
  fold_left (fun p ue => f64_mul p (unit_power k env (into_f64 env (un_mag (fst ue))) (snd ue))) terms f64_one.

(** The text of a number with units: [text_terms k o ws terms]: every word of [ws] is a power of a unit. *)
Definition text_terms k (o : defs (ops k)) : list text -> list (unit_def (ops k) * Z) -> Prop :=
  Forall2 (unit_word k o).

(** The same text read over the reals. *)
Definition real_product k env (terms : list (unit_def (ops k) * Z)) : R :=
  fold_left (fun p ue => (p * powerRZ (B2R 53 1024 (into_f64 env (un_mag (fst ue)))) (snd ue))%R) terms 1%R.

(** What a program has: a compiled system whose symbols are identifiers, and the table of its units. *)
Definition readable_system k env T (o : defs (ops k)) us : Prop :=
  compiled k env T o /\ identifiers k o /\ serde_units (ops k) env (lit k) o = Some us.

(** ** Facts *)

Lemma unit_stable k env lo T o u : compiled k env T o -> good_platform env lo -> In u (df_units o) ->
  stable lo (into_f64 env (un_mag u)).
Proof.
  intros (R & [Hl _] & _) [Hlo Hp] Hu.
  apply (results_stable (ops k) (laws k) env (pow_encoded k env) lo (expand_templates T) o (un_name u)); auto.
  - lia.
  - apply generated_ok_expand.
  - left. exists u. auto.
Qed.

Lemma div_one (x : f64) : is_finite 53 1024 x = true -> f64_div x (f64_of_Z 1) = x.
Proof.
  intros F. destruct (f64_of_Z_exact 1) as (F1 & R1 & S1); [reflexivity|].
  unfold f64_div, b64_div.
  pose proof (Bdiv_correct 53 1024 eq_refl eq_refl binop_nan_pl64 mode_NE x (f64_of_Z 1)) as C.
  rewrite R1 in C. specialize (C R1_neq_R0).
  replace (B2R 53 1024 x / 1)%R with (B2R 53 1024 x) in C by (field).
  rewrite Generic_fmt.round_generic in C; [|apply BinarySingleNaN.valid_rnd_round_mode|apply generic_format_B2R].
  rewrite Raux.Rlt_bool_true in C by apply abs_B2R_lt_emax. destruct C as (C1 & C2 & C3).
  apply B2R_Bsign_inj; auto; [now rewrite C2|]. rewrite C3.
  - rewrite S1. now destruct (Bsign 53 1024 x).
  - destruct (Bdiv _ _ _ _ _ _ _ _); simpl in *; congruence.
Qed.

Lemma code_power_spec k env lo m e : good_platform env lo -> stable lo m -> - 2 ^ 31 <= e < 2 ^ 31 ->
  code_power (ops k) env m e = unit_power k env m e.
Proof.
  intros [Hlo Hp] Hm He. unfold code_power, unit_power. rewrite pow_law.
  rewrite (roundtrip_stable env lo) by (auto; lia). destruct k; cbn [pow].
  - unfold pow_int, as_i32. change (e_of_i32 (ops IntegerExponents) e) with e. now rewrite wrap_id by lia.
  - unfold pow_rat. change (e_of_i32 (ops RationalExponents) e) with (rint e). cbn [rint Ratio.num denom].
    rewrite div_one; [reflexivity|]. apply f64_of_Z_exact. lia.
Qed.

Lemma product_spec k env lo T o ws terms : compiled k env T o -> good_platform env lo -> text_terms k o ws terms ->
  factor_from k env f64_mul (code_power (ops k) env) f64_one terms = product k env terms.
Proof.
  intros C G H. unfold factor_from, product. generalize f64_one as x.
  induction H as [|w [u e] ws terms Hw H IH]; intros x; cbn [fold_left fst snd]; [reflexivity|].
  rewrite IH. unfold term_factor. cbn [fst snd]. do 2 f_equal.
  destruct Hw as (Hu & n & En & Hw). cbn [fst snd] in *.
  rewrite (code_power_spec k env lo); auto.
  - eapply unit_stable; eauto.
  - destruct Hw as [[_ ->]|(x' & _ & Hx)]; [lia|]. unfold parse_i32 in Hx.
    destruct (parse_int x'); [|discriminate]. destruct (Z.leb_spec (- 2 ^ 31) z); [|discriminate].
    destruct (Z.ltb_spec z (2 ^ 31)); [|discriminate]. simpl in Hx. injection Hx as <-. lia.
Qed.

Section Facts.
Context (k : mode) (env : fenv) (lo : Z) (T : unresolved (ops k) (unit_template (ops k))) (o : defs (ops k))
  (us : list (runtime_unit (ops k))).
Hypothesis G : good_platform env lo.
Hypothesis H : readable_system k env T o us.
Notation X := (ops k).
Notation fields := (df_base_dimensions o).
Notation read := (code_read_unit_str X fields us env).

Lemma code_Ok ws d x : read ws = Ok (d, x) -> exists terms, text_terms k o ws terms /\
  x = product k env terms /\ denotes k fields d (total_exponent k terms).
Proof.
  destruct H as (C & Hid & Us). intros E.
  destruct (read_Ok k env T o C Hid us Us f64_one f64_mul (code_power X env) ws d x E) as (terms & H1 & H2 & H3).
  exists terms. split; auto. split; auto. rewrite H2. eapply product_spec; eauto.
Qed.
Lemma code_terms ws terms : text_terms k o ws terms ->
  read ws = Panic \/ exists d, read ws = Ok (d, product k env terms) /\ denotes k fields d (total_exponent k terms).
Proof.
  destruct H as (C & Hid & Us). intros E.
  rewrite <- (product_spec k env lo T o ws terms C G E).
  exact (read_terms k env T o C Hid us Us f64_one f64_mul (code_power X env) ws terms E).
Qed.

Lemma dims_match D v d w r : denotes k fields D v -> denotes k fields d w ->
  (forall r', get_quantity_if_dimensions_match X D r d = Ok r' <->
    r' = r /\ forall f, In f fields -> w f = v f).
Proof.
  intros HD Hd r'. destruct H as (C & _). unfold get_quantity_if_dimensions_match.
  pose proof (C08_identity k fields d D w v (nodup_fields k env T o C) Hd HD) as Hi.
  destruct (dim_eqb X d D) eqn:E.
  - apply dim_eqb_eq in E. split; [intros Eq; split; [congruence|now apply Hi]|]. intros [-> _]. reflexivity.
  - split; [discriminate|]. intros [_ Hw]. apply Hi in Hw. apply dim_eqb_eq in Hw. congruence.
Qed.
End Facts.

(** ** C50 *)

Lemma parse_raw_mul f s x y : parse_raw f s = Some x -> exists r, raw_mul x (f64_as f y) = Some r.
Proof.
  destruct f; cbn [parse_raw f64_as].
  - destruct (parse_f32 s); [|discriminate]. intros E. injection E as <-. eexists; reflexivity.
  - destruct (parse_f64 s); [|discriminate]. intros E. injection E as <-. eexists; reflexivity.
Qed.

(** A string is accepted exactly if it is a number followed by powers of units whose product has
    exactly the target dimension; the value is the number times the product of the factors.
    (Unless reading panics: [C50_no_panic].) *)
Theorem C50_text : forall k env lo T o us f D v s r,
  good_platform env lo -> readable_system k env T o us -> denotes k (df_base_dimensions o) D v ->
  (deserialize (ops k) (df_base_dimensions o) us env (Float f) D (EStr s) = Ok r <->
   deserialize (ops k) (df_base_dimensions o) us env (Float f) D (EStr s) <> Panic /\
   exists number ws x terms,
     split_ws s = number :: ws /\ parse_raw f number = Some x /\ text_terms k o ws terms /\
     (forall b, In b (df_base_dimensions o) -> total_exponent k terms b = v b) /\
     raw_mul x (f64_as f (product k env terms)) = Some r).
Proof.
  intros k env lo T o us f D v s r G H HD. cbn [deserialize]. unfold visit_str_float. rewrite split_trim.
  destruct (split_ws s) as [|number ws].
  { split; [discriminate|]. intros (_ & n & ws & x & ts & E & _). discriminate E. }
  destruct (parse_raw f number) as [x|] eqn:Ep; cbn [or_err andthen].
  2:{ split; [discriminate|]. intros (_ & n & ws' & x & ts & E & Ex & _). congruence. }
  split.
  - intros E. split; [rewrite E; discriminate|].
    destruct (code_read_unit_str (ops k) (df_base_dimensions o) us env ws) as [[d y]| |] eqn:Er; try discriminate E.
    destruct (code_Ok k env lo T o us G H ws d y Er) as (terms & Ht & -> & Sd).
    cbn [andthen] in E. destruct (parse_raw_mul f number x (product k env terms) Ep) as [r' Em]. rewrite Em in E.
    cbn [or_panic andthen] in E. apply (dims_match k env T o us H D v d _ r' HD Sd) in E as [-> Ev].
    exists number, ws, x, terms. auto 6.
  - intros (Np & n & ws' & x' & terms & E & Ex & Ht & Ev & Em). injection E as <- <-.
    assert (x' = x) by congruence. subst x'.
    destruct (code_terms k env lo T o us G H ws terms Ht) as [Er|(d & Er & Sd)]; rewrite Er in Np |- *.
    + exfalso. now apply Np.
    + cbn [andthen] in *. rewrite Em. cbn [or_panic andthen].
      apply (dims_match k env T o us H D v d _ r HD Sd). auto.
Qed.
Print Assumptions C50_text.

(** Reading cannot panic if the units' exponents are integers and the exponents' absolute values,
    each times the exponent in the text, do not add up to [2^63]. *)
Definition fits k (o : defs (ops k)) (ws : list text) : Prop :=
  exists z, (forall u b, In u (df_units o) -> In b (df_base_dimensions o) -> exponent_in k u b = ZQc (z u b)) /\
  forall begin rest terms b, ws = begin ++ rest -> text_terms k o begin terms -> In b (df_base_dimensions o) ->
    fold_right (fun ue sum => Z.abs (snd ue * z (fst ue) b) + sum) 0 terms < 2 ^ 63.

Lemma fits_no_panic k env T o us ws : readable_system k env T o us -> fits k o ws ->
  code_read_unit_str (ops k) (df_base_dimensions o) us env ws <> Panic.
Proof.
  intros (C & Hid & Us) (z & Hz & Hb).
  apply (read_safe k env T o C Hid us Us f64_one f64_mul (code_power (ops k) env) ws z).
  intros a b terms E Ht. split.
  - intros ue f Hu. apply Hz. revert Hu. clear -Ht.
    induction Ht as [|w ue' ws terms Hw Ht IH]; [intros []|]. intros [<-|Hu]; [apply Hw|auto].
  - intros f Hf. eapply Hb; eauto.
Qed.

(** Over the reals the factor is exactly the product of the unit factors raised to their exponents:
    the function that reads the unit terms, run with real numbers in place of doubles. *)
Theorem C50_real_value : forall k env T o us ws d x,
  readable_system k env T o us ->
  read_unit_str (ops k) (df_base_dimensions o) us 1%R Rmult (fun m e => powerRZ (B2R 53 1024 m) e) ws = Ok (d, x) ->
  exists terms, text_terms k o ws terms /\ x = real_product k env terms /\
    denotes k (df_base_dimensions o) d (total_exponent k terms).
Proof.
  intros k env T o us ws d x (C & Hid & Us) E.
  exact (read_Ok k env T o C Hid us Us 1%R Rmult (fun m e => powerRZ (B2R 53 1024 m) e) ws d x E).
Qed.
Print Assumptions C50_real_value.

(** A plain number is accepted exactly for dimensionless targets, and taken as it is. *)
Definition number_of (f : float_type) (e : event) : option raw :=
  match e, f with
  | EI64 z, F32 | EU64 z, F32 => Some (RF32 (f32_of_Z z))
  | EI64 z, F64 | EU64 z, F64 => Some (RF64 (f64_of_Z z))
  | EF64 x, F32 => Some (RF32 (f64_to_f32 x))
  | EF64 x, F64 => Some (RF64 x)
  | _, _ => None
  end.

Theorem C50_number : forall k fields us env f D v e x,
  NoDup fields -> denotes k fields D v -> number_of f e = Some x ->
  (forall b, In b fields -> v b = ZQc 0) /\
    deserialize (ops k) fields us env (Float f) D e = Ok x \/
  ~ (forall b, In b fields -> v b = ZQc 0) /\
    deserialize (ops k) fields us env (Float f) D e = Err.
Proof.
  intros k fields us env f D v e x N HD He.
  assert (E : deserialize (ops k) fields us env (Float f) D e = visit_number (ops k) fields D x).
  { destruct e, f; cbn in He; try discriminate He; injection He as <-; reflexivity. }
  rewrite E. unfold visit_number. clear E He.
  destruct (none_stands_for (ops k) fields N (laws k)) as (d0 & -> & S0). cbn [or_panic andthen].
  pose proof (C08_identity k fields D d0 v (fun _ => ZQc 0) N HD S0) as Hi.
  destruct (dim_eqb (ops k) D d0) eqn:Ed.
  - left. split; auto. apply Hi. now apply dim_eqb_eq.
  - right. split; auto. intros Hv. apply Hi in Hv. apply dim_eqb_eq in Hv. congruence.
Qed.
Print Assumptions C50_number.

(** Nothing else is accepted: no numbers for vectors, no other kind of value. *)
Theorem C50_nothing_else : forall k fields us env s D e r,
  deserialize (ops k) fields us env s D e = Ok r ->
  (exists t, e = EStr t) \/ (exists f x, s = Float f /\ number_of f e = Some x).
Proof.
  intros k fields us env s D e r H.
  destruct s as [f|v], e; cbn in H; try discriminate H; eauto; right; destruct f;
    [exists F32|exists F64|exists F32|exists F64|exists F32|exists F64]; eexists; split; reflexivity.
Qed.
Print Assumptions C50_nothing_else.

(** ** A system with a large exponent *)

(** [dimension Length; #[base(Length)] #[symbol(m)] unit meter; #[symbol(x)] unit big = meter^4611686018427387904;] *)
Definition big_system k : unresolved (ops k) (unit_template (ops k)) := {|
  u_dimension_types := ["Dimension"]%string; u_quantity_types := ["Quantity"]%string;
  u_dimensions := [{| de_name := "Length"%string; de_rhs := DefBase tt |}];
  u_units := [base_unit k "meter"%string (Some "m"%string) "Length"%string;
              {| ut_name := "big"%string; ut_symbol := Some "x"%string; ut_aliases := []; ut_prefixes := [];
                 ut_annotation := None;
                 ut_definition := DefExpr (EVal (FPow (Other "meter"%string) (of_int k (2 ^ 62)))) |}];
  u_constants := [] |}.

Definition length_dim k (z : Z) : dimval (ops k) := [("length"%string, of_int k z)].

Lemma length_denotes k z : denotes k ["length"%string] (length_dim k z) (fun _ => ZQc z).
Proof.
  split; [reflexivity|]. intros f e [E|[]]. injection E as <- <-. apply of_int_val.
Qed.

(** [powf] of the platform: one to any power is one. *)
Definition env1 : fenv := env_rt (fun _ _ => f64_one).
Lemma good1 : good_platform env1 (-1023).
Proof. apply good_rt. Qed.

(** In a program compiled without overflow checks (the release profile) exponents wrap around when
    a string is read. *)
Definition release_unit (u : runtime_unit (int_exp Checked)) : runtime_unit (int_exp Wrapping) :=
  Build_runtime_unit (int_exp Wrapping) (ru_symbol u) (ru_dim u) (ru_mag u).

Definition is_ok {A} (r : outcome A) : bool := match r with Ok _ => true | _ => false end.
Definition is_panic {A} (r : outcome A) : bool := match r with Panic => true | _ => false end.
Lemma is_ok_Ok {A} (r : outcome A) : is_ok r = true -> exists a, r = Ok a.
Proof. destruct r; try discriminate. eauto. Qed.
Lemma is_panic_Panic {A} (r : outcome A) : is_panic r = true -> r = Panic.
Proof. now destruct r. Qed.

Definition release_check k : list (runtime_unit (ops k)) -> bool :=
  match k with
  | IntegerExponents => fun us =>
      is_ok (deserialize (int_exp Wrapping) ["length"%string] (map release_unit us) env1 (Float F64)
               [("length"%string, 0)] (EStr (str "1 x^4")))
  | RationalExponents => fun _ => true
  end.
Definition order_check k (us : list (runtime_unit (ops k))) : bool :=
  is_ok (deserialize (ops k) ["length"%string] us env1 (Float F64) (length_dim k (2 ^ 62)) (EStr (str "1 x x^-1 x"))) &&
  is_panic (deserialize (ops k) ["length"%string] us env1 (Float F64) (length_dim k (2 ^ 62)) (EStr (str "1 x x x^-1"))).

Lemma big_readable k : exists o us, readable_system k env1 (big_system k) o us /\
  df_base_dimensions o = ["length"%string] /\
  (exists u, In u (df_units o) /\ un_symbol u = Some "x"%string /\ un_dims u = length_dim k (2 ^ 62)) /\
  release_check k us = true /\ order_check k us = true.
Proof.
  assert (E : match run_unit_system (ops k) env1 (big_system k) with
              | Some (o, []) =>
                  match serde_units (ops k) env1 (lit k) o with
                  | Some us =>
                      df_base_dimensions o = ["length"]%string /\
                      forallb symbol_ok (all_symbols k o) = true /\
                      map (fun u => (un_symbol u, un_dims u)) (df_units o) =
                        [(Some "x"%string, length_dim k (2 ^ 62)); (Some "m"%string, length_dim k 1)] /\
                      release_check k us = true /\ order_check k us = true
                  | None => False end
              | _ => False end) by (destruct k; vm_compute; auto 6).
  destruct (run_unit_system (ops k) env1 (big_system k)) as [[o [|]]|] eqn:R; try contradiction.
  destruct (serde_units (ops k) env1 (lit k) o) as [us|] eqn:Eu; [|contradiction].
  destruct E as (Ef & Es & Em & Er & Eo). exists o, us. split; [|split; [exact Ef|split; [|auto]]].
  2:{ assert (I : In (Some "x"%string, length_dim k (2 ^ 62)) (map (fun u => (un_symbol u, un_dims u)) (df_units o)))
        by (rewrite Em; now left).
      apply in_map_iff in I as (u & E & Hu). exists u. split; auto. split; congruence. }
  split; [|split; [now apply identifiers_check|exact Eu]].
  split; [exact R|]. split; [|split].
  - split.
    + split; [|intros c x []]. intros u e c Hu He Hc. cbn in Hu. destruct Hu as [<-|[<-|[]]]; cbn in He; [discriminate He|].
      injection He as <-. cbn in Hc. destruct Hc as [Hc|[]]. discriminate Hc.
    + intros x p Hx Hp. cbn in Hx. destruct Hx as [<-|[<-|[<-|[]]]]; cbn in Hp; try contradiction.
      destruct Hp as [<-|[]]. apply of_int_val.
  - intros x p Hx Hp. cbn in Hx. destruct Hx as [<-|[<-|[<-|[]]]]; cbn in Hp; try contradiction.
    destruct Hp as [<-|[]]. destruct k; [reflexivity|split; reflexivity].
  - rewrite Ef. reflexivity.
Qed.

(** The string [1 x^4], of dimension [Length^18446744073709551616], is accepted for a dimensionless
    quantity by a program without overflow checks. *)
Theorem C50_release_refuted : exists o us terms ws r,
  readable_system IntegerExponents env1 (big_system IntegerExponents) o us /\
  df_base_dimensions o = ["length"%string] /\
  split_ws (str "1 x^4") = str "1" :: ws /\ text_terms IntegerExponents o ws terms /\
  total_exponent IntegerExponents terms "length"%string = ZQc (2 ^ 64) /\
  deserialize (int_exp Wrapping) (df_base_dimensions o) (map release_unit us) env1 (Float F64)
    [("length"%string, 0)] (EStr (str "1 x^4")) = Ok r.
Proof.
  destruct (big_readable IntegerExponents) as (o & us & H & Ef & (u & Hu & Es & Ed) & Er & _).
  destruct (is_ok_Ok _ Er) as [r Hr].
  exists o, us, [(u, 4)], [str "x^4"], r. split; [exact H|]. split; [exact Ef|]. split; [reflexivity|]. split; [|split].
  - constructor; [|constructor]. split; [exact Hu|]. exists "x"%string. split; [exact Es|]. right.
    exists (str "4"). split; reflexivity.
  - unfold total_exponent, total. cbn [map fold_right fst snd]. unfold exponent_in. rewrite Ed.
    apply Qc_is_canon. vm_compute. reflexivity.
  - rewrite Ef. exact Hr.
Qed.
Print Assumptions C50_release_refuted.

(** ** C51 *)

Lemma total_permutation k terms terms' f : Permutation terms terms' ->
  total_exponent k terms f = total_exponent k terms' f.
Proof.
  unfold total_exponent. intros P. induction P as [|ue l l' P IH|a b l|l l' l'' P IH P' IH'].
  - reflexivity.
  - cbn [map total fold_right fst snd]. unfold total in IH. now rewrite IH.
  - cbn [map total fold_right fst snd]. ring.
  - congruence.
Qed.

(** Permuting the unit terms does not change whether the text is accepted (unless reading panics). *)
Theorem C51_accepted : forall k env lo T o us f D v s s' number ws ws',
  good_platform env lo -> readable_system k env T o us -> denotes k (df_base_dimensions o) D v ->
  split_ws s = number :: ws -> split_ws s' = number :: ws' -> Permutation ws ws' ->
  deserialize (ops k) (df_base_dimensions o) us env (Float f) D (EStr s) <> Panic ->
  deserialize (ops k) (df_base_dimensions o) us env (Float f) D (EStr s') <> Panic ->
  ((exists r, deserialize (ops k) (df_base_dimensions o) us env (Float f) D (EStr s) = Ok r) <->
   (exists r, deserialize (ops k) (df_base_dimensions o) us env (Float f) D (EStr s') = Ok r)).
Proof.
  assert (K : forall k env lo T o us f D v s s' number ws ws',
    good_platform env lo -> readable_system k env T o us -> denotes k (df_base_dimensions o) D v ->
    split_ws s = number :: ws -> split_ws s' = number :: ws' -> Permutation ws ws' ->
    deserialize (ops k) (df_base_dimensions o) us env (Float f) D (EStr s') <> Panic ->
    (exists r, deserialize (ops k) (df_base_dimensions o) us env (Float f) D (EStr s) = Ok r) ->
    exists r, deserialize (ops k) (df_base_dimensions o) us env (Float f) D (EStr s') = Ok r).
  { intros k env lo T o us f D v s s' number ws ws' G H HD Es Es' P Np [r E].
    apply (C50_text k env lo T o us f D v s r G H HD) in E as (_ & n & ws0 & x & terms & E0 & Ex & Ht & Ev & Em).
    rewrite Es in E0. injection E0 as <- <-.
    destruct (Permutation_Forall2 P Ht) as (terms' & P' & Ht').
    destruct (parse_raw_mul f number x (product k env terms') Ex) as [r' Em'].
    exists r'. apply (C50_text k env lo T o us f D v s' r' G H HD). split; auto.
    exists number, ws', x, terms'. repeat (split; auto).
    intros b Hb. rewrite <- (total_permutation k terms terms' b P'). auto. }
  intros k env lo T o us f D v s s' number ws ws' G H HD Es Es' P Np Np'. split; intros E.
  - eapply (K k env lo T o us f D v s s' number ws ws'); eauto.
  - eapply (K k env lo T o us f D v s' s number ws' ws); eauto. now apply Permutation_sym.
Qed.
Print Assumptions C51_accepted.

(** Over the reals it changes neither the dimension nor the factor: the function that reads the
    unit terms, run with real numbers. *)
Definition read_real k (o : defs (ops k)) us (ws : list text) : outcome (dimval (ops k) * R) :=
  read_unit_str (ops k) (df_base_dimensions o) us 1%R Rmult (fun m e => powerRZ (B2R 53 1024 m) e) ws.

Lemma real_product_from k env terms : forall x,
  fold_left (fun p (ue : unit_def (ops k) * Z) => (p * powerRZ (B2R 53 1024 (into_f64 env (un_mag (fst ue)))) (snd ue))%R) terms x
  = (x * real_product k env terms)%R.
Proof.
  unfold real_product. induction terms as [|ue terms IH]; intros x; cbn [fold_left]; [ring|].
  rewrite IH, (IH (1 * _)%R). ring.
Qed.
Lemma real_product_permutation k env terms terms' : Permutation terms terms' ->
  real_product k env terms = real_product k env terms'.
Proof.
  intros P. induction P as [|ue l l' P IH|a b l|l l' l'' P IH P' IH'].
  - reflexivity.
  - unfold real_product. cbn [fold_left]. rewrite !real_product_from. now rewrite IH.
  - unfold real_product. cbn [fold_left]. rewrite !real_product_from. ring.
  - congruence.
Qed.

Theorem C51_real_value : forall k env T o us ws ws',
  readable_system k env T o us -> Permutation ws ws' ->
  read_real k o us ws <> Panic -> read_real k o us ws' <> Panic ->
  read_real k o us ws = read_real k o us ws'.
Proof.
  assert (K : forall k env T o us ws ws' d x, readable_system k env T o us -> Permutation ws ws' ->
            read_real k o us ws' <> Panic -> read_real k o us ws = Ok (d, x) -> read_real k o us ws' = Ok (d, x)).
  { intros k env T o us ws ws' d x H P Np E. unfold read_real in *.
    destruct (C50_real_value k env T o us ws d x H E) as (terms & Ht & -> & Sd).
    destruct (Permutation_Forall2 P Ht) as (terms' & P' & Ht'). pose proof H as (C & Hid & Us).
    destruct (read_terms k env T o C Hid us Us 1%R Rmult (fun m e => powerRZ (B2R 53 1024 m) e) ws' terms' Ht') as [E'|(d' & E' & Sd')].
    - contradiction.
    - rewrite E'. do 2 f_equal.
      + apply (C08_identity k (df_base_dimensions o) d' d _ _ (nodup_fields k env T o C) Sd' Sd).
        intros b _. symmetry. now apply total_permutation.
      + symmetry. exact (real_product_permutation k env terms terms' P'). }
  intros k env T o us ws ws' H P N N'.
  destruct (read_real k o us ws) as [[d x]| |] eqn:E; [|destruct (read_real k o us ws') as [[d x]| |] eqn:E'|]; try congruence.
  - symmetry. eapply K; eauto.
  - assert (Hp : read_real k o us ws = Ok (d, x)).
    { apply (K k env T o us ws' ws d x H (Permutation_sym P)); [congruence|exact E']. }
    congruence.
Qed.
Print Assumptions C51_real_value.

(** The doubles agree with the reals on acceptance and dimension. *)
Theorem C51_same_acceptance : forall k env o us ws,
  match code_read_unit_str (ops k) (df_base_dimensions o) us env ws, read_real k o us ws with
  | Ok (d, _), Ok (d', _) => d = d' | Err, Err => True | Panic, Panic => True | _, _ => False
  end.
Proof. intros. apply read_shape. Qed.
Print Assumptions C51_same_acceptance.

(** Whether reading panics can depend on the order. *)
Theorem C51_panic_refuted : forall k, exists o us D v s s' number ws ws' r,
  readable_system k env1 (big_system k) o us /\ denotes k (df_base_dimensions o) D v /\
  split_ws s = number :: ws /\ split_ws s' = number :: ws' /\ Permutation ws ws' /\
  deserialize (ops k) (df_base_dimensions o) us env1 (Float F64) D (EStr s) = Ok r /\
  deserialize (ops k) (df_base_dimensions o) us env1 (Float F64) D (EStr s') = Panic.
Proof.
  intros k. destruct (big_readable k) as (o & us & H & Ef & _ & _ & Eo).
  unfold order_check in Eo. apply andb_true_iff in Eo as [E1 E2].
  destruct (is_ok_Ok _ E1) as [r Hr]. apply is_panic_Panic in E2.
  exists o, us, (length_dim k (2 ^ 62)), (fun _ => ZQc (2 ^ 62)), (str "1 x x^-1 x"), (str "1 x x x^-1"),
    (str "1"), [str "x"; str "x^-1"; str "x"], [str "x"; str "x"; str "x^-1"], r.
  split; [exact H|]. rewrite Ef. split; [apply length_denotes|]. split; [reflexivity|]. split; [reflexivity|].
  split; [apply perm_skip, perm_swap|]. auto.
Qed.
Print Assumptions C51_panic_refuted.

(** ** C52 *)

(** The words [ws] are the numbers [r], one for each component. *)
Definition components_of (f : float_type) (ws : list text) (r : raw) : Prop :=
  match f with
  | F32 => exists xs, r = RVec32 xs /\ Forall2 (fun w x => parse_f32 w = Some x) ws xs
  | F64 => exists xs, r = RVec64 xs /\ Forall2 (fun w x => parse_f64 w = Some x) ws xs
  end.

Lemma components_iff f ws r : parse_components f ws = Some r <-> components_of f ws r.
Proof.
  destruct f; cbn [parse_components components_of].
  - destruct (mapM parse_f32 ws) as [xs|] eqn:E; cbn [option_map].
    + pose proof (proj1 (mapM_Some_iff _ _ _) E) as E'. split.
      * intros Er. injection Er as <-. eauto.
      * intros (ys & -> & Hy). apply (mapM_Some_iff parse_f32 ws ys) in Hy. do 2 f_equal. congruence.
    + split; [discriminate|]. intros (ys & -> & Hy). apply (mapM_Some_iff parse_f32 ws ys) in Hy. congruence.
  - destruct (mapM parse_f64 ws) as [xs|] eqn:E; cbn [option_map].
    + pose proof (proj1 (mapM_Some_iff _ _ _) E) as E'. split.
      * intros Er. injection Er as <-. eauto.
      * intros (ys & -> & Hy). apply (mapM_Some_iff parse_f64 ws ys) in Hy. do 2 f_equal. congruence.
    + split; [discriminate|]. intros (ys & -> & Hy). apply (mapM_Some_iff parse_f64 ws ys) in Hy. congruence.
Qed.

Lemma components_mul f ws x y : components_of f ws x -> exists r, raw_mul (f64_as f y) x = Some r.
Proof. destruct f; intros (xs & -> & _); eexists; reflexivity. Qed.

(** The words of a text that stand for units: after the first for a float, after the first closing
    bracket for a vector. *)
Definition unit_words (st : storage) (s : text) (ws : list text) : Prop :=
  match st with
  | Float _ => exists number, split_ws s = number :: ws
  | Vector _ => exists before units, trim s = before ++ ")"%char :: units /\ ~ In ")"%char before /\ ws = split_ws units
  end.

(** Whatever is read, into whatever quantity, panics only if the unit terms do not fit. *)
Theorem C50_no_panic : forall k env T o us st D e,
  readable_system k env T o us ->
  (forall s ws, e = EStr s -> unit_words st s ws -> fits k o ws) ->
  deserialize (ops k) (df_base_dimensions o) us env st D e <> Panic.
Proof.
  intros k env T o us st D e H Hf.
  assert (Num : forall x, visit_number (ops k) (df_base_dimensions o) D x <> Panic).
  { intros x. unfold visit_number. pose proof H as (C & _).
    destruct (none_stands_for (ops k) (df_base_dimensions o) (nodup_fields k env T o C) (laws k)) as (d0 & -> & _).
    cbn [or_panic andthen]. destruct (dim_eqb (ops k) D d0); discriminate. }
  destruct st as [f|v], e as [s|z|z|x|]; cbn [deserialize]; try apply Num; try discriminate.
  - unfold visit_str_float. rewrite split_trim.
    destruct (split_ws s) as [|number ws] eqn:Es; [discriminate|].
    destruct (parse_raw f number) as [x|] eqn:Ep; cbn [or_err andthen]; [|discriminate].
    pose proof (fits_no_panic k env T o us ws H (Hf s ws eq_refl (ex_intro _ number Es))) as Hn.
    destruct (code_read_unit_str (ops k) (df_base_dimensions o) us env ws) as [[d y]| |] eqn:Er; [|discriminate|congruence].
    cbn [andthen]. destruct (parse_raw_mul f number x y Ep) as [r ->]. cbn [or_panic andthen].
    unfold get_quantity_if_dimensions_match. destruct (dim_eqb (ops k) d D); discriminate.
  - unfold visit_str_vector.
    destruct (cut ")" (trim s)) as [[vp up]|] eqn:E1; [|discriminate]. cbn [or_err andthen].
    destruct (cut "(" vp) as [[pre body]|] eqn:E2; [|discriminate]. cbn [or_err andthen].
    destruct (Nat.eqb (length (split_ws body)) (num_dims v)); [|discriminate].
    destruct (parse_components (component v) (split_ws body)) as [x|] eqn:Ep; [|discriminate]. cbn [or_err andthen].
    assert (U : unit_words (Vector v) s (split_ws up)).
    { apply cut_iff in E1 as [E1 N1]. exists vp, up. auto. }
    pose proof (fits_no_panic k env T o us _ H (Hf s _ eq_refl U)) as Hn.
    destruct (code_read_unit_str (ops k) (df_base_dimensions o) us env (split_ws up)) as [[d y]| |] eqn:Er; [|discriminate|congruence].
    cbn [andthen]. apply components_iff in Ep. destruct (components_mul _ _ x y Ep) as [r' ->].
    cbn [or_panic andthen]. unfold get_quantity_if_dimensions_match. destruct (dim_eqb (ops k) d D); discriminate.
Qed.
Print Assumptions C50_no_panic.

(** In particular, in a system whose units have integer exponents of at most [M], a text with fewer than
    [2^32 / M] units never panics, however large the exponents in it. *)
Lemma num_ZQc e : Qnum (this (ZQc e)) = e.
Proof. now rewrite this_ZQc. Qed.
Lemma word_exponent k o w ue : unit_word k o w ue -> Z.abs (snd ue) <= 2 ^ 31.
Proof.
  intros (Hu & n & En & [[_ ->]|(x & _ & Hx)]); [lia|]. unfold parse_i32 in Hx.
  destruct (parse_int x) as [z|]; [|discriminate]. destruct (Z.leb_spec (- 2 ^ 31) z); [|discriminate].
  destruct (Z.ltb_spec z (2 ^ 31)); [|discriminate]. simpl in Hx. injection Hx as <-. lia.
Qed.
Theorem C50_few_units_no_panic : forall k env T o us st D e M,
  readable_system k env T o us -> 0 <= M ->
  (forall u b, In u (df_units o) -> In b (df_base_dimensions o) ->
     exists z, exponent_in k u b = ZQc z /\ Z.abs z <= M) ->
  (forall s ws, e = EStr s -> unit_words st s ws -> Z.of_nat (length ws) * M < 2 ^ 32) ->
  deserialize (ops k) (df_base_dimensions o) us env st D e <> Panic.
Proof.
  intros k env T o us st D e M H HM Hz Hl. apply (C50_no_panic k env T o us st D e H).
  intros s ws Es Uw. specialize (Hl s ws Es Uw).
  exists (fun u b => Qnum (this (exponent_in k u b))). split.
  - intros u b Hu Hb. destruct (Hz u b Hu Hb) as (z & -> & _). now rewrite num_ZQc.
  - intros pre rest terms b -> Ht Hb. rewrite app_length, Nat2Z.inj_add in Hl.
    assert (B : fold_right (fun ue sum => Z.abs (snd ue * Qnum (this (exponent_in k (fst ue) b))) + sum) 0 terms
                <= Z.of_nat (length pre) * M * 2 ^ 31).
    { clear -Ht Hz Hb HM. induction Ht as [|w ue ws terms Hw Ht IH]; cbn [fold_right length]; [lia|].
      pose proof (word_exponent k o w ue Hw) as He. destruct (Hz (fst ue) b (proj1 Hw) Hb) as (z & Ez & Bz).
      rewrite Ez, num_ZQc, Z.abs_mul.
      assert (Z.abs (snd ue) * Z.abs z <= 2 ^ 31 * M) by (apply Z.mul_le_mono_nonneg; lia).
      rewrite Nat2Z.inj_succ. lia. }
    assert (0 <= Z.of_nat (length rest) * M) by (apply Z.mul_nonneg_nonneg; lia).
    lia.
Qed.
Print Assumptions C50_few_units_no_panic.

(** What is accepted: after anything without round brackets, a list of exactly as many numbers as
    the vector has components between round brackets, then powers of units of its dimension.
    Missing from the strict form: the text before the opening bracket is not restricted. *)
Theorem C52_partial : forall k env lo T o us v D w s r,
  good_platform env lo -> readable_system k env T o us -> denotes k (df_base_dimensions o) D w ->
  (deserialize (ops k) (df_base_dimensions o) us env (Vector v) D (EStr s) = Ok r <->
   deserialize (ops k) (df_base_dimensions o) us env (Vector v) D (EStr s) <> Panic /\
   exists ignored numbers units x terms,
     trim s = ignored ++ "("%char :: numbers ++ ")"%char :: units /\
     ~ In "("%char ignored /\ ~ In ")"%char ignored /\ ~ In ")"%char numbers /\
     length (split_ws numbers) = num_dims v /\ components_of (component v) (split_ws numbers) x /\
     text_terms k o (split_ws units) terms /\
     (forall b, In b (df_base_dimensions o) -> total_exponent k terms b = w b) /\
     raw_mul (f64_as (component v) (product k env terms)) x = Some r).
Proof.
  intros k env lo T o us v D w s r G H HD. cbn [deserialize]. unfold visit_str_vector. split.
  - intros E. split; [rewrite E; discriminate|].
    destruct (cut ")" (trim s)) as [[vp up]|] eqn:E1; [|discriminate E]. cbn [or_err andthen] in E.
    destruct (cut "(" vp) as [[pre body]|] eqn:E2; [|discriminate E]. cbn [or_err andthen] in E.
    destruct (Nat.eqb_spec (length (split_ws body)) (num_dims v)) as [El|]; [|discriminate E].
    destruct (parse_components (component v) (split_ws body)) as [x|] eqn:Ep; [|discriminate E]. cbn [or_err andthen] in E.
    destruct (code_read_unit_str (ops k) (df_base_dimensions o) us env (split_ws up)) as [[d y]| |] eqn:Er; try discriminate E.
    destruct (code_Ok k env lo T o us G H (split_ws up) d y Er) as (terms & Ht & -> & Sd).
    cbn [andthen] in E. apply components_iff in Ep.
    destruct (components_mul _ _ x (product k env terms) Ep) as [r' Em]. rewrite Em in E.
    cbn [or_panic andthen] in E. apply (dims_match k env T o us H D w d _ r' HD Sd) in E as [-> Ev].
    apply cut_iff in E1 as [E1 N1]. apply cut_iff in E2 as [-> N2].
    exists pre, body, up, x, terms. split; [rewrite E1; now rewrite <- app_assoc|]. split; auto.
    split; [intros I; apply N1; apply in_or_app; now left|].
    split; [intros I; apply N1; apply in_or_app; right; now right|]. auto 6.
  - intros (Np & pre & body & up & x & terms & E & N1 & N2 & N3 & El & Ep & Ht & Ev & Em).
    assert (E1 : cut ")" (trim s) = Some (pre ++ "("%char :: body, up)).
    { apply cut_iff. split; [rewrite E; now rewrite <- app_assoc|].
      intros I. apply in_app_iff in I as [I|[I|I]]; auto. discriminate I. }
    assert (E2 : cut "(" (pre ++ "("%char :: body) = Some (pre, body)) by now apply cut_iff.
    rewrite E1 in Np |- *. cbn [or_err andthen] in Np |- *. rewrite E2 in Np |- *. cbn [or_err andthen] in Np |- *.
    rewrite El, Nat.eqb_refl in Np |- *. apply components_iff in Ep. rewrite Ep in Np |- *. cbn [or_err andthen] in Np |- *.
    destruct (code_terms k env lo T o us G H (split_ws up) terms Ht) as [Er|(d & Er & Sd)]; rewrite Er in Np |- *.
    + exfalso. now apply Np.
    + cbn [andthen] in *. rewrite Em. cbn [or_panic andthen].
      apply (dims_match k env T o us H D w d _ r HD Sd). auto.
Qed.
Print Assumptions C52_partial.

(** A string with text before the opening bracket is accepted. *)
Definition garbage : text := str "garbage 3 kg (1 2) m".

Definition garbage_check k (us : list (runtime_unit (ops k))) : bool :=
  is_ok (deserialize (ops k) ["length"%string; "time"%string] us env1 (Vector DVec2)
           [("length"%string, of_int k 1); ("time"%string, of_int k 0)] (EStr garbage)) &&
  is_ok (deserialize (ops k) ["length"%string; "time"%string] us env1 (Float F64)
           [("length"%string, of_int k 1); ("time"%string, of_int k (-2))] (EStr (str " 2.5 km h^-1  s^-1"))).

Lemma example_readable k : exists o us, readable_system k env1 (example k) o us /\
  df_base_dimensions o = ["length"; "time"]%string /\ garbage_check k us = true /\
  exists km s h, In km (df_units o) /\ In s (df_units o) /\ In h (df_units o) /\
    un_symbol km = Some "km"%string /\ un_symbol s = Some "s"%string /\ un_symbol h = Some "h"%string.
Proof.
  assert (E : match run_unit_system (ops k) env1 (example k) with
              | Some (o, []) =>
                  match serde_units (ops k) env1 (lit k) o with
                  | Some us =>
                      df_base_dimensions o = ["length"; "time"]%string /\
                      forallb symbol_ok (all_symbols k o) = true /\
                      forallb (fun s => existsb (String.eqb s) (all_symbols k o)) ["km"; "s"; "h"]%string = true /\
                      garbage_check k us = true
                  | None => False end
              | _ => False end) by (destruct k; vm_compute; auto 6).
  destruct (run_unit_system (ops k) env1 (example k)) as [[o [|]]|] eqn:R; try contradiction.
  destruct (serde_units (ops k) env1 (lit k) o) as [us|] eqn:Eu; [|contradiction].
  destruct E as (Ef & Es & Em & Eg). exists o, us. split; [|split; [exact Ef|split; [exact Eg|]]].
  2:{ assert (K : forall s, existsb (String.eqb s) (all_symbols k o) = true -> exists u, In u (df_units o) /\ un_symbol u = Some s).
      { intros s Hs. apply existsb_eqb in Hs. apply in_flat_map in Hs as (u & Hu & Hs). exists u. split; auto.
        destruct (un_symbol u) as [x|]; [|destruct Hs]. destruct Hs as [->|[]]. reflexivity. }
      cbn [forallb] in Em. rewrite !andb_true_iff in Em. destruct Em as (E1 & E2 & E3 & _).
      destruct (K _ E1) as (a & A1 & A2). destruct (K _ E2) as (b & B1 & B2). destruct (K _ E3) as (c & C1 & C2).
      exists a, b, c. auto 7. }
  split; [|split; [now apply identifiers_check|exact Eu]].
  destruct (example_compiled k) as (o' & _ & Hl & Hi & _).
  split; [exact R|]. split; [exact Hl|]. split; [exact Hi|]. rewrite Ef. reflexivity.
Qed.

Lemma two_denotes k a b : exists v, denotes k ["length"; "time"]%string [("length"%string, of_int k a); ("time"%string, of_int k b)] v /\
  v "length"%string = ZQc a /\ v "time"%string = ZQc b.
Proof.
  exists (fun f => if String.eqb f "length" then ZQc a else ZQc b). split; [|split; reflexivity].
  split; [reflexivity|]. intros f e [E|[E|[]]]; injection E as <- <-; apply of_int_val.
Qed.

Theorem C52_refuted : forall k, exists o us D w s r,
  readable_system k env1 (example k) o us /\ denotes k (df_base_dimensions o) D w /\
  deserialize (ops k) (df_base_dimensions o) us env1 (Vector DVec2) D (EStr s) = Ok r /\
  s = str "garbage 3 kg (1 2) m".
Proof.
  intros k. destruct (example_readable k) as (o & us & H & Ef & Eg & _).
  unfold garbage_check in Eg. apply andb_true_iff in Eg as [Eg _]. destruct (is_ok_Ok _ Eg) as [r Hr].
  destruct (two_denotes k 1 0) as (w & Hw & _).
  exists o, us, [("length"%string, of_int k 1); ("time"%string, of_int k 0)], w, garbage, r.
  split; [exact H|]. rewrite Ef. split; [exact Hw|]. split; [exact Hr|reflexivity].
Qed.
Print Assumptions C52_refuted.

(** [ 2.5 km h^-1  s^-1] is read as an acceleration in both builds; the terms can be permuted. *)
Example C50_applies : forall k, exists o us D v r,
  good_platform env1 (-1023) /\ readable_system k env1 (example k) o us /\ denotes k (df_base_dimensions o) D v /\
  v "length"%string = ZQc 1 /\ v "time"%string = ZQc (-2) /\
  deserialize (ops k) (df_base_dimensions o) us env1 (Float F64) D (EStr (str " 2.5 km h^-1  s^-1")) = Ok r.
Proof.
  intros k. destruct (example_readable k) as (o & us & H & Ef & Eg & _).
  unfold garbage_check in Eg. apply andb_true_iff in Eg as [_ Eg]. destruct (is_ok_Ok _ Eg) as [r Hr].
  destruct (two_denotes k 1 (-2)) as (w & Hw & W1 & W2).
  exists o, us, [("length"%string, of_int k 1); ("time"%string, of_int k (-2))], w, r.
  split; [exact good1|]. split; [exact H|]. rewrite Ef. auto.
Qed.
(** The units of that system have exponents of at most 2: no text with fewer than 2^31 units panics. *)
Definition small_exponent (M : Z) (q : Qc) : bool := (Qden (this q) =? 1)%positive && (Z.abs (Qnum (this q)) <=? M).
Lemma small_exponent_iff M q : small_exponent M q = true -> exists z, q = ZQc z /\ Z.abs z <= M.
Proof.
  unfold small_exponent. intros H. apply andb_true_iff in H as [D N]. apply Pos.eqb_eq in D. apply Z.leb_le in N.
  exists (Qnum (this q)). split; [|exact N]. apply Qc_is_canon. rewrite this_ZQc.
  destruct q as [[n d] c]. cbn in *. now subst.
Qed.
Example C50_few_units_applies : forall k, exists o us, readable_system k env1 (example k) o us /\
  forall u b, In u (df_units o) -> In b (df_base_dimensions o) -> exists z, exponent_in k u b = ZQc z /\ Z.abs z <= 2.
Proof.
  intros k. destruct (example_readable k) as (o & us & H & Ef & _). exists o, us. split; [exact H|]. intros u b Hu Hb.
  apply small_exponent_iff.
  assert (E : match run_unit_system (ops k) env1 (example k) with
              | Some (o, []) => forallb (fun u => forallb (fun b => small_exponent 2 (exponent_in k u b)) (df_base_dimensions o)) (df_units o)
              | _ => false end = true) by (destruct k; vm_compute; reflexivity).
  destruct H as ((R & _) & _). rewrite R in E. rewrite forallb_forall in E. specialize (E u Hu).
  rewrite forallb_forall in E. exact (E b Hb).
Qed.
Example C51_applies : split_ws (str " 2.5 km h^-1  s^-1") = [str "2.5"; str "km"; str "h^-1"; str "s^-1"] /\
  split_ws (str "2.5 s^-1 km h^-1") = [str "2.5"; str "s^-1"; str "km"; str "h^-1"] /\
  Permutation [str "km"; str "h^-1"; str "s^-1"] [str "s^-1"; str "km"; str "h^-1"].
Proof.
  split; [reflexivity|]. split; [reflexivity|].
  apply (Permutation_trans (l' := [str "km"; str "s^-1"; str "h^-1"])); [apply perm_skip, perm_swap|apply perm_swap].
Qed.
