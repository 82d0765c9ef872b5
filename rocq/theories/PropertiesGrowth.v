(** * Data written before statements were added: C96 *)
From Coq Require Import String Ascii List Bool ZArith QArith Qcanon Lia.
From Verif Require Import MachineInt Ratio F64 Magnitude Exponent ExponentFacts SMap Snake Expression DimensionMath DimensionMathFacts Types PrefixSpec ExpansionSpec
  Resolve ResolveLoop ResolveChecks SystemSpec ResolveFacts Expansion CodegenDimension CodegenDimensionFacts CodegenLiteral ResolveEquations Setting SystemFacts ExampleSystems Parse Grammar ParseFacts ParsedSystems
  Accuracy PropertiesDimension PropertiesExponents PropertiesParse PropertiesSystem PropertiesExtension
  Storage Raw Text TextFacts CodegenLiteral Debug TextSystem PropertiesDebug Serde SerdeFacts PropertiesSerde ExactFacts ExtensionFacts PropertiesLocal.
Import ListNotations.
Local Close Scope Q_scope.
Local Close Scope Qc_scope.
Local Close Scope Z_scope.
Local Open Scope string_scope.
Local Open Scope list_scope.

Section Ext.
Context (k : mode) (fs fs2 : list string).
Notation X := (ops k).
Hypothesis N : NoDup fs.
Hypothesis N2 : NoDup fs2.
Hypothesis Sub : incl fs fs2.

(** The same exponents, and zero in the new fields. *)
Definition ext (a a2 : dimval X) : Prop :=
  map fst a = fs /\ map fst a2 = fs2 /\ (forall f, In f fs -> sget f a = sget f a2) /\
  (forall f, In f fs2 -> ~ In f fs -> sget f a2 = Some (e_zero X)).
Definition oext (a a2 : option (dimval X)) : Prop :=
  match a, a2 with Some a, Some a2 => ext a a2 | None, None => True | _, _ => False end.

Lemma ext_eqb a a2 b b2 : ext a a2 -> ext b b2 -> dim_eqb X a b = dim_eqb X a2 b2.
Proof.
  intros (Sa & Sa2 & Ea & Za) (Sb & Sb2 & Eb & Zb). apply eq_true_iff_eq. rewrite !dim_eqb_eq. split; intros H.
  - apply (shaped_ext X fs2 N2); [exact Sa2|exact Sb2|]. intros f Hf. destruct (in_dec string_dec f fs) as [I|I].
    + rewrite <- (Ea f I), <- (Eb f I). now rewrite H.
    + now rewrite (Za f Hf I), (Zb f Hf I).
  - apply (shaped_ext X fs N); [exact Sa|exact Sb|]. intros f Hf. rewrite (Ea f Hf), (Eb f Hf). now rewrite H.
Qed.
Lemma shaped_get gs (a : dimval X) f : map fst a = gs -> NoDup gs -> In f gs -> exists x, sget f a = Some x /\ In (f, x) a.
Proof. intros S M H. subst gs. now apply sget_self_map. Qed.
Lemma get_in gs (a : dimval X) f x : map fst a = gs -> NoDup gs -> In (f, x) a -> sget f a = Some x /\ In f gs.
Proof. intros S M H. subst gs. split; [now apply sget_nodup|]. now apply (in_map fst) in H. Qed.

Lemma entries1_ext op a a2 : op (e_zero X) = Some (e_zero X) -> ext a a2 -> oext (entries1 X fs op a) (entries1 X fs2 op a2).
Proof.
  intros Z (Sa & Sa2 & Ea & Za). unfold oext.
  pose proof (entries1_defined X fs N op a Sa) as D1. pose proof (entries1_defined X fs2 N2 op a2 Sa2) as D2.
  destruct (entries1 X fs op a) as [c|] eqn:E1.
  - assert (Def : forall f x, In (f, x) a2 -> exists y, op x = Some y).
    { intros f x H. destruct (get_in fs2 a2 f x Sa2 N2 H) as [G I2]. destruct (in_dec string_dec f fs) as [I|I].
      - rewrite <- (Ea f I) in G. apply sget_In in G. exact (proj1 D1 (ex_intro _ c eq_refl) f x G).
      - rewrite (Za f I2 I) in G. injection G as <-. eauto. }
    destruct (proj2 D2 Def) as [c2 E2]. rewrite E2. pose proof (entries1_spec X fs N op a c E1) as [Sc Kc]. pose proof (entries1_spec X fs2 N2 op a2 c2 E2) as [Sc2 Kc2].
    split; [exact Sc|]. split; [exact Sc2|]. split.
    + intros f I. destruct (shaped_get fs a f Sa N I) as (x & G & Hx). destruct (proj1 D1 (ex_intro _ c eq_refl) f x Hx) as [y Hy].
      rewrite (proj2 (Kc f y)) by eauto. symmetry. apply Kc2. split; [now apply Sub|]. exists x. split; [now rewrite <- Ea|exact Hy].
    + intros f I2 I. apply Kc2. split; [exact I2|]. exists (e_zero X). split; [now apply Za|exact Z].
  - destruct (entries1 X fs2 op a2) as [c2|]; [|exact I]. destruct (proj2 D1) as [c Hc]; [|discriminate Hc].
    intros f x H. destruct (get_in fs a f x Sa N H) as [G I]. rewrite (Ea f I) in G. apply sget_In in G. exact (proj1 D2 (ex_intro _ c2 eq_refl) f x G).
Qed.
Lemma entries2_ext op a a2 b b2 : op (e_zero X) (e_zero X) = Some (e_zero X) -> ext a a2 -> ext b b2 -> oext (entries2 X fs op a b) (entries2 X fs2 op a2 b2).
Proof.
  intros Z (Sa & Sa2 & Ea & Za) (Sb & Sb2 & Eb & Zb). unfold oext.
  pose proof (entries2_defined X fs N op a b Sa Sb) as D1. pose proof (entries2_defined X fs2 N2 op a2 b2 Sa2 Sb2) as D2.
  destruct (entries2 X fs op a b) as [c|] eqn:E1.
  - assert (Def : forall f x y, In (f, x) a2 -> In (f, y) b2 -> exists z, op x y = Some z).
    { intros f x y H H'. destruct (get_in fs2 a2 f x Sa2 N2 H) as [G I2]. destruct (get_in fs2 b2 f y Sb2 N2 H') as [G' _]. destruct (in_dec string_dec f fs) as [I|I].
      - rewrite <- (Ea f I) in G. rewrite <- (Eb f I) in G'. apply sget_In in G, G'. exact (proj1 D1 (ex_intro _ c eq_refl) f x y G G').
      - rewrite (Za f I2 I) in G. rewrite (Zb f I2 I) in G'. injection G as <-. injection G' as <-. eauto. }
    destruct (proj2 D2 Def) as [c2 E2]. rewrite E2. pose proof (entries2_spec X fs N op a b c E1) as [Sc Kc]. pose proof (entries2_spec X fs2 N2 op a2 b2 c2 E2) as [Sc2 Kc2].
    split; [exact Sc|]. split; [exact Sc2|]. split.
    + intros f I. destruct (shaped_get fs a f Sa N I) as (x & G & Hx). destruct (shaped_get fs b f Sb N I) as (y & G' & Hy).
      destruct (proj1 D1 (ex_intro _ c eq_refl) f x y Hx Hy) as [z Hz].
      rewrite (proj2 (Kc f z)) by (split; [exact I|]; exists x, y; auto). symmetry. apply Kc2. split; [now apply Sub|]. exists x, y. rewrite <- Ea, <- Eb by exact I. auto.
    + intros f I2 I. apply Kc2. split; [exact I2|]. exists (e_zero X), (e_zero X). split; [now apply Za|]. split; [now apply Zb|exact Z].
  - destruct (entries2 X fs2 op a2 b2) as [c2|]; [|exact I]. destruct (proj2 D1) as [c Hc]; [|discriminate Hc].
    intros f x y H H'. destruct (get_in fs a f x Sa N H) as [G I]. destruct (get_in fs b f y Sb N H') as [G' _].
    rewrite (Ea f I) in G. rewrite (Eb f I) in G'. apply sget_In in G, G'. exact (proj1 D2 (ex_intro _ c2 eq_refl) f x y G G').
Qed.

Lemma zero_of_int : e_zero X = of_int k 0.
Proof. destruct k; reflexivity. Qed.
Lemma zero_mul e : e_mul_int X (e_zero X) e = Some (e_zero X).
Proof. rewrite zero_of_int, mul_of_int; rewrite Z.mul_0_l; reflexivity. Qed.
Lemma zero_plus : e_add X (e_zero X) (e_zero X) = Some (e_zero X).
Proof. rewrite zero_of_int, add_of_int; reflexivity. Qed.

Lemma map_zero_get gs f : In f gs -> sget f (map (fun f => (f, e_zero X)) gs) = Some (e_zero X).
Proof. induction gs as [|g gs IH]; intros []; cbn [map sget]; [subst; now rewrite String.eqb_refl|]. destruct (String.eqb f g); auto. Qed.
Lemma none_ext : oext (dim_none X fs) (dim_none X fs2).
Proof.
  rewrite (dim_none_eq X _ N), (dim_none_eq X _ N2). cbn [oext]. split; [now rewrite map_map, map_id|]. split; [now rewrite map_map, map_id|]. split.
  - intros f I. rewrite !map_zero_get; auto.
  - intros f I _. now apply map_zero_get.
Qed.
Lemma mul_ext a a2 e : ext a a2 -> oext (dim_mul X fs a e) (dim_mul X fs2 a2 e).
Proof. intros H. unfold dim_mul. rewrite (method1_eq X _ N), (method1_eq X _ N2). apply entries1_ext; [apply zero_mul|exact H]. Qed.
Lemma add_ext a a2 b b2 : ext a a2 -> ext b b2 -> oext (dim_add X fs a b) (dim_add X fs2 a2 b2).
Proof. intros H K. unfold dim_add. rewrite (method2_eq X _ N), (method2_eq X _ N2). apply entries2_ext; [apply zero_plus|exact H|exact K]. Qed.

Lemma denotes_ext a a2 v v2 : denotes k fs a v -> denotes k fs2 a2 v2 -> (forall f, In f fs -> v2 f = v f) ->
  (forall f, In f fs2 -> ~ In f fs -> v2 f = ZQc 0) -> ext a a2.
Proof.
  intros H H2 Hv Hz. split; [apply H|]. split; [apply H2|]. split.
  - intros f I. destruct (stands_for_get X fs N (laws k) a v f H I) as (e & -> & V & E).
    destruct (stands_for_get X fs2 N2 (laws k) a2 v2 f H2 (Sub f I)) as (e2 & -> & V2 & E2).
    f_equal. apply (l_inj _ (laws k)); auto. rewrite E, E2. symmetry. now apply Hv.
  - intros f I2 I. destruct (stands_for_get X fs2 N2 (laws k) a2 v2 f H2 I2) as (e2 & -> & V2 & E2).
    f_equal. destruct (l_zero _ (laws k)) as [Vz Ez]. apply (l_inj _ (laws k)); auto. rewrite E2, Ez. now apply Hz.
Qed.

(** ** Reading *)
Context (us us2 : list (runtime_unit X)) (env : fenv).
Hypothesis Look : forall s r, get_unit_by_symbol X us s = Some r -> exists r2, get_unit_by_symbol X us2 s = Some r2 /\ ext (ru_dim r) (ru_dim r2) /\ ru_mag r2 = ru_mag r.

(** The second outcome is the first one, unless that is an error. *)
Definition grown {A} (a a2 : outcome (dimval X * A)) : Prop :=
  match a with
  | Ok (d, x) => exists d2, a2 = Ok (d2, x) /\ ext d d2
  | Err => True
  | Panic => a2 = Panic
  end.
Lemma single_grown w : grown (read_single_unit_str X fs us (code_power X env) w) (read_single_unit_str X fs2 us2 (code_power X env) w).
Proof.
  unfold read_single_unit_str. set (p := if existsb _ w then _ else _). destruct p as [[unit e]| |]; cbn [andthen grown]; try exact I; try reflexivity.
  destruct (get_unit_by_symbol X us unit) as [r|] eqn:Er; cbn [or_err andthen]; [|exact I].
  destruct (Look unit r Er) as (r2 & -> & K & Em). cbn [or_err andthen]. rewrite <- Em in *. pose proof (mul_ext _ _ e K) as M.
  destruct (dim_mul X fs (ru_dim r) e), (dim_mul X fs2 (ru_dim r2) e); cbn [oext or_panic andthen grown] in *; try (exfalso; exact M); [eauto|reflexivity].
Qed.
Lemma units_grown ws : forall d d2 x, ext d d2 ->
  grown (read_units X fs us f64_mul (code_power X env) (d, x) ws) (read_units X fs2 us2 f64_mul (code_power X env) (d2, x) ws).
Proof.
  induction ws as [|w ws IH]; intros d d2 x H; cbn [read_units]; [cbn [grown]; eauto|].
  pose proof (single_grown w) as K. destruct (read_single_unit_str X fs us (code_power X env) w) as [[c y]| |]; cbn [grown andthen] in *; [|exact I|now rewrite K].
  destruct K as (c2 & -> & K). cbn [andthen fst snd]. pose proof (add_ext _ _ _ _ H K) as M.
  destruct (dim_add X fs d c), (dim_add X fs2 d2 c2); cbn [oext or_panic andthen] in *; try (exfalso; exact M); [now apply IH|reflexivity].
Qed.
Lemma read_grown ws : grown (code_read_unit_str X fs us env ws) (code_read_unit_str X fs2 us2 env ws).
Proof.
  unfold code_read_unit_str, read_unit_str. pose proof none_ext as M.
  destruct (dim_none X fs), (dim_none X fs2); cbn [oext or_panic andthen] in *; try (exfalso; exact M); [now apply units_grown|reflexivity].
Qed.
Lemma number_ext a a2 x : ext a a2 -> visit_number X fs a x = visit_number X fs2 a2 x.
Proof.
  intros H. unfold visit_number. pose proof none_ext as M.
  destruct (dim_none X fs), (dim_none X fs2); cbn [oext or_panic andthen] in *; [|exfalso; exact M|exfalso; exact M|reflexivity].
  now rewrite (ext_eqb _ _ _ _ H M).
Qed.
Lemma deserialize_grown s a a2 e : ext a a2 -> deserialize X fs us env s a e <> Err ->
  deserialize X fs2 us2 env s a2 e = deserialize X fs us env s a e.
Proof.
  intros H. destruct s as [f|v], e as [t|z|z|x|]; cbn [deserialize]; intros NE; try reflexivity; try (symmetry; now apply number_ext).
  - unfold visit_str_float in *. destruct (split_ws (trim t)) as [|n ws]; [reflexivity|]. destruct (parse_raw f n) as [y|]; cbn [or_err andthen] in *; [|reflexivity].
    pose proof (read_grown ws) as K.
    destruct (code_read_unit_str X fs us env ws) as [[d x]| |]; cbn [grown andthen] in *; [|now destruct NE|now rewrite K].
    destruct K as (d2 & -> & K). cbn [andthen] in *. unfold get_quantity_if_dimensions_match. destruct (raw_mul y (f64_as f x)); cbn [or_panic andthen]; [|reflexivity].
    now rewrite (ext_eqb _ _ _ _ K H).
  - unfold visit_str_vector in *. destruct (cut ")" (trim t)) as [[vp up]|]; cbn [or_err andthen] in *; [|reflexivity].
    destruct (cut "(" vp) as [[v0 vp']|]; cbn [or_err andthen] in *; [|reflexivity].
    destruct (Nat.eqb (length (split_ws vp')) (num_dims v)); [|reflexivity].
    destruct (parse_components (component v) (split_ws vp')) as [y|]; cbn [or_err andthen] in *; [|reflexivity].
    pose proof (read_grown (split_ws up)) as K.
    destruct (code_read_unit_str X fs us env (split_ws up)) as [[d x]| |]; cbn [grown andthen] in *; [|now destruct NE|now rewrite K].
    destruct K as (d2 & -> & K). cbn [andthen] in *. unfold get_quantity_if_dimensions_match. destruct (raw_mul (f64_as (component v) x) y); cbn [or_panic andthen]; [|reflexivity].
    now rewrite (ext_eqb _ _ _ _ K H).
Qed.
End Ext.

(** ** C96 *)
Lemma fields_grow k env f1 f2 T1 T2 o1 o2 : wf_file f1 -> wf_file f2 -> incl (sl_items f1) (sl_items f2) ->
  parse_system k (print_file f1) = Some T1 -> parse_system k (print_file f2) = Some T2 ->
  run_unit_system (ops k) env T1 = Some (o1, []) -> run_unit_system (ops k) env T2 = Some (o2, []) ->
  incl (df_base_dimensions o1) (df_base_dimensions o2).
Proof.
  intros W1 W2 Sub E1 E2 R1 R2. rewrite parse_print in E1, E2 by assumption. unfold mean_file in E1, E2.
  destruct (accepted_all (ops k) (laws k) env _ o1 (generated_ok_expand _ T1) R1) as (_ & res1 & d1 & _ & _ & -> & _).
  destruct (accepted_all (ops k) (laws k) env _ o2 (generated_ok_expand _ T2) R2) as (_ & res2 & d2 & _ & _ & -> & _).
  destruct (collect (mean_stmt k) (sl_items f1)) as [es1|] eqn:C1; [|discriminate E1].
  destruct (collect (mean_stmt k) (sl_items f2)) as [es2|] eqn:C2; [|discriminate E2].
  assert (I : incl es1 es2).
  { intros en Hen. destruct (collect_in _ _ _ _ C1 Hen) as (s & Hs & Ms).
    destruct (collect_all _ _ _ _ C2 (Sub s Hs)) as (en' & Hen' & Ms'). congruence. }
  assert (K : forall A (g : entry k -> list A), incl (flat_map g es1) (flat_map g es2)).
  { intros A g a Ha. apply in_flat_map in Ha as (en & Hen & Ha). apply in_flat_map. eauto. }
  assert (D : incl (u_dimensions T1) (u_dimensions T2)) by (injection E1 as <-; injection E2 as <-; apply K).
  cbn [out_of df_base_dimensions expand_templates u_dimensions]. intros b Hb. apply in_map_iff in Hb as (d & <- & Hd). apply filter_In in Hd as [Hd B].
  apply in_map_iff. exists d. split; [reflexivity|]. apply filter_In. split; [now apply D|exact B].
Qed.

Lemma tables_grow k env f1 f2 T1 T2 o1 o2 us1 us2 : wf_file f1 -> wf_file f2 -> incl (sl_items f1) (sl_items f2) ->
  parse_system k (print_file f1) = Some T1 -> parse_system k (print_file f2) = Some T2 ->
  readable_system k env T1 o1 us1 -> readable_system k env T2 o2 us2 ->
  forall t r, get_unit_by_symbol (ops k) us1 t = Some r ->
  exists r2, get_unit_by_symbol (ops k) us2 t = Some r2 /\ ext k (df_base_dimensions o1) (df_base_dimensions o2) (ru_dim r) (ru_dim r2) /\ ru_mag r2 = ru_mag r.
Proof.
  intros W1 W2 Sub E1 E2 (C1 & Hid1 & Us1) (C2 & Hid2 & Us2).
  pose proof (nodup_fields k env T1 o1 C1) as N1. pose proof (nodup_fields k env T2 o2 C2) as N2.
  pose proof (fields_grow k env f1 f2 T1 T2 o1 o2 W1 W2 Sub E1 E2 (proj1 C1) (proj1 C2)) as Fs.
  destruct (C75_adding_statements k env f1 f2 T1 T2 o1 o2 W1 W2 Sub E1 E2 (proj1 C1) (proj1 C2)) as (_ & Units & _).
  intros t r Er. destruct (lookup_known k env o1 us1 Us1 t r Er) as (u & name & Hu & Es & ->).
  destruct (lookup_symbol k env T1 o1 C1 us1 Us1 u name Hu Es) as (r' & Er' & (_ & _ & _ & Em & Ed)). assert (r' = r) by congruence. subst r'.
  destruct (lookup_symbol k env T2 o2 C2 us2 Us2 u name (Units u Hu) Es) as (r2 & Er2 & (_ & _ & _ & Em2 & Ed2)).
  exists r2. split; [exact Er2|]. split; [|congruence].
  destruct C1 as (R1 & Hl1 & Hi1 & Hs1). destruct C2 as (R2 & Hl2 & Hi2 & Hs2).
  destruct (unit_literal k env T1 o1 R1 Hl1 Hi1 Hs1 u Hu) as (d & Ed' & Sd & _). rewrite Ed in Ed'. injection Ed' as <-.
  destruct (unit_literal k env T2 o2 R2 Hl2 Hi2 Hs2 u (Units u Hu)) as (d2 & Ed2' & Sd2 & _). rewrite Ed2 in Ed2'. injection Ed2' as <-.
  apply (denotes_ext k _ _ N1 N2 Fs _ _ _ _ Sd Sd2); [reflexivity|]. intros b _ Hb.
  destruct (resolved_units_within k env T1 o1 R1 Hl1 Hi1 Hs1 u Hu) as [_ Kw]. unfold vec_of.
  destruct (sget b (un_dims u)) as [x|] eqn:Eb; [|reflexivity]. exfalso. apply Hb. apply (Kw b x). now apply sget_In.
Qed.

(** Add statements to a file, anywhere, new base dimensions included, and reorder it.  Whatever was not an
    error is read as before: the same stored value, or the same panic. *)
Theorem C96_still_readable : forall k env f1 f2 T1 T2 o1 o2 us1 us2 s X1 X2 v1 v2 e,
  wf_file f1 -> wf_file f2 -> incl (sl_items f1) (sl_items f2) ->
  parse_system k (print_file f1) = Some T1 -> parse_system k (print_file f2) = Some T2 ->
  readable_system k env T1 o1 us1 -> readable_system k env T2 o2 us2 ->
  denotes k (df_base_dimensions o1) X1 v1 -> denotes k (df_base_dimensions o2) X2 v2 ->
  (forall b, In b (df_base_dimensions o1) -> v2 b = v1 b) ->
  (forall b, In b (df_base_dimensions o2) -> ~ In b (df_base_dimensions o1) -> v2 b = ZQc 0) ->
  deserialize (ops k) (df_base_dimensions o1) us1 env s X1 e <> Err ->
  deserialize (ops k) (df_base_dimensions o2) us2 env s X2 e = deserialize (ops k) (df_base_dimensions o1) us1 env s X1 e.
Proof.
  intros k env f1 f2 T1 T2 o1 o2 us1 us2 s X1 X2 v1 v2 e W1 W2 Sub E1 E2 H1 H2 HX1 HX2 Hv Hz NE.
  pose proof (tables_grow k env f1 f2 T1 T2 o1 o2 us1 us2 W1 W2 Sub E1 E2 H1 H2) as Look.
  destruct H1 as (C1 & _), H2 as (C2 & _).
  pose proof (nodup_fields k env T1 o1 C1) as N1. pose proof (nodup_fields k env T2 o2 C2) as N2.
  pose proof (fields_grow k env f1 f2 T1 T2 o1 o2 W1 W2 Sub E1 E2 (proj1 C1) (proj1 C2)) as Fs.
  apply deserialize_grown; [exact N1|exact N2|exact Fs|exact Look|exact (denotes_ext k _ _ N1 N2 Fs X1 X2 v1 v2 HX1 HX2 Hv Hz)|exact NE].
Qed.
Print Assumptions C96_still_readable.

(** Reordering the statements changes nothing for the reader. *)
Theorem C96_reordered : forall k env f1 f2 T1 T2 o1 o2 us1 us2 s X1 X2 v e,
  wf_file f1 -> wf_file f2 -> (forall x, In x (sl_items f1) <-> In x (sl_items f2)) ->
  parse_system k (print_file f1) = Some T1 -> parse_system k (print_file f2) = Some T2 ->
  readable_system k env T1 o1 us1 -> readable_system k env T2 o2 us2 ->
  denotes k (df_base_dimensions o1) X1 v -> denotes k (df_base_dimensions o2) X2 v ->
  deserialize (ops k) (df_base_dimensions o1) us1 env s X1 e = deserialize (ops k) (df_base_dimensions o2) us2 env s X2 e.
Proof.
  intros k env f1 f2 T1 T2 o1 o2 us1 us2 s X1 X2 v e W1 W2 Same E1 E2 H1 H2 HX1 HX2.
  assert (S12 : incl (sl_items f1) (sl_items f2)) by (intros x; apply Same). assert (S21 : incl (sl_items f2) (sl_items f1)) by (intros x; apply Same).
  pose proof (fields_grow k env f1 f2 T1 T2 o1 o2 W1 W2 S12 E1 E2 (proj1 (proj1 H1)) (proj1 (proj1 H2))) as F12.
  pose proof (fields_grow k env f2 f1 T2 T1 o2 o1 W2 W1 S21 E2 E1 (proj1 (proj1 H2)) (proj1 (proj1 H1))) as F21.
  pose proof (C96_still_readable k env f1 f2 T1 T2 o1 o2 us1 us2 s X1 X2 v v e W1 W2 S12 E1 E2 H1 H2 HX1 HX2 ltac:(reflexivity) ltac:(intros b Hb Hn; destruct (Hn (F21 b Hb)))) as A.
  pose proof (C96_still_readable k env f2 f1 T2 T1 o2 o1 us2 us1 s X2 X1 v v e W2 W1 S21 E2 E1 H2 H1 HX2 HX1 ltac:(reflexivity) ltac:(intros b Hb Hn; destruct (Hn (F12 b Hb)))) as B.
  destruct (deserialize (ops k) (df_base_dimensions o1) us1 env s X1 e) as [r| |], (deserialize (ops k) (df_base_dimensions o2) us2 env s X2 e) as [r2| |];
    try reflexivity; first [symmetry; apply A; discriminate|apply B; discriminate].
Qed.
Print Assumptions C96_reordered.

(** ** [field_file], then [Time] and [second] put in front: ["2.5 km"] is 2500 in both *)
Definition timed_file : slist stmt := {| sl_trailing := false; sl_items :=
  SDimension [] "Time" None :: SUnit [UBase "Time"; USymbol "s"] "second" None None :: sl_items field_file |}.
Definition reads_check (f : slist stmt) (X : dimval (ops IntegerExponents)) (text : list ascii) (value : Z) : bool :=
  match parse_system IntegerExponents (print_file f) with
  | Some T => match run_unit_system (ops IntegerExponents) env0 T with
    | Some (o, []) =>
        (if list_eq_dec string_dec (df_base_dimensions o) (map fst X) then true else false)
        && struct_declaration_ok (df_base_dimensions o)
        && forallb symbol_ok (all_symbols IntegerExponents o)
        && match serde_units (ops IntegerExponents) env0 (CodegenLiteral.lit IntegerExponents) o with
           | Some us =>
               match deserialize (ops IntegerExponents) (df_base_dimensions o) us env0 (Float F64) X (EStr text) with
               | Ok (RF64 x) => f64_eqb x (f64_of_Z value)
               | _ => false
               end
           | None => false
           end
    | _ => false end
  | None => false
  end.
Lemma reads_ok f X text value : reads_check f X text value = true -> exists T o us x,
  parse_system IntegerExponents (print_file f) = Some T /\ readable_system IntegerExponents env0 T o us /\ df_base_dimensions o = map fst X /\
  deserialize (ops IntegerExponents) (df_base_dimensions o) us env0 (Float F64) X (EStr text) = Ok (RF64 x) /\
  f64_eqb x (f64_of_Z value) = true.
Proof.
  unfold reads_check. destruct (parse_system IntegerExponents (print_file f)) as [T|] eqn:E; [|discriminate].
  destruct (run_unit_system (ops IntegerExponents) env0 T) as [[o [|]]|] eqn:R; try discriminate.
  intros H. apply andb_true_iff in H as [H H4]. apply andb_true_iff in H as [H H3]. apply andb_true_iff in H as [H1 H2].
  destruct (serde_units _ _ _ o) as [us|] eqn:Eu; [|discriminate H4].
  destruct (deserialize _ _ us env0 _ _ _) as [[|x| |]| |] eqn:Ed; try discriminate H4.
  exists T, o, us, x. split; [reflexivity|]. split; [|split; [|split; [exact Ed|exact H4]]].
  - split; [|split; [now apply identifiers_check|exact Eu]].
    split; [exact R|]. split; [exact (integer_literals_ok _ T E)|]. split; [exact (parsed_i64_exponents _ _ T E)|exact H2].
  - destruct (list_eq_dec string_dec (df_base_dimensions o) (map fst X)) as [Q|]; [exact Q|discriminate H1].
Qed.
Lemma field_reads : reads_check field_file [("length", 1%Z)] (str "2.5 km") 2500 = true.
Proof. vm_compute. reflexivity. Qed.
Lemma timed_reads : reads_check timed_file [("time", 0%Z); ("length", 1%Z)] (str "2.5 km") 2500 = true.
Proof. vm_compute. reflexivity. Qed.

Example C96_applies : exists T1 T2 o1 o2 us1 us2 X1 X2 v1 v2 x,
  wf_file field_file /\ wf_file timed_file /\ incl (sl_items field_file) (sl_items timed_file) /\
  parse_system IntegerExponents (print_file field_file) = Some T1 /\ parse_system IntegerExponents (print_file timed_file) = Some T2 /\
  readable_system IntegerExponents env0 T1 o1 us1 /\ readable_system IntegerExponents env0 T2 o2 us2 /\
  denotes IntegerExponents (df_base_dimensions o1) X1 v1 /\ denotes IntegerExponents (df_base_dimensions o2) X2 v2 /\
  (forall b, In b (df_base_dimensions o1) -> v2 b = v1 b) /\
  (forall b, In b (df_base_dimensions o2) -> ~ In b (df_base_dimensions o1) -> v2 b = ZQc 0) /\
  df_base_dimensions o2 = "time" :: df_base_dimensions o1 /\
  deserialize (ops IntegerExponents) (df_base_dimensions o1) us1 env0 (Float F64) X1 (EStr (str "2.5 km")) = Ok (RF64 x) /\
  f64_eqb x (f64_of_Z 2500) = true.
Proof.
  destruct (reads_ok _ _ _ _ field_reads) as (T1 & o1 & us1 & x & E1 & H1 & F1 & D & Q).
  destruct (reads_ok _ _ _ _ timed_reads) as (T2 & o2 & us2 & x2 & E2 & H2 & F2 & _).
  destruct C83_applies as (_ & _ & _ & _ & W & _).
  pose (v := fun b : ident => if String.eqb b "length" then ZQc 1 else ZQc 0).
  exists T1, T2, o1, o2, us1, us2, [("length", 1%Z)], [("time", 0%Z); ("length", 1%Z)], v, v, x.
  split; [exact W|]. split.
  { split; [discriminate|]. cbn [sl_items timed_file field_file]. unfold wf_stmt, wf_ident.
    repeat (first [apply accept_name; reflexivity | apply Forall_nil | constructor | discriminate | reflexivity]). }
  split; [intros y Hy; now do 2 right|]. split; [exact E1|]. split; [exact E2|]. split; [exact H1|]. split; [exact H2|].
  rewrite F1, F2 in *. cbn [map fst] in *. split; [|split; [|split; [reflexivity|split; [|split; [reflexivity|split; [exact D|exact Q]]]]]].
  - split; [reflexivity|]. intros y e [K|[]]. injection K as <- <-. split; [exact I|reflexivity].
  - split; [reflexivity|]. intros y e [K|[K|[]]]; injection K as <- <-; (split; [exact I|reflexivity]).
  - intros b [<-|[<-|[]]] N; [reflexivity|]. destruct N. now left.
Qed.
(** What was an error may be accepted in the larger system: ["2 s"] is no error there. *)
Example C96_errors_may_vanish :
  reads_check timed_file [("time", 1%Z); ("length", 0%Z)] (str "2 s") 2 = true.
Proof. vm_compute. reflexivity. Qed.
