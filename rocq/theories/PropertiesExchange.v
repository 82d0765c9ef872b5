(** * Reading what another system wrote: C84 *)
From Coq Require Import String Ascii List Bool ZArith QArith Qcanon Lia Reals Permutation.
From Flocq Require Import IEEE754.Binary IEEE754.Bits.
From Verif Require Import Parse Grammar ParseFacts ParsedSystems PropertiesParse PropertiesSystem ExpansionSpec ExactFacts PropertiesExtension RemovalFacts AnnotationFacts.
From Verif Require Import MachineInt Ratio RatioFacts F64 Magnitude MagnitudeFacts Exponent ExponentFacts SMap
  Expression DimensionMath DimensionMathFacts Types Snake Resolve SystemSpec ResolveFacts
  ResolveEquations Expansion CodegenDimension CodegenDimensionFacts CodegenLiteral Setting
  SystemFacts ExampleSystems PropertiesDimension Storage Raw Text TextFacts Debug TextSystem
  PropertiesDebug Serde SerdeFacts PropertiesSerde FloatOps NumberFormat RoundTripFacts PropertiesRoundTrip PropertiesExact PropertiesExponents.
Import ListNotations.
Local Close Scope R_scope.
Local Close Scope Q_scope.
Local Close Scope Qc_scope.
Local Open Scope list_scope.
Local Open Scope Z_scope.

(** The second system has all the units of the first, and possibly more base dimensions, which these
    units do not have. *)
Definition has_units_of k (o1 o2 : defs (ops k)) : Prop :=
  incl (df_units o1) (df_units o2) /\ incl (df_base_dimensions o1) (df_base_dimensions o2) /\
  forall u b, In u (df_units o1) -> ~ In b (df_base_dimensions o1) -> exponent_in k u b = 0%Qc.

(** What the first system writes the second reads back as the same value (conditions as in C48). *)
Theorem C84_between : forall k env lo T1 o1 us1 T2 o2 us2 fmt32 fmt64 s D1 D2 v value t,
  good_platform env lo -> ones env -> readable_system k env T1 o1 us1 -> readable_system k env T2 o2 us2 -> has_units_of k o1 o2 ->
  number_format parse_f32 (is_nan 24 128) fmt32 -> number_format parse_f64 (is_nan 53 1024) fmt64 ->
  denotes k (df_base_dimensions o1) D1 v -> denotes k (df_base_dimensions o2) D2 v ->
  (forall b, ~ In b (df_base_dimensions o1) -> v b = 0%Qc) ->
  (exists sym, coherent_symbol k env o1 sym v) \/ small_integers (df_base_dimensions o1) v ->
  stored_value s value ->
  serialize (ops k) env (lit k) (show k) fmt32 fmt64 o1 D1 value = Some (Some t) ->
  deserialize (ops k) (df_base_dimensions o2) us2 env s D2 (EStr t) = Ok value.
Proof.
  intros k env lo T1 o1 us1 T2 o2 us2 fmt32 fmt64 s D1 D2 v value t G One H1 H2 (Sub & Fsub & Fz) N32 N64 HD1 HD2 Vz Hv Sv E.
  unfold serialize in E.
  destruct (debug (ops k) env (lit k) (show k) o1 D1 (display fmt32 fmt64 value)) as [[t0|]|] eqn:Ed; try discriminate E.
  2:{ destruct value; discriminate E. }
  destruct (serialized_units k env lo T1 o1 us1 G One H1 D1 v _ t0 HD1 Hv Ed) as (ws & terms & Et & Hw & Hc & Ht & Hs & Hp & Hx0).
  assert (Iu : forall ue, In ue terms -> In (fst ue) (df_units o1)).
  { clear - Ht. induction Ht as [|w ue ws terms H0 Ht IH]; [intros ue []|]. intros x [<-|Hx]; [exact (proj1 H0)|auto]. }
  assert (Ht2 : text_terms k o2 ws terms).
  { clear - Ht Sub. induction Ht as [|w ue ws terms H0 Ht IH]; [constructor|]. constructor; [|exact IH].
    destruct H0 as [Hu Hr]. split; [now apply Sub|exact Hr]. }
  assert (Hs2 : forall b, In b (df_base_dimensions o2) -> total_exponent k terms b = v b).
  { intros b Hb. destruct (in_dec string_dec b (df_base_dimensions o1)) as [I|I]; [now apply Hs|]. rewrite (Vz b I).
    clear - Iu Fz I. unfold total_exponent. induction terms as [|ue terms IH]; [reflexivity|]. cbn [map total fold_right].
    cbn [fst snd]. unfold total in IH. rewrite IH by (intros x Hx; apply Iu; now right). rewrite (Fz (fst ue) b (Iu ue (or_introl eq_refl)) I).
    rewrite Qcmult_0_r. reflexivity. }
  assert (Hnp : code_read_unit_str (ops k) (df_base_dimensions o2) us2 env ws <> Panic).
  { apply (serialized_reads k env T2 o2 us2 H2 ws terms Ht2). destruct Hx0 as [(w & u & Ew & Hu & Hr)|(zu & Hz0 & Hz & Hb)].
    - left. exists w, u. split; [exact Ew|]. split; [now apply Sub|exact Hr].
    - right. exists zu. assert (Z0 : forall ue b, In ue terms -> ~ In b (df_base_dimensions o1) -> zu (fst ue) b = 0 /\ exponent_in k (fst ue) b = 0%Qc).
      { intros ue b Hue I. pose proof (Fz (fst ue) b (Iu ue Hue) I) as E0. split; [now apply Hz0|exact E0]. }
      split.
      + intros ue b Hue Hb2. destruct (in_dec string_dec b (df_base_dimensions o1)) as [I|I]; [now apply Hz|].
        destruct (Z0 ue b Hue I) as [-> ->]. now apply Qc_is_canon.
      + intros b Hb2. destruct (in_dec string_dec b (df_base_dimensions o1)) as [I|I]; [now apply Hb|].
        assert (W0 : weight k zu terms b = 0); [|rewrite W0; reflexivity].
        clear - Z0 I. unfold weight. induction terms as [|ue terms IH]; [reflexivity|]. cbn [fold_right].
        rewrite IH by (intros x c Hx; apply Z0; now right). destruct (Z0 ue b (or_introl eq_refl) I) as [-> _]. lia. }
  subst t0.
  assert (K : forall f x number, word number -> parse_raw f number = Some x ->
            raw_mul x (f64_as f f64_one) = Some x ->
            deserialize (ops k) (df_base_dimensions o2) us2 env (Float f) D2 (EStr (number ++ unwords ws)) = Ok x).
  { intros f x number Hn Ep Em.
    apply (C50_text k env lo T2 o2 us2 f D2 v _ x G H2 HD2). split.
    - cbn [deserialize]. unfold visit_str_float. rewrite split_trim, split_words, Ep by auto. cbn [or_err andthen].
      destruct (code_read_unit_str (ops k) (df_base_dimensions o2) us2 env ws) as [[d y]| |] eqn:Er; [|discriminate|congruence].
      cbn [andthen]. destruct (parse_raw_mul f number x y Ep) as [r ->]. cbn [or_panic andthen].
      unfold get_quantity_if_dimensions_match. destruct (dim_eqb (ops k) d D2); discriminate.
    - exists number, ws, x, terms. split; [now apply split_words|]. split; [exact Ep|]. split; [exact Ht2|].
      split; [exact Hs2|]. rewrite Hp. exact Em. }
  assert (Kv : forall vt x body, ~ In ")"%char body -> length (split_ws body) = num_dims vt ->
            components_of (component vt) (split_ws body) x ->
            raw_mul (f64_as (component vt) f64_one) x = Some x ->
            deserialize (ops k) (df_base_dimensions o2) us2 env (Vector vt) D2
              (EStr ("("%char :: body ++ ")"%char :: unwords ws)) = Ok x).
  { intros vt x body Nb El Ec Em.
    assert (Etr : trim ("("%char :: body ++ ")"%char :: unwords ws) = "("%char :: body ++ ")"%char :: unwords ws).
    { apply trim_bracketed; auto; unfold graphic; vm_compute; split; discriminate. }
    apply (C52_partial k env lo T2 o2 us2 vt D2 v _ x G H2 HD2). split.
    - cbn [deserialize]. unfold visit_str_vector. rewrite Etr.
      assert (E1 : cut ")" ("("%char :: body ++ ")"%char :: unwords ws) = Some ("("%char :: body, unwords ws)).
      { apply cut_iff. split; [reflexivity|]. intros [I|I]; [discriminate I|auto]. }
      assert (E2 : cut "(" ("("%char :: body) = Some ([], body)) by (apply cut_iff; split; [reflexivity|auto]).
      rewrite E1. cbn [or_err andthen]. rewrite E2. cbn [or_err andthen]. rewrite El, Nat.eqb_refl.
      rewrite (proj2 (components_iff _ _ _) Ec). cbn [or_err andthen]. rewrite units_split by auto.
      destruct (code_read_unit_str (ops k) (df_base_dimensions o2) us2 env ws) as [[d y]| |] eqn:Er; [|discriminate|congruence].
      cbn [andthen]. destruct (components_mul _ _ x y Ec) as [r ->]. cbn [or_panic andthen].
      unfold get_quantity_if_dimensions_match. destruct (dim_eqb (ops k) d D2); discriminate.
    - exists [], body, (unwords ws), x, terms. split; [rewrite Etr; reflexivity|].
      split; [intros []|]. split; [intros []|]. split; [exact Nb|]. split; [exact El|]. split; [exact Ec|].
      split; [rewrite units_split by auto; exact Ht2|]. split; [exact Hs2|]. rewrite Hp. exact Em. }
  destruct value as [x|x|xs|xs], s as [f|vt]; try (destruct Sv; fail); try (destruct f; destruct Sv; fail).
  - destruct f; [|destruct Sv]. cbn [stored_value] in Sv. assert (Et : t = fmt32 x ++ unwords ws) by (cbn [display] in E; congruence).
    rewrite Et. apply K.
    + eapply format_word; eauto.
    + cbn [parse_raw]. now rewrite (nf_round_trip _ _ _ N32 x Sv).
    + cbn [f64_as raw_mul]. do 2 f_equal. now apply mul_one_32.
  - destruct f; [destruct Sv|]. cbn [stored_value] in Sv. assert (Et : t = fmt64 x ++ unwords ws) by (cbn [display] in E; congruence).
    rewrite Et. apply K.
    + eapply format_word; eauto.
    + cbn [parse_raw]. now rewrite (nf_round_trip _ _ _ N64 x Sv).
    + cbn [f64_as raw_mul]. do 2 f_equal. now apply mul_one_64.
  - cbn [stored_value] in Sv. destruct Sv as (Ec & El & Hx).
    destruct (num_dims_pos vt) as [n En]. assert (Hne : xs <> []) by (intros ->; rewrite En in El; discriminate El).
    destruct (vector_string parse_f32 (is_nan 24 128) fmt32 xs ws N32 Hne Hc) as (body & Nb & Eb & Er).
    cbn [display option_map] in E. rewrite Er in E. assert (Et : t = "("%char :: body ++ ")"%char :: unwords ws) by congruence.
    rewrite Et. apply Kv; auto.
    + now rewrite Eb, map_length.
    + rewrite Ec, Eb. exists xs. split; auto. eapply parse_formats; eauto.
    + rewrite Ec. cbn [f64_as raw_mul]. do 2 f_equal. apply map_id_In. intros x Hin.
      rewrite Forall_forall in Hx. apply one_mul32. now apply Hx.
  - cbn [stored_value] in Sv. destruct Sv as (Ec & El & Hx).
    destruct (num_dims_pos vt) as [n En]. assert (Hne : xs <> []) by (intros ->; rewrite En in El; discriminate El).
    destruct (vector_string parse_f64 (is_nan 53 1024) fmt64 xs ws N64 Hne Hc) as (body & Nb & Eb & Er).
    cbn [display option_map] in E. rewrite Er in E. assert (Et : t = "("%char :: body ++ ")"%char :: unwords ws) by congruence.
    rewrite Et. apply Kv; auto.
    + now rewrite Eb, map_length.
    + rewrite Ec, Eb. exists xs. split; auto. eapply parse_formats; eauto.
    + rewrite Ec. cbn [f64_as raw_mul]. do 2 f_equal. apply map_id_In. intros x Hin.
      rewrite Forall_forall in Hx. apply f64_one_mul. now apply Hx.
Qed.
Print Assumptions C84_between.

(** ** A system that has grown *)
Lemma built_field {X} (S : unresolved X (unit_entry X)) n b : built_from S n b ->
  exists d, In d (u_dimensions S) /\ de_rhs d = DefBase tt /\ b = base_dimension_of (de_name d).
Proof. induction 1 as [d Hd Rd|]; eauto. Qed.

Lemma unit_fields k env T o u b : run_unit_system (ops k) env T = Some (o, []) -> literals_ok k T ->
  In u (df_units o) -> ~ In b (df_base_dimensions o) -> exponent_in k u b = 0%Qc.
Proof.
  intros R [_ V] Hu Nb. unfold run_unit_system in R.
  pose proof (proj1 (C27_accepted_iff_well_formed k env T o [] R) eq_refl) as [W _]. rewrite <- declared_expand in W.
  destruct (recorded _ (laws k) env _ o [] (generated_ok_expand _ T) V R W) as (res & Eo & Wr & En & Al).
  rewrite Eo in Hu. cbn [out_of df_units] in Hu. apply (get_units_In _ _ _ Wr) in Hu as (n & r & e & Hn & Te & ->).
  destruct (En n r Hn) as (x & Hx & Ix & Nx). destruct (Al x Hx) as (r' & Er & _ & _ & K). assert (r' = r) by congruence. subst r'.
  rewrite exponent_in_vec. cbn [un_dims]. unfold vec_of. destruct (sget b (dm_dims (ri_dims r))) as [y|] eqn:Ey; [|now apply Qc_is_canon].
  exfalso. apply Nb. assert (B : built_from (expand_templates T) (decl_name x) b) by (apply K, sget_keys; eauto).
  destruct (built_field _ _ _ B) as (d & Hd & Rd & ->). rewrite Eo. cbn [out_of df_base_dimensions].
  apply (in_map (fun d => base_dimension_of (de_name d))). apply filter_In. split; [exact Hd|]. unfold is_base_dimension. now rewrite Rd.
Qed.

(** Statements may be added to a system anywhere: whatever was written before is read afterwards as the
    same quantity. *)
Theorem C84_old_data : forall k env lo f1 f2 T1 T2 o1 us1 o2 us2 fmt32 fmt64 s D1 D2 v value t,
  good_platform env lo -> ones env ->
  wf_file f1 -> wf_file f2 -> incl (sl_items f1) (sl_items f2) ->
  parse_system k (print_file f1) = Some T1 -> parse_system k (print_file f2) = Some T2 ->
  readable_system k env T1 o1 us1 -> readable_system k env T2 o2 us2 ->
  number_format parse_f32 (is_nan 24 128) fmt32 -> number_format parse_f64 (is_nan 53 1024) fmt64 ->
  denotes k (df_base_dimensions o1) D1 v -> denotes k (df_base_dimensions o2) D2 v ->
  (forall b, ~ In b (df_base_dimensions o1) -> v b = 0%Qc) ->
  (exists sym, coherent_symbol k env o1 sym v) \/ small_integers (df_base_dimensions o1) v ->
  stored_value s value ->
  serialize (ops k) env (lit k) (show k) fmt32 fmt64 o1 D1 value = Some (Some t) ->
  deserialize (ops k) (df_base_dimensions o2) us2 env s D2 (EStr t) = Ok value.
Proof.
  intros k env lo f1 f2 T1 T2 o1 us1 o2 us2 fmt32 fmt64 s D1 D2 v value t G One W1 W2 Sub E1 E2 H1 H2 N32 N64 HD1 HD2 Vz Hv Sv E.
  apply (C84_between k env lo T1 o1 us1 T2 o2 us2 fmt32 fmt64 s D1 D2 v value t); auto.
  destruct H1 as ((R1 & L1 & _) & _). destruct H2 as ((R2 & _) & _).
  destruct (C75_adding_statements k env f1 f2 T1 T2 o1 o2 W1 W2 Sub E1 E2 R1 R2) as (_ & Iu & _).
  split; [exact Iu|]. split.
  - assert (Id : incl (u_dimensions T1) (u_dimensions T2)).
    { rewrite parse_print in E1, E2 by assumption. unfold mean_file in E1, E2.
      destruct (collect (mean_stmt k) (sl_items f1)) as [es1|] eqn:C1; [|discriminate E1].
      destruct (collect (mean_stmt k) (sl_items f2)) as [es2|] eqn:C2; [|discriminate E2].
      assert (I : incl es1 es2).
      { intros en Hen. destruct (collect_in _ _ _ _ C1 Hen) as (st & Hs & Ms).
        destruct (collect_all _ _ _ _ C2 (Sub st Hs)) as (en' & Hen' & Ms'). congruence. }
      injection E1 as <-. injection E2 as <-. cbn [u_dimensions]. intros d Hd. apply in_flat_map in Hd as (en & Hen & Hd).
      apply in_flat_map. eauto. }
    assert (Ef : forall T o, run_unit_system (ops k) env T = Some (o, []) ->
       df_base_dimensions o = map (fun d => base_dimension_of (de_name d)) (filter is_base_dimension (u_dimensions T))).
    { intros T o R. unfold run_unit_system in R. apply resolve_some in R as (res & d8 & _ & -> & _). reflexivity. }
    rewrite (Ef T1 o1 R1), (Ef T2 o2 R2). intros b Hb. apply in_map_iff in Hb as (d & <- & Hd). apply filter_In in Hd as [Hd Bd].
    apply (in_map (fun d => base_dimension_of (de_name d))). apply filter_In. auto.
  - intros u b Hu Nb. exact (unit_fields k env T1 o1 u b R1 L1 Hu Nb).
Qed.
Print Assumptions C84_old_data.

(** ** A case *)
(** [scaled_file 2 3] with a second base dimension and its unit, and one more unit, put in front. *)
Definition grown_file : slist stmt := ({| sl_trailing := false; sl_items :=
  SUnit [UBase "Time"%string; USymbol "s"%string] "second"%string None None
  :: SDimension [] "Time"%string None
  :: SUnit [] "y"%string None (Some (SxBin (SxOne (SfVal (AtIdent "x"%string))) BySlash (SfVal (AtIdent "second"%string))))
  :: sl_items (scaled_file (SInt false 2) (SInt false 3)) |}).
Lemma grown_wf : wf_file grown_file.
Proof.
  split; [easy|]. cbn [sl_items grown_file scaled_file]. unfold wf_stmt, wf_ident.
  repeat (first [apply accept_name; reflexivity | apply Forall_nil | constructor | discriminate | reflexivity]).
Qed.

Definition file_check k (f : slist stmt) (fields : list string) (D : dimval (ops k)) (t : string) : bool :=
  match parse_system k (print_file f) with
  | Some T =>
      match run_unit_system (ops k) env1 T with
      | Some (o, []) =>
          match serde_units (ops k) env1 (lit k) o with
          | Some us =>
              (if list_eq_dec string_dec (df_base_dimensions o) fields then true else false) && forallb symbol_ok (all_symbols k o) &&
              struct_declaration_ok (df_base_dimensions o) && written_as k o D (RF64 f64_one) t
          | None => false end
      | _ => false end
  | None => false end.
Lemma file_ok k f fields D t : wf_file f -> positive_denominators f -> file_check k f fields D t = true -> exists T o us,
  parse_system k (print_file f) = Some T /\ readable_system k env1 T o us /\ df_base_dimensions o = fields /\
  serialize (ops k) env1 (lit k) (show k) exact_format exact_format o D (RF64 f64_one) = Some (Some (str t)).
Proof.
  intros W P. unfold file_check. destruct (parse_system k (print_file f)) as [T|] eqn:E; [|discriminate].
  destruct (run_unit_system (ops k) env1 T) as [[o [|]]|] eqn:Er; try discriminate.
  destruct (serde_units (ops k) env1 (lit k) o) as [us|] eqn:Eu; [|discriminate].
  destruct (list_eq_dec string_dec (df_base_dimensions o) fields) as [Ef|]; [|discriminate].
  rewrite !andb_true_iff. intros [[[_ Hi] Hs] Hw]. exists T, o, us. split; [reflexivity|].
  split; [|split; [exact Ef|now apply written_as_iff]].
  split; [|split; [now apply identifiers_check|exact Eu]]. split; [exact Er|].
  split; [|split; [exact (parsed_i64_exponents k _ T E)|exact Hs]].
  apply template_literals, (source_literals_ok k f); auto. rewrite <- E. symmetry. now apply parse_print.
Qed.

(** A squared length of one, written by the smaller system ([exact_format] writes the number one as
    [10...0e-52]) and read by the larger one. *)
Example C84_applies : forall k, exists T1 T2 o1 us1 o2 us2 D1 D2 v t,
  good_platform env1 (-1023) /\ ones env1 /\
  wf_file (scaled_file (SInt false 2) (SInt false 3)) /\ wf_file grown_file /\
  incl (sl_items (scaled_file (SInt false 2) (SInt false 3))) (sl_items grown_file) /\
  parse_system k (print_file (scaled_file (SInt false 2) (SInt false 3))) = Some T1 /\ parse_system k (print_file grown_file) = Some T2 /\
  readable_system k env1 T1 o1 us1 /\ readable_system k env1 T2 o2 us2 /\
  df_base_dimensions o1 = ["length"]%string /\ df_base_dimensions o2 = ["time"; "length"]%string /\
  denotes k (df_base_dimensions o1) D1 v /\ denotes k (df_base_dimensions o2) D2 v /\
  (forall b, ~ In b (df_base_dimensions o1) -> v b = 0%Qc) /\
  small_integers (df_base_dimensions o1) v /\ stored_value (Float F64) (RF64 f64_one) /\
  serialize (ops k) env1 (lit k) (show k) exact_format exact_format o1 D1 (RF64 f64_one) = Some (Some t) /\
  t = str "10000000000000000000000000000000000000000000000000000e-52 m^2" /\
  deserialize (ops k) (df_base_dimensions o2) us2 env1 (Float F64) D2 (EStr t) = Ok (RF64 f64_one).
Proof.
  intros k.
  set (D1 := [("length"%string, of_int k 2)]). set (D2 := [("time"%string, of_int k 0); ("length"%string, of_int k 2)]).
  set (t := "10000000000000000000000000000000000000000000000000000e-52 m^2"%string).
  assert (P : forall f, (forall s, In s (sl_items f) -> stmt_exps s = []) -> positive_denominators f).
  { intros f H s n d z Hs Hin. rewrite (H s Hs) in Hin. destruct Hin. }
  destruct (file_ok k (scaled_file (SInt false 2) (SInt false 3)) ["length"]%string D1 t) as (T1 & o1 & us1 & E1 & H1 & F1 & S1).
  { apply scaled_wf. }
  { apply P. cbn [sl_items scaled_file In]. intros s Hs. repeat (destruct Hs as [<-|Hs]; [reflexivity|]). destruct Hs. }
  { subst D1 t. destruct k; vm_compute; reflexivity. }
  destruct (file_ok k grown_file ["time"; "length"]%string D2 t) as (T2 & o2 & us2 & E2 & H2 & F2 & _).
  { apply grown_wf. }
  { apply P. cbn [sl_items scaled_file grown_file In]. intros s Hs. repeat (destruct Hs as [<-|Hs]; [reflexivity|]). destruct Hs. }
  { subst D2 t. destruct k; vm_compute; reflexivity. }
  set (v := fun f => if String.eqb f "length"%string then ZQc 2 else ZQc 0).
  assert (V1 : denotes k (df_base_dimensions o1) D1 v).
  { rewrite F1. split; [reflexivity|]. intros f e [E|[]]; injection E as <- <-. apply of_int_val. }
  assert (V2 : denotes k (df_base_dimensions o2) D2 v).
  { rewrite F2. split; [reflexivity|]. intros f e [E|[E|[]]]; injection E as <- <-; apply of_int_val. }
  assert (Vz : forall b, ~ In b (df_base_dimensions o1) -> v b = 0%Qc).
  { intros b Nb. unfold v. destruct (String.eqb_spec b "length"%string) as [->|_]; [|now apply Qc_is_canon].
    exfalso. apply Nb. rewrite F1. now left. }
  assert (Vs : small_integers (df_base_dimensions o1) v).
  { rewrite F1. intros f [<-|[]]. exists 2. split; auto. lia. }
  assert (Su : incl (sl_items (scaled_file (SInt false 2) (SInt false 3))) (sl_items grown_file)).
  { unfold grown_file. cbn [sl_items]. now do 3 apply incl_tl; apply incl_refl. }
  assert (On : ones env1) by now apply ones_rt.
  exists T1, T2, o1, us1, o2, us2, D1, D2, v, (str t).
  split; [exact good1|]. split; [exact On|]. split; [apply scaled_wf|]. split; [apply grown_wf|]. split; [exact Su|].
  do 6 (split; [assumption|]). do 4 (split; [assumption|]). split; [reflexivity|]. split; [exact S1|]. split; [reflexivity|].
  apply (C84_old_data k env1 (-1023) (scaled_file (SInt false 2) (SInt false 3)) grown_file T1 T2 o1 us1 o2 us2 exact_format exact_format (Float F64) D1 D2 v); auto.
  - exact good1.
  - apply scaled_wf.
  - apply grown_wf.
  - exact exact_format32.
  - exact exact_format64.
  - reflexivity.
Qed.
