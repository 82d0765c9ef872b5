(** * Reading unit terms: what [read_unit_str] computes *)
From Coq Require Import String Ascii List Bool ZArith QArith Qcanon Lia Permutation.
From Flocq Require Import IEEE754.Binary IEEE754.Bits.
From Verif Require Import MachineInt Ratio RatioFacts F64 Magnitude MagnitudeFacts Exponent ExponentFacts SMap
  Expression DimensionMath DimensionMathFacts Types Snake Resolve SystemSpec ResolveFacts
  ResolveEquations Expansion CodegenDimension CodegenDimensionFacts CodegenLiteral Setting
  SystemFacts ExampleSystems PropertiesDimension Storage Raw Text TextFacts Debug TextSystem
  PropertiesDebug Serde.
Import ListNotations.
Local Close Scope Q_scope.
Local Close Scope Qc_scope.
Local Open Scope list_scope.
Local Open Scope Z_scope.

(** ** Specification *)

(** The word [w] is the unit [u] to the power [e]: its symbol, or its symbol, [^] and a 32-bit integer. *)
Definition unit_word k (o : defs (ops k)) (w : text) (ue : unit_def (ops k) * Z) : Prop :=
  In (fst ue) (df_units o) /\ exists name, un_symbol (fst ue) = Some name /\
    ((w = str name /\ snd ue = 1) \/
     exists x, w = str name ++ "^"%char :: x /\ parse_i32 x = Some (snd ue)).

(** The exponent of [f] in the product of the powers. *)
Definition total_exponent k (terms : list (unit_def (ops k) * Z)) (f : string) : Qc :=
  total k (map (fun ue => (fst ue, ZQc (snd ue))) terms) f.

(** ** Exponents that are integers *)
Definition of_int (k : mode) (z : Z) : ops k :=
  match k with IntegerExponents => z | RationalExponents => rint z end.

Lemma of_int_val k z : l_valid _ (laws k) (of_int k z) /\ l_val _ (laws k) (of_int k z) = ZQc z.
Proof. destruct k; simpl; [auto|]. apply rint_rval. Qed.

Lemma of_int_eq k e z : l_valid _ (laws k) e -> l_val _ (laws k) e = ZQc z -> e = of_int k z.
Proof.
  intros V E. destruct (of_int_val k z) as [V' E']. apply (l_inj _ (laws k)); auto. congruence.
Qed.

Lemma fit_ok z : in_i64 z = true -> fit Checked z = Some z.
Proof. intros H. unfold fit. now rewrite H. Qed.

Lemma in_i64_one : in_i64 1 = true. Proof. reflexivity. Qed.

Lemma rnew_int z : in_i64 z = true -> rnew Checked z 1 = Some (rint z).
Proof.
  intros H. apply (rnew_canonical Checked (rint z)); auto. apply rint_represents.
Qed.

Lemma mul_of_int k z e : in_i64 (z * e) = true -> e_mul_int (ops k) (of_int k z) e = Some (of_int k (z * e)).
Proof.
  intros H. destruct k; simpl.
  - unfold i64_mul. now apply fit_ok.
  - unfold rmul, i64_mul. cbn [rint Ratio.num denom]. rewrite (fit_ok (z * e)) by auto.
    change (1 * 1) with 1. rewrite (fit_ok 1) by reflexivity. now apply rnew_int.
Qed.

Lemma add_of_int k a b : in_i64 a = true -> in_i64 b = true -> in_i64 (a + b) = true ->
  e_add (ops k) (of_int k a) (of_int k b) = Some (of_int k (a + b)).
Proof.
  intros Ha Hb H. destruct k; simpl.
  - unfold i64_add. now apply fit_ok.
  - unfold radd, i64_mul, i64_add. cbn [rint Ratio.num denom]. rewrite !Z.mul_1_r.
    rewrite (fit_ok a), (fit_ok b), (fit_ok (a + b)) by auto. rewrite (fit_ok 1) by reflexivity. now apply rnew_int.
Qed.

Lemma mul_by_one k e : l_valid _ (laws k) e -> i64_exponent k e -> e_mul_int (ops k) e 1 = Some e.
Proof.
  destruct k; simpl; intros V H.
  - unfold i64_mul. rewrite Z.mul_1_r. now apply fit_ok.
  - destruct H as [H1 H2]. unfold rmul, i64_mul. cbn [rint Ratio.num denom]. rewrite !Z.mul_1_r.
    rewrite (fit_ok (Ratio.num e)), (fit_ok (denom e)) by auto. now apply rnew_canonical.
Qed.

Lemma zero_add k e : l_valid _ (laws k) e -> i64_exponent k e -> e_add (ops k) (e_zero (ops k)) e = Some e.
Proof.
  destruct k; simpl; intros V H.
  - unfold i64_add. now apply fit_ok.
  - destruct H as [H1 H2]. unfold radd, i64_mul, i64_add, rzero. cbn [Ratio.num denom].
    rewrite Z.mul_0_l, Z.mul_1_r, Z.mul_1_l. rewrite (fit_ok 0) by reflexivity.
    rewrite (fit_ok (Ratio.num e)), (fit_ok (denom e)) by auto. rewrite Z.add_0_l, fit_ok by auto.
    now apply rnew_canonical.
Qed.

(** ** Parsing one word *)

Lemma span_digits_app s ds r : span_digits s = (ds, r) -> exists p, s = p ++ r /\ (forall c, In c p -> digit c <> None).
Proof.
  revert ds r. induction s as [|c s IH]; intros ds r H; cbn [span_digits] in H.
  - injection H as <- <-. exists []. split; auto.
  - destruct (digit c) eqn:E.
    + destruct (span_digits s) as [ds' r'] eqn:Es. injection H as <- <-.
      destruct (IH ds' r' eq_refl) as (p & -> & Hp). exists (c :: p). split; auto.
      intros x [<-|Hx]; auto. congruence.
    + injection H as <- <-. exists []. split; auto.
Qed.

Lemma parse_int_chars s z : parse_int s = Some z ->
  forall c, In c s -> c = "-"%char \/ c = "+"%char \/ digit c <> None.
Proof.
  unfold parse_int. intros H c Hc.
  assert (K : forall r, (exists d ds, span_digits r = (d :: ds, [])) -> In c r -> digit c <> None).
  { intros r (d & ds & E) Hr. apply span_digits_app in E as (p & Ep & Hp). rewrite app_nil_r in Ep. subst. auto. }
  destruct (sign s) as [neg r] eqn:Es.
  assert (Hr : exists d ds, span_digits r = (d :: ds, [])).
  { destruct (span_digits r) as [[|d ds] [|]]; try discriminate. eauto. }
  destruct s as [|x s]; [destruct Hc|]. unfold sign in Es.
  destruct (isc x "-") eqn:E1.
  - apply isc_eq in E1. injection Es as _ <-. destruct Hc as [<-|Hc]; [auto|]. right; right. eapply K; eauto.
  - destruct (isc x "+") eqn:E2.
    + apply isc_eq in E2. injection Es as _ <-. destruct Hc as [<-|Hc]; [auto|]. right; right. eapply K; eauto.
    + injection Es as _ <-. right; right. eapply K; eauto.
Qed.

Lemma parse_i32_no_caret x e : parse_i32 x = Some e -> ~ In "^"%char x.
Proof.
  unfold parse_i32. intros H Hc. destruct (parse_int x) as [z|] eqn:E; [|discriminate].
  destruct (parse_int_chars x z E _ Hc) as [F|[F|F]]; try discriminate F. apply F. reflexivity.
Qed.

Lemma existsb_isc c s : existsb (fun x => isc x c) s = true <-> In c s.
Proof.
  rewrite existsb_exists. split.
  - intros (x & Hx & E). apply isc_eq in E. now subst.
  - intros H. exists c. split; auto. apply isc_refl.
Qed.

Section Read.
Context (k : mode) (env : fenv) (T : unresolved (ops k) (unit_template (ops k))) (o : defs (ops k)).
Hypothesis C : compiled k env T o.
Hypothesis Hid : identifiers k o.
Context (us : list (runtime_unit (ops k))).
Hypothesis Us : serde_units (ops k) env (lit k) o = Some us.
Notation X := (ops k).
Notation L := (laws k).
Notation fields := (df_base_dimensions o).

Lemma no_caret u name : In u (df_units o) -> un_symbol u = Some name -> ~ In "^"%char (str name).
Proof. intros Hu E Hc. destruct (Hid u name Hu E) as [_ H]. apply (H _ Hc). now left. Qed.

Lemma unit_word_unique w ue ue' : unit_word k o w ue -> unit_word k o w ue' -> ue = ue'.
Proof.
  destruct ue as [u e], ue' as [u' e']. intros (Hu & n & En & Hw) (Hu' & n' & En' & Hw'). cbn [fst snd] in *.
  pose proof (no_caret u n Hu En) as Nc. pose proof (no_caret u' n' Hu' En') as Nc'.
  assert (E : n = n' /\ e = e').
  { destruct Hw as [[-> ->]|(x & -> & Hx)], Hw' as [[Ew ->]|(x' & Ew & Hx')].
    - apply str_inj in Ew. auto.
    - exfalso. apply Nc. rewrite Ew. apply in_or_app. right. now left.
    - exfalso. apply Nc'. rewrite <- Ew. apply in_or_app. right. now left.
    - apply (f_equal (cut "^")) in Ew.
      rewrite (proj2 (cut_iff _ _ _ _) (conj eq_refl Nc)) in Ew.
      rewrite (proj2 (cut_iff _ _ _ _) (conj eq_refl Nc')) in Ew.
      injection Ew as E1 E2. apply str_inj in E1. subst x'. split; congruence. }
  destruct E as [-> ->]. f_equal. eapply (symbols_unique k env T o (proj1 C)); eauto.
Qed.

Lemma lookup_symbol u name : In u (df_units o) -> un_symbol u = Some name ->
  exists r, get_unit_by_symbol X us (str name) = Some r /\ entry_of k env o u r.
Proof.
  intros Hu En. destruct (runtime_units_In k env o _ us Us) as [H1 H2].
  destruct (H2 u name Hu En) as (r & Hr & Er).
  unfold get_unit_by_symbol. destruct (find (fun x => text_eqb (ru_symbol x) (str name)) us) as [r'|] eqn:Ef.
  - exists r'. split; auto. apply find_some in Ef as [Hr' Et]. apply text_eqb_eq in Et.
    destruct (H1 r' Hr') as (u' & Hu' & Er'). pose proof Er' as (s' & Es' & Et' & _).
    assert (s' = name) by (apply str_inj; congruence). subst s'.
    rewrite <- (symbols_unique k env T o (proj1 C) u' u name); auto.
  - exfalso. pose proof (find_none _ _ Ef r Hr) as Hf. cbv beta in Hf.
    destruct Er as (s & Es & Et & _). assert (s = name) by congruence. subst s.
    rewrite Et in Hf. assert (text_eqb (str name) (str name) = true) by now apply text_eqb_eq. congruence.
Qed.

Lemma lookup_known s r : get_unit_by_symbol X us s = Some r ->
  exists u name, In u (df_units o) /\ un_symbol u = Some name /\ s = str name.
Proof.
  intros H. destruct (runtime_units_In k env o _ us Us) as [H1 H2].
  apply find_some in H as [Hr Et]. apply text_eqb_eq in Et.
  destruct (H1 r Hr) as (u & Hu & (n & En & Es & _)). exists u, n. repeat (split; auto). congruence.
Qed.

Section Number.
Context {M : Type} (one : M) (mul : M -> M -> M) (power : f64 -> Z -> M).
Notation single := (read_single_unit_str X fields us power).
Notation units_from := (read_units X fields us mul power).

(** The factor of a term and the product of all, from left to right. *)
Definition term_factor (ue : unit_def X * Z) : M := power (into_f64 env (un_mag (fst ue))) (snd ue).
Definition factor_from (x : M) (terms : list (unit_def X * Z)) : M :=
  fold_left (fun p ue => mul p (term_factor ue)) terms x.

Lemma single_word w u e : unit_word k o w (u, e) ->
  exists d0, stands_for X fields L d0 (exponent_in k u) /\ i64_dim k d0 /\
    single w = andthen (or_panic (dim_mul X fields d0 e)) (fun d => Ok (d, term_factor (u, e))).
Proof.
  intros (Hu & n & En & Hw). cbn [fst snd] in *.
  destruct (lookup_symbol u n Hu En) as (r & Er & (s & Es & _ & Em & Ed)).
  destruct C as (R & Hl & Hi & Hs).
  destruct (unit_literal k env T o R Hl Hi Hs u Hu) as (d0 & Ed' & Sd & Hd).
  assert (ru_dim r = d0) by congruence. exists d0. split; [|split; [exact Hd|]].
  { apply (stands_for_proper X fields L d0 (vec_of X L (un_dims u))); auto.
    intros f _. symmetry. apply exponent_in_vec. }
  subst d0. unfold read_single_unit_str, term_factor. cbn [fst snd]. rewrite <- Em.
  pose proof (no_caret u n Hu En) as Nc.
  destruct Hw as [[-> ->]|(x & -> & Hx)].
  - assert (Ee : existsb (fun c => isc c "^") (str n) = false).
    { apply not_true_iff_false. rewrite existsb_isc. exact Nc. }
    rewrite Ee. cbn [andthen]. rewrite Er. reflexivity.
  - assert (Ee : existsb (fun c => isc c "^") (str n ++ "^"%char :: x) = true).
    { apply existsb_isc. apply in_or_app. right. now left. }
    assert (Sp : split_on "^" (str n ++ "^"%char :: x) = [str n; x]).
    { apply split_on_two. split; auto. split; auto. eapply parse_i32_no_caret; eauto. }
    rewrite Ee, Sp, Hx. cbn [option_map or_err andthen]. rewrite Er. reflexivity.
Qed.

Lemma single_not w : (forall ue, ~ unit_word k o w ue) -> single w = Err.
Proof.
  intros H. unfold read_single_unit_str.
  destruct (existsb (fun c => isc c "^") w) eqn:Ee.
  - destruct (split_on "^" w) as [|a [|b [|]]] eqn:Es; try reflexivity.
    apply split_on_two in Es as (-> & Ha & Hb).
    destruct (parse_i32 b) as [e|] eqn:Eb; [|reflexivity]. cbn [option_map or_err andthen].
    destruct (get_unit_by_symbol X us a) as [r|] eqn:Er; [|reflexivity].
    exfalso. destruct (lookup_known a r Er) as (u & n & Hu & En & ->).
    apply (H (u, e)). split; [exact Hu|]. exists n. split; auto. right. eauto.
  - cbn [andthen]. destruct (get_unit_by_symbol X us w) as [r|] eqn:Er; [|reflexivity].
    exfalso. destruct (lookup_known w r Er) as (u & n & Hu & En & ->).
    apply (H (u, 1)). split; [exact Hu|]. exists n. auto.
Qed.

Lemma word_or_not w : (exists ue, unit_word k o w ue) \/ (forall ue, ~ unit_word k o w ue).
Proof.
  assert (K : forall a e, (forall u name, In u (df_units o) -> un_symbol u = Some name -> str name = a ->
              unit_word k o w (u, e)) ->
            (forall ue, unit_word k o w ue -> exists u name, In u (df_units o) /\ un_symbol u = Some name /\ str name = a) ->
            (exists ue, unit_word k o w ue) \/ (forall ue, ~ unit_word k o w ue)).
  { intros a e H1 H2. destruct (get_unit_by_symbol X us a) as [r|] eqn:Er.
    - left. destruct (lookup_known a r Er) as (u & n & Hu & En & ->). exists (u, e). eauto.
    - right. intros ue Hw. destruct (H2 ue Hw) as (u & n & Hu & En & <-).
      destruct (lookup_symbol u n Hu En) as (r & Er' & _). congruence. }
  assert (N : forall u name x e, In u (df_units o) -> un_symbol u = Some name -> parse_i32 x = Some e ->
            split_on "^" (str name ++ "^"%char :: x) = [str name; x]).
  { intros u name x e Hu En Hx. apply split_on_two. split; auto. split; [eapply no_caret; eauto|].
    eapply parse_i32_no_caret; eauto. }
  destruct (cut "^" w) as [[a b]|] eqn:Ec.
  - apply cut_iff in Ec as [-> Ha].
    destruct (parse_i32 b) as [e|] eqn:Eb.
    + apply (K a e).
      * intros u name Hu En <-. split; [exact Hu|]. exists name. split; auto. right. eauto.
      * intros [u' e'] (Hu & n & En & Hw). cbn [fst snd] in *. exists u', n. split; auto. split; auto.
        destruct Hw as [[Hw _]|(x & Hw & Hx)].
        -- exfalso. apply (no_caret u' n Hu En). rewrite <- Hw. apply in_or_app. right. now left.
        -- apply (f_equal (cut "^")) in Hw. rewrite (proj2 (cut_iff _ _ _ _) (conj eq_refl Ha)) in Hw.
           rewrite (proj2 (cut_iff _ _ _ _) (conj eq_refl (no_caret u' n Hu En))) in Hw.
           injection Hw as <- _. reflexivity.
    + right. intros [u' e'] (Hu & n & En & Hw). cbn [fst snd] in *.
      destruct Hw as [[Hw _]|(x & Hw & Hx)].
      * apply (no_caret u' n Hu En). rewrite <- Hw. apply in_or_app. right. now left.
      * apply (f_equal (cut "^")) in Hw. rewrite (proj2 (cut_iff _ _ _ _) (conj eq_refl Ha)) in Hw.
        rewrite (proj2 (cut_iff _ _ _ _) (conj eq_refl (no_caret u' n Hu En))) in Hw.
        injection Hw as _ <-. congruence.
  - apply cut_none in Ec. apply (K w 1).
    + intros u name Hu En <-. split; [exact Hu|]. exists name. auto.
    + intros [u' e'] (Hu & n & En & Hw). cbn [fst snd] in *. exists u', n. split; auto. split; auto.
      destruct Hw as [[Hw _]|(x & Hw & Hx)]; auto.
      exfalso. apply Ec. rewrite Hw. apply in_or_app. right. now left.
Qed.

Lemma nodup_f : NoDup fields.
Proof. eapply nodup_fields; eauto. Qed.

Lemma single_Ok w d x : single w = Ok (d, x) ->
  exists u e, unit_word k o w (u, e) /\ x = term_factor (u, e) /\
    stands_for X fields L d (fun f => (exponent_in k u f * ZQc e)%Qc).
Proof.
  intros H.
  destruct (word_or_not w) as [([u e] & Hw)|Hn]; [|rewrite single_not in H by auto; discriminate H].
  destruct (single_word w u e Hw) as (d0 & Sd & _ & E). rewrite E in H.
  destruct (dim_mul X fields d0 e) as [d'|] eqn:Ed; [|discriminate H]. cbn [or_panic andthen] in H.
  assert (E1 : d' = d) by congruence. assert (E2 : term_factor (u, e) = x) by congruence. subst d'.
  exists u, e. split; auto. split; auto. eapply dim_mul_spec; eauto. apply nodup_f.
Qed.

Lemma units_Ok ws : forall t x t' x' v0, stands_for X fields L t v0 ->
  units_from (t, x) ws = Ok (t', x') ->
  exists terms, Forall2 (unit_word k o) ws terms /\ x' = factor_from x terms /\
    stands_for X fields L t' (fun f => (v0 f + total_exponent k terms f)%Qc).
Proof.
  induction ws as [|w ws IH]; intros t x t' x' v0 S H; cbn [read_units] in H.
  - assert (E1 : t' = t) by congruence. assert (E2 : x' = x) by congruence. subst t' x'.
    exists []. split; [constructor|]. split; [reflexivity|].
    eapply stands_for_proper; [|exact S]. intros f _. unfold total_exponent. cbn [map total fold_right]. ring.
  - destruct (single w) as [[d y]| |] eqn:E; try discriminate H. cbn [andthen fst snd] in H.
    destruct (single_Ok w d y E) as (u & e & Hw & -> & Sd).
    destruct (dim_add X fields t d) as [t1|] eqn:Ea; [|discriminate H]. cbn [or_panic andthen] in H.
    pose proof (dim_add_spec X fields nodup_f L t d t1 _ _ Ea S Sd) as S1.
    destruct (IH _ _ _ _ _ S1 H) as (terms & Ht & Ex & St).
    exists ((u, e) :: terms). split; [constructor; auto|]. split; [exact Ex|].
    eapply stands_for_proper; [|exact St]. intros f _. unfold total_exponent. cbn [map total fold_right fst snd]. unfold total. ring.
Qed.

Lemma units_Err ws : forall t, units_from t ws = Err -> exists w, In w ws /\ forall ue, ~ unit_word k o w ue.
Proof.
  induction ws as [|w ws IH]; intros t H; cbn [read_units] in H; [discriminate H|].
  destruct (word_or_not w) as [([u e] & Hw)|Hn]; [|exists w; split; [now left|auto]].
  destruct (single_word w u e Hw) as (d0 & Sd & _ & E). rewrite E in H.
  destruct (dim_mul X fields d0 e) as [d|]; [|discriminate H]. cbn [or_panic andthen] in H.
  destruct (dim_add X fields (fst t) d) as [t1|]; [|discriminate H]. cbn [or_panic andthen] in H.
  destruct (IH _ H) as (w' & Hw' & Hn). exists w'. split; [now right|auto].
Qed.

Lemma words_terms ws : (exists terms, Forall2 (unit_word k o) ws terms) \/ (exists w, In w ws /\ forall ue, ~ unit_word k o w ue).
Proof.
  induction ws as [|w ws [(terms & H)|(w' & Hw' & Hn)]].
  - left. exists []. constructor.
  - destruct (word_or_not w) as [(ue & Hw)|Hn].
    + left. exists (ue :: terms). constructor; auto.
    + right. exists w. split; [now left|auto].
  - right. exists w'. split; [now right|auto].
Qed.

Lemma terms_unique ws terms terms' :
  Forall2 (unit_word k o) ws terms -> Forall2 (unit_word k o) ws terms' -> terms = terms'.
Proof.
  intros H. revert terms'. induction H as [|w ue ws terms Hw H IH]; intros terms' H'; inversion H'; subst; auto.
  f_equal; auto. eapply unit_word_unique; eauto.
Qed.

Lemma none_dim : exists d, dim_none X fields = Some d /\ stands_for X fields L d (fun _ => ZQc 0).
Proof. apply none_stands_for. apply nodup_f. Qed.

Notation read := (read_unit_str X fields us one mul power).

(** The three outcomes. *)
Lemma read_Ok ws d x : read ws = Ok (d, x) ->
  exists terms, Forall2 (unit_word k o) ws terms /\ x = factor_from one terms /\
    stands_for X fields L d (total_exponent k terms).
Proof.
  unfold read_unit_str. destruct none_dim as (d0 & -> & S0). cbn [or_panic andthen]. intros H.
  destruct (units_Ok ws d0 one d x _ S0 H) as (terms & H1 & H2 & H3). exists terms. split; auto. split; auto.
  eapply stands_for_proper; [|exact H3]. intros f _. cbv beta. replace (ZQc 0) with 0%Qc by now apply Qc_is_canon. ring.
Qed.
Lemma read_Err ws : read ws = Err -> exists w, In w ws /\ forall ue, ~ unit_word k o w ue.
Proof.
  unfold read_unit_str. destruct none_dim as (d0 & -> & S0). cbn [or_panic andthen]. apply units_Err.
Qed.
Lemma read_terms ws terms : Forall2 (unit_word k o) ws terms ->
  read ws = Panic \/ exists d, read ws = Ok (d, factor_from one terms) /\
    stands_for X fields L d (total_exponent k terms).
Proof.
  intros H. destruct (read ws) as [[d x]| |] eqn:E; auto.
  - right. destruct (read_Ok ws d x E) as (terms' & H' & -> & S).
    rewrite (terms_unique ws terms terms' H H') in *. eauto.
  - exfalso. destruct (read_Err ws E) as (w & Hw & Hn). clear E.
    induction H as [|w' ue ws terms H' H IH]; [destruct Hw|]. destruct Hw as [->|Hw]; [exact (Hn ue H')|auto].
Qed.
End Number.

(** Whether reading panics, and the dimension, do not depend on the numbers. *)
Lemma single_shape {M M'} (power : f64 -> Z -> M) (power' : f64 -> Z -> M') w :
  match read_single_unit_str X fields us power w, read_single_unit_str X fields us power' w with
  | Ok (d, _), Ok (d', _) => d = d' | Err, Err => True | Panic, Panic => True | _, _ => False end.
Proof.
  unfold read_single_unit_str. destruct (if existsb (fun c => isc c "^") w then _ else _) as [[u e]| |]; cbn [andthen]; auto.
  destruct (or_err (get_unit_by_symbol X us u)) as [r| |]; cbn [andthen]; auto.
  destruct (or_panic (dim_mul X fields (ru_dim r) e)); cbn [andthen]; auto.
Qed.
Lemma units_shape {M M'} (mul : M -> M -> M) (mul' : M' -> M' -> M') power power' ws : forall t x x',
  match read_units X fields us mul power (t, x) ws, read_units X fields us mul' power' (t, x') ws with
  | Ok (d, _), Ok (d', _) => d = d' | Err, Err => True | Panic, Panic => True | _, _ => False end.
Proof.
  induction ws as [|w ws IH]; intros t x x'; cbn [read_units]; auto.
  pose proof (single_shape power power' w) as H.
  destruct (read_single_unit_str X fields us power w) as [[d y]| |], (read_single_unit_str X fields us power' w) as [[d' y']| |];
    cbn [andthen fst snd]; try contradiction; auto.
  subst d'. destruct (dim_add X fields t d); cbn [or_panic andthen]; auto. apply IH.
Qed.
Lemma read_shape {M M'} (one : M) (mul : M -> M -> M) power (one' : M') mul' power' ws :
  match read_unit_str X fields us one mul power ws, read_unit_str X fields us one' mul' power' ws with
  | Ok (d, _), Ok (d', _) => d = d' | Err, Err => True | Panic, Panic => True | _, _ => False end.
Proof.
  unfold read_unit_str. destruct (or_panic (dim_none X fields)) as [t| |]; cbn [andthen]; auto. apply units_shape.
Qed.

(** Reading does not panic if the exponents are integers and their absolute values do not add up to
    more than an [i64]. *)
Definition weight (z : unit_def X -> string -> Z) (terms : list (unit_def X * Z)) (f : string) : Z :=
  fold_right (fun ue s => Z.abs (snd ue * z (fst ue) f) + s) 0 terms.

Lemma weight_nonneg z terms f : 0 <= weight z terms f.
Proof. induction terms as [|ue terms IH]; cbn [weight fold_right]; [lia|]. fold (weight z terms f). lia. Qed.

Lemma sget_of_int (d : dimval X) (z : string -> Z) f x :
  stands_for X fields L d (fun g => ZQc (z g)) -> In (f, x) d -> x = of_int k (z f).
Proof. intros [_ S] H. destruct (S f x H) as [V E]. now apply of_int_eq. Qed.

Lemma units_fit {M} (mul : M -> M -> M) power z ws terms : Forall2 (unit_word k o) ws terms ->
  forall t x z0, stands_for X fields L t (fun f => ZQc (z0 f)) ->
  (forall ue f, In ue terms -> In f fields -> exponent_in k (fst ue) f = ZQc (z (fst ue) f)) ->
  (forall f, In f fields -> Z.abs (z0 f) + weight z terms f < 2 ^ 63) ->
  read_units X fields us mul power (t, x) ws <> Panic.
Proof.
  intros H. induction H as [|w [u e] ws terms Hw H IH]; intros t x z0 St Hz Hb; cbn [read_units]; [discriminate|].
  destruct (single_word power w u e Hw) as (d0 & Sd & _ & E). rewrite E. clear E.
  assert (Sd' : stands_for X fields L d0 (fun f => ZQc (z u f))).
  { eapply stands_for_proper; [|exact Sd]. intros f Hf. apply (Hz (u, e)); auto. now left. }
  assert (Hin : forall f, In f fields -> in_i64 (z u f * e) = true /\ in_i64 (z0 f) = true /\ in_i64 (z0 f + z u f * e) = true).
  { intros f Hf. specialize (Hb f Hf). cbn [weight fold_right fst snd] in Hb. fold (weight z terms f) in Hb.
    pose proof (weight_nonneg z terms f). rewrite !in_i64_iff. lia. }
  assert (Hf : forall (d : dimval X) f y v, stands_for X fields L d v -> In (f, y) d -> In f fields).
  { intros d f y v [Sh _] I. rewrite <- Sh. now apply (in_map fst) in I. }
  assert (Ed : exists d, dim_mul X fields d0 e = Some d).
  { unfold dim_mul. rewrite method1_eq by apply nodup_f.
    apply (entries1_defined X fields nodup_f _ d0 (proj1 Sd')).
    intros f y Hy. rewrite (sget_of_int d0 (z u) f y Sd' Hy). eexists. apply mul_of_int.
    apply Hin. eapply Hf; eauto. }
  destruct Ed as [d Ed]. rewrite Ed. cbn [or_panic andthen fst snd].
  pose proof (dim_mul_spec X fields nodup_f L d0 e d _ Ed Sd') as S1.
  assert (S1' : stands_for X fields L d (fun f => ZQc (z u f * e))).
  { eapply stands_for_proper; [|exact S1]. intros f _. cbv beta. now rewrite ZQc_mul. }
  assert (Ea : exists t1, dim_add X fields t d = Some t1).
  { unfold dim_add. rewrite method2_eq by apply nodup_f.
    apply (entries2_defined X fields nodup_f _ t d (proj1 St) (proj1 S1')).
    intros f y y' Hy Hy'. rewrite (sget_of_int t z0 f y St Hy), (sget_of_int d _ f y' S1' Hy').
    eexists. apply add_of_int; apply Hin; eapply Hf; eauto. }
  destruct Ea as [t1 Ea]. rewrite Ea. cbn [or_panic andthen].
  apply (IH t1 _ (fun f => z0 f + z u f * e)).
  - pose proof (dim_add_spec X fields nodup_f L t d t1 _ _ Ea St S1') as S2.
    eapply stands_for_proper; [|exact S2]. intros f _. cbv beta. now rewrite ZQc_add.
  - intros ue f Hu. apply Hz. now right.
  - intros f Hff. specialize (Hb f Hff). cbn [weight fold_right fst snd] in Hb. fold (weight z terms f) in Hb. lia.
Qed.

Lemma read_fit {M} (one : M) mul power z ws terms : Forall2 (unit_word k o) ws terms ->
  (forall ue f, In ue terms -> In f fields -> exponent_in k (fst ue) f = ZQc (z (fst ue) f)) ->
  (forall f, In f fields -> weight z terms f < 2 ^ 63) ->
  read_unit_str X fields us one mul power ws <> Panic.
Proof.
  intros H Hz Hb. unfold read_unit_str. destruct none_dim as (d0 & -> & S0). cbn [or_panic andthen].
  apply (units_fit mul power z ws terms H d0 one (fun _ => 0)); auto.
Qed.

Lemma units_app {M} (mul : M -> M -> M) power a b : forall t,
  read_units X fields us mul power t (a ++ b) =
  andthen (read_units X fields us mul power t a) (fun t' => read_units X fields us mul power t' b).
Proof.
  induction a as [|w a IH]; intros t; cbn [read_units app andthen]; [reflexivity|].
  destruct (read_single_unit_str X fields us power w) as [[d y]| |]; cbn [andthen]; auto.
  destruct (dim_add X fields (fst t) d); cbn [or_panic andthen]; auto.
Qed.

Lemma first_bad ws : (exists terms, Forall2 (unit_word k o) ws terms) \/
  exists a w b terms, ws = a ++ w :: b /\ Forall2 (unit_word k o) a terms /\ forall ue, ~ unit_word k o w ue.
Proof.
  induction ws as [|w ws IH]; [left; exists []; constructor|].
  destruct (word_or_not w) as [(ue & Hw)|Hn].
  - destruct IH as [(terms & Ht)|(a & w' & b & terms & -> & Ht & Hn)].
    + left. exists (ue :: terms). constructor; auto.
    + right. exists (w :: a), w', b, (ue :: terms). split; [reflexivity|]. split; [constructor; auto|auto].
  - right. exists [], w, ws, []. split; [reflexivity|]. split; [constructor|auto].
Qed.

(** If no prefix of the terms overflows, reading does not panic. *)
Lemma read_safe {M} (one : M) mul power ws z :
  (forall a b terms, ws = a ++ b -> Forall2 (unit_word k o) a terms ->
     (forall ue f, In ue terms -> In f fields -> exponent_in k (fst ue) f = ZQc (z (fst ue) f)) /\
     (forall f, In f fields -> weight z terms f < 2 ^ 63)) ->
  read_unit_str X fields us one mul power ws <> Panic.
Proof.
  intros Hs. destruct (first_bad ws) as [(terms & Ht)|(a & w & b & terms & E & Ht & Hn)].
  - destruct (Hs ws [] terms) as [H1 H2]; [now rewrite app_nil_r|auto|]. eapply read_fit; eauto.
  - destruct (Hs a (w :: b) terms E Ht) as [H1 H2].
    pose proof (read_fit one mul power z a terms Ht H1 H2) as Hp. subst ws. unfold read_unit_str in *.
    destruct (or_panic (dim_none X fields)) as [n| |]; cbn [andthen] in *; [|discriminate|contradiction].
    rewrite units_app. destruct (read_units X fields us mul power (n, one) a) as [t'| |]; cbn [andthen]; [|discriminate|contradiction].
    cbn [read_units]. rewrite (single_not power w Hn). discriminate.
Qed.
End Read.
