(** * Debug formatting of quantities: C46, C47

    [debug X env lit show o D value = Some (Some t)]: formatting a quantity of dimension [D] whose
    stored value displays as [value] writes [t]; [Some None]: it panics; [None]: the generated code
    does not compile. *)
From Coq Require Import String Ascii List Bool ZArith QArith Qcanon Lia.
From Verif Require Import MachineInt Ratio RatioFacts F64 Magnitude MagnitudeFacts Exponent ExponentFacts SMap
  Expression DimensionMath DimensionMathFacts Types Snake Resolve SystemSpec ResolveFacts
  ResolveEquations Expansion CodegenDimension CodegenDimensionFacts CodegenLiteral Setting
  SystemFacts ExampleSystems PropertiesDimension Storage Raw Text TextFacts Debug TextSystem.
Import ListNotations.
Local Close Scope Q_scope.
Local Close Scope Qc_scope.
Local Open Scope list_scope.
Local Open Scope Z_scope.

(** ** Specification *)

(** The macro call is accepted and the generated struct is accepted by rustc. *)
Definition compiled (k : mode) (env : fenv) (T : unresolved (ops k) (unit_template (ops k)))
  (o : defs (ops k)) : Prop :=
  run_unit_system (ops k) env T = Some (o, []) /\ literals_ok k T /\ i64_exponents k T /\
  struct_declaration_ok (df_base_dimensions o) = true.

(** An exponent as text: an integer, or a fraction in lowest terms. *)
Definition exponent_text (q : Qc) : text :=
  let n := Qnum (this q) in
  let d := Zpos (Qden (this q)) in
  if d =? 1 then show_int n else show_int n ++ "/"%char :: show_int d.

(** The exponent of the base dimension [b] in the dimension of [u]; exponents not listed are zero. *)
Definition exponent_in k (u : unit_def (ops k)) (b : string) : Qc :=
  match find (fun kv => String.eqb b (fst kv)) (un_dims u) with
  | Some kv => l_val _ (laws k) (snd kv)
  | None => 0%Qc
  end.
(** The unit [u] has the exponents [v]. *)
Definition unit_dimension k (o : defs (ops k)) (u : unit_def (ops k)) (v : string -> Qc) : Prop :=
  forall f, In f (df_base_dimensions o) -> exponent_in k u f = v f.

(** [s] is the symbol of a unit of factor one with the exponents [v]. *)
Definition coherent_symbol k env (o : defs (ops k)) (s : text) (v : string -> Qc) : Prop :=
  exists u name, In u (df_units o) /\ un_symbol u = Some name /\ s = str name /\
    into_f64 env (un_mag u) = f64_one /\ unit_dimension k o u v.

Definition basis (f : string) : string -> Qc := fun b => if String.eqb b f then ZQc 1 else ZQc 0.

Definition power_text (sym : string -> text) (v : string -> Qc) (f : string) : text :=
  if Qc_eq_dec (v f) (ZQc 0) then []
  else if Qc_eq_dec (v f) (ZQc 1) then space :: sym f
  else space :: sym f ++ "^"%char :: exponent_text (v f).

(** [Display] of an exponent in either build. *)
Definition show (k : mode) : ops k -> text :=
  match k with IntegerExponents => show_int | RationalExponents => show_ratio end.

(** *** Reading a text back *)

(** A unit symbol as text: not empty, no white space and none of the characters used by the text
    forms.  (Symbols are Rust identifiers, which contain none of these.) *)
Definition symbol_text (name : string) : Prop :=
  word (str name) /\ forall c, In c (str name) -> ~ In c (str "^()[],").
Definition identifiers k (o : defs (ops k)) : Prop :=
  forall u name, In u (df_units o) -> un_symbol u = Some name -> symbol_text name.

(** The word [w] is the unit [u] to the power [q]. *)
Definition written k (o : defs (ops k)) (w : text) (uq : unit_def (ops k) * Qc) : Prop :=
  In (fst uq) (df_units o) /\ exists name, un_symbol (fst uq) = Some name /\
    ((w = str name /\ snd uq = 1%Qc) \/ w = str name ++ "^"%char :: exponent_text (snd uq)).
(** The dimension of a product of powers. *)
Definition total k (terms : list (unit_def (ops k) * Qc)) (f : string) : Qc :=
  fold_right (fun uq s => (snd uq * exponent_in k (fst uq) f + s)%Qc) 0%Qc terms.

(** The text of a stored value: a number, or components in square brackets. *)
Definition value_text (t : text) : Prop :=
  (word t /\ ~ In "["%char t) \/ (exists b, t = "["%char :: b ++ ["]"%char] /\ ~ In "]"%char b).

(** ** Facts *)

Lemma exponent_in_vec k (u : unit_def (ops k)) b : exponent_in k u b = vec_of (ops k) (laws k) (un_dims u) b.
Proof. apply (proj1 (vec_is_iff (ops k) (laws k) (un_dims u) (exponent_in k u))). intros c. reflexivity. Qed.

Lemma dim_eqb_eq k (a b : dimval (ops k)) : dim_eqb (ops k) a b = true <-> a = b.
Proof.
  revert b. induction a as [|[f v] a IH]; destruct b as [|[g w] b]; simpl; try (split; congruence).
  rewrite !andb_true_iff, String.eqb_eq, (l_eqb _ (laws k)), IH. split.
  - intros [[-> ->] ->]. reflexivity.
  - intros H. injection H as -> -> ->. auto.
Qed.

Lemma this_ZQc z : this (ZQc z) = (z # 1)%Q.
Proof. unfold ZQc. cbn [Q2Qc this]. apply Qred_identity. simpl. apply Z.gcd_1_r. Qed.

Lemma this_rval r : canonical r -> this (rval r) = (Ratio.num r # Z.to_pos (denom r))%Q.
Proof.
  intros [Hd Hg]. unfold rval. cbn [Q2Qc this].
  destruct (denom r) as [|d|d] eqn:E; try lia.
  assert (Eq : (inject_Z (Ratio.num r) / inject_Z (Zpos d))%Q = (Ratio.num r # d)%Q).
  { unfold Qdiv, Qmult, Qinv, inject_Z. cbn [Qnum Qden]. rewrite Z.mul_1_r. now rewrite Pos.mul_1_l. }
  rewrite Eq. simpl Z.to_pos. apply Qred_identity. cbn [Qnum Qden]. exact Hg.
Qed.

Lemma show_text k e : l_valid _ (laws k) e -> show k e = exponent_text (l_val _ (laws k) e).
Proof.
  destruct k; simpl; intros V.
  - unfold exponent_text. now rewrite this_ZQc.
  - unfold exponent_text, show_ratio. rewrite this_rval by auto. cbn [Qnum Qden].
    destruct V as [Hd _]. rewrite Z2Pos.id by lia. reflexivity.
Qed.

Section Facts.
Context (k : mode) (env : fenv) (T : unresolved (ops k) (unit_template (ops k))) (o : defs (ops k)).
Hypothesis C : compiled k env T o.
Notation X := (ops k).
Notation L := (laws k).
Notation fields := (df_base_dimensions o).

Lemma nodup_fields : NoDup fields.
Proof. destruct C as (R & Hl & Hi & Hs). exact (fields_nodup k o Hs). Qed.

Lemma debug_units_defined : exists rs, debug_units X env (lit k) o = Some rs.
Proof.
  destruct C as (R & Hl & Hi & Hs). unfold debug_units.
  apply (runtime_units_defined k env T o R Hl Hi Hs).
  - intros u Hu. apply filter_In in Hu. tauto.
  - intros u s Hu _. apply filter_In in Hu as [_ Hu]. apply is_one_iff in Hu. rewrite Hu. reflexivity.
Qed.

Lemma entry_coherent rs r : debug_units X env (lit k) o = Some rs -> In r rs ->
  forall D v, denotes k fields D v -> ru_dim r = D -> coherent_symbol k env o (ru_symbol r) v.
Proof.
  destruct C as (R & Hl & Hi & Hs). intros E Hr D v HD ED.
  destruct (runtime_units_In k env o _ rs E) as [H1 _].
  destruct (H1 r Hr) as (u & Hu & s & Es & Er & _ & Ed). apply filter_In in Hu as [Hu Ho].
  apply is_one_iff in Ho. exists u, s. repeat (split; auto).
  intros f Hf. rewrite exponent_in_vec. revert f Hf.
  destruct (unit_literal k env T o R Hl Hi Hs u Hu) as (d & Ed' & Sd & _).
  rewrite Ed in Ed'. injection Ed' as <-. subst D.
  apply (C08_identity k fields (ru_dim r) (ru_dim r)); auto. apply nodup_fields.
Qed.

Lemma coherent_entry rs D v s : debug_units X env (lit k) o = Some rs -> denotes k fields D v ->
  coherent_symbol k env o s v -> exists r, In r rs /\ ru_dim r = D.
Proof.
  destruct C as (R & Hl & Hi & Hs). intros E HD (u & name & Hu & Es & -> & Ho & Hv).
  destruct (runtime_units_In k env o _ rs E) as [_ H2].
  destruct (H2 u name) as (r & Hr & He); auto.
  { apply filter_In. split; auto. now apply is_one_iff. }
  exists r. split; auto. destruct He as (s' & _ & _ & _ & Ed).
  destruct (unit_literal k env T o R Hl Hi Hs u Hu) as (d & Ed' & Sd & _).
  rewrite Ed in Ed'. injection Ed' as <-.
  apply (C08_identity k fields (ru_dim r) D (vec_of X L (un_dims u)) v); auto.
  - apply nodup_fields.
  - intros f Hf. rewrite <- Hv by auto. symmetry. apply exponent_in_vec.
Qed.

Lemma lookup_Some rs D v r : debug_units X env (lit k) o = Some rs -> denotes k fields D v ->
  get_first_unit_for_dimension X rs D = Some r -> coherent_symbol k env o (ru_symbol r) v.
Proof.
  intros E HD H. apply find_some in H as [Hr He]. apply dim_eqb_eq in He. eapply entry_coherent; eauto.
Qed.

Lemma lookup_None rs D v : debug_units X env (lit k) o = Some rs -> denotes k fields D v ->
  get_first_unit_for_dimension X rs D = None -> forall s, ~ coherent_symbol k env o s v.
Proof.
  intros E HD H s Hc. destruct (coherent_entry rs D v s E HD Hc) as (r & Hr & <-).
  pose proof (find_none _ _ H r Hr) as Hf. cbv beta in Hf.
  assert (Ht : dim_eqb X (ru_dim r) (ru_dim r) = true) by now apply dim_eqb_eq. congruence.
Qed.

Lemma exponent_of D v f : denotes k fields D v -> In f fields -> exists e,
  sget f D = Some e /\ l_valid _ L e /\ l_val _ L e = v f.
Proof. intros HD Hf. apply (stands_for_get X fields nodup_fields L D v f HD Hf). Qed.

Lemma eqb_one e : l_valid _ L e -> (e_eqb X e (e_one X) = true <-> l_val _ L e = ZQc 1).
Proof.
  intros V. destruct (l_one _ L) as [V1 E1]. rewrite (l_eqb _ L). split; [intros ->; auto|].
  intros E. apply (l_inj _ L); auto. congruence.
Qed.
Lemma eqb_zero e : l_valid _ L e -> (e_eqb X e (e_zero X) = true <-> l_val _ L e = ZQc 0).
Proof.
  intros V. destruct (l_zero _ L) as [V1 E1]. rewrite (l_eqb _ L). split; [intros ->; auto|].
  intros E. apply (l_inj _ L); auto. congruence.
Qed.

(** The symbol used for a base dimension. *)
Definition base_symbol (rs : list (runtime_unit X)) (f : string) : option (runtime_unit X) :=
  match dim_expr X (lit k) fields (bd_for_base X f) with
  | Some d => get_first_unit_for_dimension X rs d
  | None => None
  end.
Definition sym_of rs f : text := match base_symbol rs f with Some u => ru_symbol u | None => [] end.

Lemma base_symbol_coherent rs f u : debug_units X env (lit k) o = Some rs -> In f fields ->
  base_symbol rs f = Some u -> coherent_symbol k env o (ru_symbol u) (basis f).
Proof.
  destruct C as (R & Hl & Hi & Hs). intros E Hf H. unfold base_symbol in H.
  destruct (base_literal k env T o R Hl Hi Hs f Hf) as (d & Ed & Sd & _). rewrite Ed in H.
  eapply lookup_Some; eauto.
Qed.

Lemma base_term rs D v f : debug_units X env (lit k) o = Some rs -> denotes k fields D v -> In f fields ->
  base_dimension_symbol X (lit k) (show k) fields rs D f =
  if Qc_eq_dec (v f) (ZQc 0) then Some []
  else match base_symbol rs f with Some _ => Some (power_text (sym_of rs) v f) | None => None end.
Proof.
  destruct C as (R & Hl & Hi & Hs). intros E HD Hf. unfold base_dimension_symbol, sym_of, power_text.
  unfold base_symbol.
  destruct (base_literal k env T o R Hl Hi Hs f Hf) as (d & -> & Sd & _).
  destruct (exponent_of D v f HD Hf) as (e & -> & Ve & Ev).
  assert (N01 : ZQc 0 <> ZQc 1) by (intros H; apply ZQc_inj in H; lia).
  destruct (e_eqb X e (e_one X)) eqn:E1.
  - apply (eqb_one e Ve) in E1.
    destruct (Qc_eq_dec (v f) (ZQc 0)) as [Z|_]; [congruence|].
    destruct (Qc_eq_dec (v f) (ZQc 1)) as [_|N]; [|congruence].
    destruct (get_first_unit_for_dimension X rs d); reflexivity.
  - destruct (e_eqb X e (e_zero X)) eqn:E0.
    + apply (eqb_zero e Ve) in E0. destruct (Qc_eq_dec (v f) (ZQc 0)) as [_|N]; [reflexivity|congruence].
    + destruct (Qc_eq_dec (v f) (ZQc 0)) as [Z|_].
      { assert (H : e_eqb X e (e_zero X) = true) by (apply eqb_zero; congruence). congruence. }
      destruct (Qc_eq_dec (v f) (ZQc 1)) as [Z|_].
      { assert (H : e_eqb X e (e_one X) = true) by (apply eqb_one; congruence). congruence. }
      simpl. destruct (get_first_unit_for_dimension X rs d); auto.
      rewrite show_text by auto. now rewrite Ev.
Qed.

Lemma power_text_zero sym v f : v f = ZQc 0 -> power_text sym v f = [].
Proof. intros E. unfold power_text. now destruct (Qc_eq_dec (v f) (ZQc 0)). Qed.

Lemma terms_text rs D v ts : debug_units X env (lit k) o = Some rs -> denotes k fields D v ->
  mapM (base_dimension_symbol X (lit k) (show k) fields rs D) fields = Some ts ->
  ts = map (power_text (sym_of rs) v) fields /\
  (forall f, In f fields -> v f <> ZQc 0 -> exists u, base_symbol rs f = Some u).
Proof.
  intros E HD H. apply mapM_Some_iff in H.
  assert (K : forall fs ts, incl fs fields ->
    Forall2 (fun a b => base_dimension_symbol X (lit k) (show k) fields rs D a = Some b) fs ts ->
    ts = map (power_text (sym_of rs) v) fs /\
    (forall f, In f fs -> v f <> ZQc 0 -> exists u, base_symbol rs f = Some u)).
  { clear H ts. intros fs ts Hin H. induction H as [|f t fs ts Ht H IH]; [simpl; tauto|].
    rewrite (base_term rs D v f E HD) in Ht by (apply Hin; now left).
    destruct IH as [-> IH]; [intros x Hx; apply Hin; now right|]. split.
    - simpl. f_equal. destruct (Qc_eq_dec (v f) (ZQc 0)) as [Z|N].
      + rewrite power_text_zero by auto. congruence.
      + destruct (base_symbol rs f); congruence.
    - intros g [<-|Hg]; auto. intros Hn. destruct (Qc_eq_dec (v f) (ZQc 0)) as [Z|N]; [congruence|].
      destruct (base_symbol rs f); [eauto|discriminate]. }
  apply K; auto. apply incl_refl.
Qed.
End Facts.

(** ** C46 *)

(** The number, then the symbol of a unit of factor one with exactly this dimension if there is one,
    and otherwise the base unit symbols with their non-zero exponents, in declaration order. *)
Theorem C46_text : forall k env T o D v value t,
  compiled k env T o -> denotes k (df_base_dimensions o) D v ->
  debug (ops k) env (lit k) (show k) o D value = Some (Some t) ->
  (exists s, coherent_symbol k env o s v /\ t = value ++ space :: s) \/
  ((forall s, ~ coherent_symbol k env o s v) /\
   exists sym,
     (forall f, In f (df_base_dimensions o) -> v f <> ZQc 0 -> coherent_symbol k env o (sym f) (basis f)) /\
     t = value ++ concat (map (power_text sym v) (df_base_dimensions o))).
Proof.
  intros k env T o D v value t C HD H. unfold debug in H.
  destruct (debug_units (ops k) env (lit k) o) as [rs|] eqn:E; [|discriminate].
  assert (H' : (let? t := debug_unit_text (ops k) (lit k) (show k) (df_base_dimensions o) rs D in Some (value ++ t)) = Some t)
    by congruence. clear H. unfold debug_unit_text in H'.
  destruct (get_first_unit_for_dimension (ops k) rs D) as [u|] eqn:Eu.
  - left. exists (ru_symbol u). split; [eapply lookup_Some; eauto|]. congruence.
  - right. split; [eapply lookup_None; eauto|].
    destruct (mapM (base_dimension_symbol (ops k) (lit k) (show k) (df_base_dimensions o) rs D) (df_base_dimensions o)) as [ts|] eqn:Et; [|discriminate].
    destruct (terms_text k env T o C rs D v ts E HD Et) as [Ets Hsym].
    exists (sym_of k o rs). split.
    + intros f Hf Hn. destruct (Hsym f Hf Hn) as [u Hu]. unfold sym_of. rewrite Hu.
      eapply base_symbol_coherent; eauto.
    + rewrite <- Ets. congruence.
Qed.
Print Assumptions C46_text.

(** Reading the text back: the terms listed, multiplied, have exactly the dimension. *)
Lemma words_of_powers sym v fs : exists ws,
  concat (map (power_text sym v) fs) = unwords ws /\
  Forall2 (fun w fq => fst fq = fst fq /\
     ((snd fq = ZQc 1 /\ w = sym (fst fq)) \/ w = sym (fst fq) ++ "^"%char :: exponent_text (snd fq)))
    ws (map (fun f => (f, v f)) (filter (fun f => if Qc_eq_dec (v f) (ZQc 0) then false else true) fs)).
Proof.
  induction fs as [|f fs (ws & E & H)]; [exists []; split; [reflexivity|constructor]|].
  cbn [map concat filter]. unfold power_text at 1. destruct (Qc_eq_dec (v f) (ZQc 0)) as [Z|N].
  - exists ws. split; auto.
  - destruct (Qc_eq_dec (v f) (ZQc 1)) as [Z1|N1].
    + exists (sym f :: ws). split; [cbn [unwords flat_map]; now rewrite E|]. cbn [map]. constructor; auto.
    + exists ((sym f ++ "^"%char :: exponent_text (v f)) :: ws). split.
      * cbn [unwords flat_map]. now rewrite E.
      * cbn [map]. constructor; auto.
Qed.

Lemma sum_basis (v : string -> Qc) fs f : NoDup fs ->
  (forall g, In g fs -> v g = 0%Qc -> False) ->
  fold_right (fun g s => (v g * basis g f + s)%Qc) 0%Qc fs = if in_dec string_dec f fs then v f else 0%Qc.
Proof.
  intros N Hn. induction fs as [|g fs IH]; [reflexivity|]. cbn [fold_right].
  inversion N as [|? ? Hg N']; subst. rewrite IH by (auto; intros x Hx; apply Hn; now right).
  unfold basis. destruct (String.eqb_spec f g) as [->|Ne].
  - destruct (in_dec string_dec g fs) as [I|I]; [contradiction|].
    destruct (in_dec string_dec g (g :: fs)) as [_|I']; [|exfalso; apply I'; now left].
    change (ZQc 1) with (ZQc 1). replace (ZQc 1) with 1%Qc by now apply Qc_is_canon. ring.
  - replace (ZQc 0) with 0%Qc by now apply Qc_is_canon.
    destruct (in_dec string_dec f fs) as [I|I]; destruct (in_dec string_dec f (g :: fs)) as [I'|I'].
    + ring.
    + exfalso. apply I'. now right.
    + exfalso. destruct I' as [I'|I']; congruence.
    + ring.
Qed.

Theorem C46_read_back : forall k env T o D v value t,
  compiled k env T o -> denotes k (df_base_dimensions o) D v ->
  debug (ops k) env (lit k) (show k) o D value = Some (Some t) ->
  exists ws terms, t = value ++ unwords ws /\ Forall2 (written k o) ws terms /\
    forall f, In f (df_base_dimensions o) -> total k terms f = v f.
Proof.
  intros k env T o D v value t C HD H.
  destruct (C46_text k env T o D v value t C HD H) as [(s & (u & name & Hu & En & -> & _ & Hd) & ->)|(_ & sym & Hsym & ->)].
  - exists [str name], [(u, 1%Qc)]. split; [now cbn [unwords flat_map]; rewrite app_nil_r|]. split.
    + constructor; [|constructor]. split; [exact Hu|]. exists name. auto.
    + intros f Hf. cbn. rewrite <- (Hd f Hf). ring.
  - set (fs := filter (fun f => if Qc_eq_dec (v f) (ZQc 0) then false else true) (df_base_dimensions o)).
    destruct (words_of_powers sym v (df_base_dimensions o)) as (ws & E & Hw). fold fs in Hw.
    assert (Hfs : forall f, In f fs -> In f (df_base_dimensions o) /\ v f <> ZQc 0).
    { intros f Hf. apply filter_In in Hf as [Hf Hn]. destruct (Qc_eq_dec (v f) (ZQc 0)); [discriminate|auto]. }
    assert (Hterms : exists terms, Forall2 (written k o) ws terms /\
              forall f, In f (df_base_dimensions o) ->
                total k terms f = fold_right (fun g s => (v g * basis g f + s)%Qc) 0%Qc fs).
    { clear E. revert ws Hw Hfs. generalize fs as gs. induction gs as [|g gs IH]; intros ws Hw Hfs.
      - inversion Hw; subst. exists []. split; [constructor|]. reflexivity.
      - inversion Hw as [|w fq ws' l' [_ Hg] Hr]; subst.
        destruct (IH ws') as (terms & Ht & Hs); auto. { intros f Hf. apply Hfs. now right. }
        destruct (Hfs g (or_introl eq_refl)) as [Hgf Hgn].
        destruct (Hsym g Hgf Hgn) as (u & name & Hu & En & Es & _ & Hd).
        exists ((u, v g) :: terms). split.
        + constructor; auto. split; [exact Hu|]. exists name. split; auto. cbn [fst snd] in Hg |- *.
          rewrite <- Es. destruct Hg as [[H1 H2]|H2]; [left|right]; auto.
        + intros f Hf. cbn [total fold_right fst snd]. rewrite (Hd f Hf). f_equal. now apply Hs. }
    destruct Hterms as (terms & Ht & Hs). exists ws, terms. split; [now rewrite E|]. split; auto.
    intros f Hf. rewrite Hs by auto. rewrite sum_basis.
    + destruct (in_dec string_dec f fs) as [I|I]; auto.
      destruct (Qc_eq_dec (v f) (ZQc 0)) as [Z|Nz]; [rewrite Z; now apply Qc_is_canon|].
      exfalso. apply I. apply filter_In. split; auto. now destruct (Qc_eq_dec (v f) (ZQc 0)).
    + apply NoDup_filter. eapply nodup_fields; eauto.
    + intros g Hg Hz. apply Hfs in Hg as [_ Hg]. apply Hg. rewrite Hz. now apply Qc_is_canon.
Qed.
Print Assumptions C46_read_back.

Lemma exponent_text_chars q c : In c (exponent_text q) ->
  c = "-"%char \/ c = "/"%char \/ exists d, 0 <= d <= 9 /\ c = chr d.
Proof.
  unfold exponent_text. destruct (_ =? 1); intros H.
  - apply show_int_chars in H. tauto.
  - apply in_app_iff in H as [H|[H|H]]; auto; apply show_int_chars in H; tauto.
Qed.

Lemma exponent_text_inj p q : exponent_text p = exponent_text q -> p = q.
Proof.
  assert (Ns : forall z, ~ In "/"%char (show_int z)).
  { intros z. apply show_int_not; [left; change (byte "/") with 47%N; lia|discriminate]. }
  unfold exponent_text. destruct p as [[a b] Hp], q as [[c d] Hq]. cbn [this Qnum Qden]. intros H.
  assert (E : a = c /\ b = d).
  { destruct (Z.eqb_spec (Zpos b) 1) as [Eb|Eb]; destruct (Z.eqb_spec (Zpos d) 1) as [Ed|Ed].
    - apply show_int_inj in H. split; auto. congruence.
    - exfalso. apply (Ns a). rewrite H. apply in_or_app. right. now left.
    - exfalso. apply (Ns c). rewrite <- H. apply in_or_app. right. now left.
    - apply (f_equal (cut "/")) in H.
      rewrite (proj2 (cut_iff _ _ _ _) (conj eq_refl (Ns a))) in H.
      rewrite (proj2 (cut_iff _ _ _ _) (conj eq_refl (Ns c))) in H.
      injection H as H1 H2. apply show_int_inj in H1, H2. split; congruence. }
  destruct E as [-> ->]. apply Qc_is_canon. reflexivity.
Qed.

(** A list of words is read in one way only. *)
Theorem C46_unique : forall k env T o ws terms terms',
  compiled k env T o -> identifiers k o ->
  Forall2 (written k o) ws terms -> Forall2 (written k o) ws terms' -> terms = terms'.
Proof.
  intros k env T o ws terms terms' (R & _) Hid H. revert terms'.
  induction H as [|w [u q] ws terms Hw H IH]; intros terms' H'; inversion H' as [|? [u' q'] ? terms'' Hw' H'']; subst; [reflexivity|].
  f_equal; auto. clear IH H H' H''.
  destruct Hw as (Hu & n & En & Hw), Hw' as (Hu' & n' & En' & Hw'). cbn [fst snd] in *.
  assert (Nc : forall m x, In x (df_units o) -> un_symbol x = Some m -> ~ In "^"%char (str m)).
  { intros m x Hx Hm Hi. destruct (Hid x m Hx Hm) as [_ Hc]. apply (Hc _ Hi). now left. }
  assert (E : n = n' /\ q = q').
  { destruct Hw as [[-> Hq]| ->], Hw' as [[Ew Hq']|Ew].
    - apply str_inj in Ew. split; congruence.
    - exfalso. apply (Nc n u); auto. rewrite Ew. apply in_or_app. right. now left.
    - exfalso. apply (Nc n' u'); auto. rewrite <- Ew. apply in_or_app. right. now left.
    - apply (f_equal (cut "^")) in Ew.
      rewrite (proj2 (cut_iff _ _ _ _) (conj eq_refl (Nc n u Hu En))) in Ew.
      rewrite (proj2 (cut_iff _ _ _ _) (conj eq_refl (Nc n' u' Hu' En'))) in Ew.
      injection Ew as E1 E2. apply str_inj in E1. apply exponent_text_inj in E2. auto. }
  destruct E as [-> ->]. f_equal. eapply (symbols_unique k env T o R); eauto.
Qed.
Print Assumptions C46_unique.

Lemma written_words k o ws terms : identifiers k o -> Forall2 (written k o) ws terms -> Forall word ws.
Proof.
  intros Hid H. induction H as [|w [u q] ws terms (Hu & n & En & Hw) H IH]; constructor; auto.
  destruct (Hid u n Hu En) as [[Hne Hs] _]. cbn [fst snd] in Hw. destruct Hw as [[-> _]| ->]; [split; auto|].
  split; [destruct (str n); discriminate|]. apply solid_app; auto. apply graphic_solid. constructor.
  - unfold graphic. change (byte "^") with 94%N. lia.
  - apply Forall_forall. intros c Hc. apply exponent_text_chars in Hc as [->|[->|(d & Hd & ->)]].
    + unfold graphic. change (byte "-") with 45%N. lia.
    + unfold graphic. change (byte "/") with 47%N. lia.
    + now apply chr_graphic.
Qed.

Lemma unwords_inj a b : Forall word a -> Forall word b -> unwords a = unwords b -> a = b.
Proof. intros Ha Hb H. rewrite <- (split_unwords a Ha), <- (split_unwords b Hb). now rewrite H. Qed.

Lemma value_unwords_inj v v' ws ws' : value_text v -> value_text v' -> Forall word ws -> Forall word ws' ->
  v ++ unwords ws = v' ++ unwords ws' -> v = v' /\ ws = ws'.
Proof.
  intros [[Hv Nv]|(b & -> & Hb)] [[Hv' Nv']|(b' & -> & Hb')] Hw Hw' H.
  - apply (f_equal split_ws) in H. rewrite !split_words in H by auto. injection H; auto.
  - exfalso. destruct v as [|c v]; [now destruct Hv|]. injection H as H _. apply Nv. now left.
  - exfalso. destruct v' as [|c v']; [now destruct Hv'|]. injection H as H _. apply Nv'. now left.
  - cbn [app] in H. rewrite <- !app_assoc in H. cbn [app] in H. injection H as H.
    apply (f_equal (cut "]")) in H.
    rewrite (proj2 (cut_iff _ _ _ _) (conj eq_refl Hb)) in H.
    rewrite (proj2 (cut_iff _ _ _ _) (conj eq_refl Hb')) in H.
    injection H as -> H. split; auto. now apply unwords_inj.
Qed.

(** Two quantities with the same text have the same value text and the same dimension. *)
Theorem C46_same_text : forall k env T o D v D' v' value value' t,
  compiled k env T o -> identifiers k o ->
  denotes k (df_base_dimensions o) D v -> denotes k (df_base_dimensions o) D' v' ->
  value_text value -> value_text value' ->
  debug (ops k) env (lit k) (show k) o D value = Some (Some t) ->
  debug (ops k) env (lit k) (show k) o D' value' = Some (Some t) ->
  value = value' /\ D = D'.
Proof.
  intros k env T o D v D' v' value value' t C Hid HD HD' Hv Hv' H H'.
  destruct (C46_read_back k env T o D v value t C HD H) as (ws & terms & E & Hw & Ht).
  destruct (C46_read_back k env T o D' v' value' t C HD' H') as (ws' & terms' & E' & Hw' & Ht').
  rewrite E in E'. destruct (value_unwords_inj value value' ws ws') as [-> ->]; auto.
  - eapply written_words; eauto.
  - eapply written_words; eauto.
  - split; auto. rewrite (C46_unique k env T o ws' terms terms') in Ht by auto.
    apply (C08_identity k (df_base_dimensions o) D D' v v'); auto.
    + eapply nodup_fields; eauto.
    + intros f Hf. rewrite <- Ht, <- Ht'; auto.
Qed.
Print Assumptions C46_same_text.

(** [2 m s^-1] in the example system, in both builds; there, the exponent 1/2 prints as [1/2]. *)
Definition velocity k : dimval (ops k) :=
  match k with
  | IntegerExponents => [("length"%string, 1); ("time"%string, -1)]
  | RationalExponents => [("length"%string, rint 1); ("time"%string, rint (-1))]
  end.
Definition debug_example k D value : option (option text) :=
  match run_unit_system (ops k) env0 (example k) with
  | Some (o, _) => debug (ops k) env0 (lit k) (show k) o D value
  | None => None
  end.
Lemma debug_velocity k : debug_example k (velocity k) (str "2.5") = Some (Some (str "2.5 m s^-1")).
Proof. destruct k; vm_compute; reflexivity. Qed.
Lemma debug_root : debug_example RationalExponents
  [("length"%string, {| Ratio.num := 1; denom := 2 |}); ("time"%string, rint 0)] (str "1")
  = Some (Some (str "1 m^1/2")).
Proof. vm_compute; reflexivity. Qed.

Lemma example_fields k o : run_unit_system (ops k) env0 (example k) = Some (o, []) ->
  df_base_dimensions o = ["length"; "time"]%string.
Proof.
  intros H.
  assert (E : option_map (fun r => df_base_dimensions (fst r)) (run_unit_system (ops k) env0 (example k))
              = Some ["length"; "time"]%string) by (destruct k; vm_compute; reflexivity).
  rewrite H in E. simpl in E. congruence.
Qed.

Lemma example_compiled k : exists o, compiled k env0 (example k) o.
Proof.
  destruct (example_ok k) as (o & H1 & H2 & H3). exists o.
  split; [exact H1|]. split; [exact H2|]. split; [apply example_exponents|].
  rewrite (example_fields k o H1). reflexivity.
Qed.

Definition all_symbols k (o : defs (ops k)) : list string :=
  flat_map (fun u => match un_symbol u with Some s => [s] | None => [] end) (df_units o).
Definition symbol_ok (s : string) : bool :=
  match str s with
  | [] => false
  | cs => forallb (fun c => b_in 48 57 c || b_in 65 90 c || b_in 97 122 c || b_is 206 c || b_is 188 c) cs
  end.
(** ASCII letters and digits, and the two bytes of the Greek mu. *)
Lemma symbol_ok_text s : symbol_ok s = true -> symbol_text s.
Proof.
  unfold symbol_ok, symbol_text. intros H. destruct (str s) as [|c cs] eqn:E; [discriminate|].
  rewrite forallb_forall in H.
  assert (B : forall x, In x (c :: cs) ->
    (48 <= byte x <= 57 \/ 65 <= byte x <= 90 \/ 97 <= byte x <= 122 \/ byte x = 206 \/ byte x = 188)%N).
  { intros x Hx. apply H in Hx. rewrite !orb_true_iff in Hx.
    destruct Hx as [[[[Hx|Hx]|Hx]|Hx]|Hx];
      try (apply b_in_range in Hx; lia); apply b_is_eq in Hx; lia. }
  split.
  - split; [discriminate|]. clear E. intros u v t Ev Hv. rewrite Ev in B.
    assert (B' : forall x, In x v -> (33 <= byte x <= 126 \/ byte x = 206 \/ byte x = 188)%N).
    { intros x Hx. assert (I : In x (u ++ v)) by (apply in_or_app; now right). specialize (B x I). lia. }
    destruct v as [|x v]; [congruence|]. specialize (B' x (or_introl eq_refl)).
    destruct B' as [Hg|Hg]; [now apply graphic_ws|].
    cbn [app]. unfold ws_len, b_in, b_is.
    destruct Hg as [-> | ->]; simpl; destruct (v ++ t) as [|? [|? ?]]; reflexivity.
  - intros x Hx Hs. apply B in Hx. simpl in Hs.
    assert (Hb : In (byte x) [94; 40; 41; 91; 93; 44]%N).
    { destruct Hs as [<-|[<-|[<-|[<-|[<-|[<-|[]]]]]]]; vm_compute; tauto. }
    simpl in Hb. lia.
Qed.

Lemma identifiers_check k (o : defs (ops k)) : forallb symbol_ok (all_symbols k o) = true -> identifiers k o.
Proof.
  intros H u name Hu En. apply symbol_ok_text. rewrite forallb_forall in H. apply H.
  apply in_flat_map. exists u. split; auto. rewrite En. now left.
Qed.

Lemma example_identifiers k o : run_unit_system (ops k) env0 (example k) = Some (o, []) -> identifiers k o.
Proof.
  intros H. apply identifiers_check.
  assert (E : option_map (fun r => forallb symbol_ok (all_symbols k (fst r))) (run_unit_system (ops k) env0 (example k))
              = Some true) by (destruct k; vm_compute; reflexivity).
  rewrite H in E. simpl in E. congruence.
Qed.

Example C46_applies : forall k, exists o D v value t,
  compiled k env0 (example k) o /\ identifiers k o /\ denotes k (df_base_dimensions o) D v /\
  value_text value /\ debug (ops k) env0 (lit k) (show k) o D value = Some (Some t) /\
  t = str "2.5 m s^-1".
Proof.
  intros k. destruct (example_compiled k) as (o & C). pose proof (proj1 C) as R.
  exists o, (velocity k), (fun f => if String.eqb f "length" then ZQc 1 else ZQc (-1)), (str "2.5"), (str "2.5 m s^-1").
  split; auto. split; [now apply example_identifiers|]. split.
  - rewrite (example_fields k o R). split; [destruct k; reflexivity|]. intros f e H.
    destruct k; cbn in H; destruct H as [H|[H|[]]]; injection H as <- <-; simpl; try (split; auto; fail).
    + split; [apply rint_rval|apply rint_rval].
    + split; [apply (rint_rval (-1))|apply (rint_rval (-1))].
  - split.
    + left. split; [|simpl; intuition discriminate]. split; [discriminate|]. apply graphic_solid.
      repeat constructor; unfold graphic; vm_compute; discriminate.
    + split; auto. pose proof (debug_velocity k) as H. unfold debug_example in H. now rewrite R in H.
Qed.

(** ** C47 *)

Lemma mapM_None {A B} (f : A -> option B) l : mapM f l = None -> exists a, In a l /\ f a = None.
Proof.
  induction l as [|a l IH]; simpl; [discriminate|]. destruct (f a) eqn:E; [|eauto].
  destruct (mapM f l); [discriminate|]. intros _. destruct IH as (x & Hx & Ex); eauto.
Qed.

(** Formatting panics exactly if the dimension has no unit of factor one and some base dimension
    with a non-zero exponent has none either. *)
Theorem C47_exactly : forall k env T o D v value,
  compiled k env T o -> denotes k (df_base_dimensions o) D v ->
  (debug (ops k) env (lit k) (show k) o D value = Some None <->
   (forall s, ~ coherent_symbol k env o s v) /\
   exists f, In f (df_base_dimensions o) /\ v f <> ZQc 0 /\ forall s, ~ coherent_symbol k env o s (basis f)) /\
  debug (ops k) env (lit k) (show k) o D value <> None.
Proof.
  intros k env T o D v value C HD.
  destruct (debug_units_defined k env T o C) as [rs E]. unfold debug. rewrite E.
  split; [|discriminate]. unfold debug_unit_text. split.
  - intros H. destruct (get_first_unit_for_dimension (ops k) rs D) as [u|] eqn:Eu; [discriminate|].
    split; [eapply lookup_None; eauto|].
    destruct (mapM (base_dimension_symbol (ops k) (lit k) (show k) (df_base_dimensions o) rs D) (df_base_dimensions o)) as [ts|] eqn:Em; [discriminate|].
    assert (Hf : exists f, In f (df_base_dimensions o) /\
              base_dimension_symbol (ops k) (lit k) (show k) (df_base_dimensions o) rs D f = None).
    { now apply mapM_None. }
    destruct Hf as (f & Hf & Ef). exists f. split; auto.
    rewrite (base_term k env T o C rs D v f E HD Hf) in Ef.
    destruct (Qc_eq_dec (v f) (ZQc 0)) as [Z|N]; [discriminate|]. split; auto.
    destruct C as (R & Hl & Hi & Hs). unfold base_symbol in Ef.
    destruct (base_literal k env T o R Hl Hi Hs f Hf) as (d & Ed & Sd & _). rewrite Ed in Ef.
    destruct (get_first_unit_for_dimension (ops k) rs d) eqn:Eg; [discriminate|].
    apply (lookup_None k env T o (conj R (conj Hl (conj Hi Hs))) rs d (basis f) E Sd Eg).
  - intros (Hn & f & Hf & Hv & Hs).
    destruct (get_first_unit_for_dimension (ops k) rs D) as [u|] eqn:Eu.
    { exfalso. eapply Hn. eapply lookup_Some; eauto. }
    destruct (mapM (base_dimension_symbol (ops k) (lit k) (show k) (df_base_dimensions o) rs D) (df_base_dimensions o)) as [ts|] eqn:Em; [|reflexivity].
    exfalso. destruct (terms_text k env T o C rs D v ts E HD Em) as [_ Hsym].
    destruct (Hsym f Hf Hv) as [u Hu]. eapply Hs. eapply base_symbol_coherent; eauto.
Qed.
Print Assumptions C47_exactly.

(** If every base dimension has a base unit, formatting never panics. *)
Theorem C47_base_units_partial : forall k env lo T o D v value,
  compiled k env T o -> good_platform env lo -> denotes k (df_base_dimensions o) D v ->
  (forall d, In d (u_dimensions T) -> de_rhs d = DefBase tt ->
     exists t, In t (u_units T) /\ ut_definition t = DefBase (de_name d)) ->
  exists t, debug (ops k) env (lit k) (show k) o D value = Some (Some t).
Proof.
  intros k env lo T o D v value C G HD Hb.
  destruct (C47_exactly k env T o D v value C HD) as [Hiff Hdef].
  destruct (debug (ops k) env (lit k) (show k) o D value) as [[t|]|]; [eauto| |congruence].
  exfalso. destruct (proj1 Hiff eq_refl) as (_ & f & Hf & _ & Hs). destruct C as (R & Hl & Hi & Hst).
  destruct (accepted_all (ops k) (laws k) env _ o (generated_ok_expand _ T) R) as (_ & res & d8 & _ & _ & Ho & _).
  rewrite Ho in Hf. simpl in Hf. apply in_map_iff in Hf as (d & <- & Hd). apply filter_In in Hd as [Hd Eb].
  assert (Er : de_rhs d = DefBase tt).
  { unfold is_base_dimension in Eb. destruct (de_rhs d) as [[]|]; [reflexivity|discriminate]. }
  destruct (Hb d Hd Er) as (t & Ht & Et).
  assert (He : In (expand_one t None None) (u_units (expand_templates T))).
  { apply (unit_decl (ops k)). apply expanded_In; eauto. }
  destruct (base_unit_ready k env T o R lo (expand_one t None None) (de_name d) G Hl He) as (u & s & Hu & Es & Ef & Ev).
  - unfold base_unit_of. simpl. exact Et.
  - apply (Hs (str s)). exists u, s. repeat (split; auto). intros b _. rewrite exponent_in_vec, Ev.
    unfold basis. destruct (String.eqb b _); now apply Qc_is_canon.
Qed.
Print Assumptions C47_base_units_partial.

(** [dimension Length;] without any unit is accepted, and formatting a length panics. *)
Definition unitless k : unresolved (ops k) (unit_template (ops k)) := {|
  u_dimension_types := ["Dimension"]%string; u_quantity_types := ["Quantity"]%string;
  u_dimensions := [{| de_name := "Length"%string; de_rhs := DefBase tt |}]; u_units := []; u_constants := [] |}.

Theorem C47_refuted : forall k, exists o D v value,
  compiled k env0 (unitless k) o /\ denotes k (df_base_dimensions o) D v /\
  debug (ops k) env0 (lit k) (show k) o D value = Some None.
Proof.
  intros k.
  assert (Hr : exists o, run_unit_system (ops k) env0 (unitless k) = Some (o, []) /\ df_base_dimensions o = ["length"]%string /\
             debug (ops k) env0 (lit k) (show k) o [("length"%string, e_one (ops k))] (str "1") = Some None).
  { assert (E : match run_unit_system (ops k) env0 (unitless k) with
                | Some (o, []) => df_base_dimensions o = ["length"]%string /\
                    debug (ops k) env0 (lit k) (show k) o [("length"%string, e_one (ops k))] (str "1") = Some None
                | _ => False end) by (destruct k; vm_compute; auto).
    destruct (run_unit_system (ops k) env0 (unitless k)) as [[o [|]]|]; try contradiction. exists o. tauto. }
  destruct Hr as (o & R & Ef & Ed).
  exists o, [("length"%string, e_one (ops k))], (fun _ => ZQc 1), (str "1").
  split; [|split; [|exact Ed]].
  - split; [exact R|]. split; [|split].
    + split.
      * split; [intros u e c []|intros c x []].
      * intros x p Hx Hp. cbn in Hx. destruct Hx as [<-|[]]. destruct Hp.
    + intros x p Hx Hp. cbn in Hx. destruct Hx as [<-|[]]. destruct Hp.
    + rewrite Ef. reflexivity.
  - rewrite Ef. split; [reflexivity|]. intros f e [H|[]]. injection H as <- <-. apply (l_one _ (laws k)).
Qed.
Print Assumptions C47_refuted.

Example C47_applies : forall k, exists o D v,
  compiled k env0 (example k) o /\ good_platform env0 (-1023) /\ denotes k (df_base_dimensions o) D v /\
  (forall d, In d (u_dimensions (example k)) -> de_rhs d = DefBase tt ->
     exists t, In t (u_units (example k)) /\ ut_definition t = DefBase (de_name d)).
Proof.
  intros k. destruct (C46_applies k) as (o & D & v & value & t & C & _ & HD & _).
  exists o, D, v. split; auto. split; [exact good0|]. split; auto.
  intros d Hd E. cbn in Hd. destruct Hd as [<-|[<-|[<-|[]]]].
  - exists (meter k). simpl. auto.
  - exists (second k). simpl. auto.
  - discriminate E.
Qed.
