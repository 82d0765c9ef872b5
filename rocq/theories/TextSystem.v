(** * What the unit tables of an accepted system contain *)
From Coq Require Import String Ascii List Bool ZArith QArith Qcanon Lia Reals Lra.
From Flocq Require Import Core IEEE754.Binary IEEE754.Bits.
From Verif Require Import MachineInt Ratio RatioFacts F64 Magnitude MagnitudeFacts Exponent ExponentFacts SMap
  Expression DimensionMath DimensionMathFacts Types Snake Resolve ResolveLoop SystemSpec ResolveFacts
  ResolveAccept ResolveEquations Expansion CodegenDimension CodegenDimensionFacts CodegenLiteral Setting
  SystemFacts Storage Raw Text TextFacts Debug.
Import ListNotations.
Local Close Scope R_scope.
Local Close Scope Q_scope.
Local Close Scope Qc_scope.
Local Open Scope list_scope.
Local Open Scope Z_scope.

Section System.
Context (k : mode) (env : fenv) (T : unresolved (ops k) (unit_template (ops k))) (o : defs (ops k)).
Notation X := (ops k).
Notation L := (laws k).
Notation S := (expand_templates T).
Hypothesis R : run_unit_system X env T = Some (o, []).

Lemma unit_entry_of u : In u (df_units o) -> exists e r res d8,
  resolve_items X env (items_of X S) = Some (res, d8) /\
  In e (u_units S) /\ sget (ue_name e) res = Some r /\
  u = {| un_name := ue_name e; un_dims := dm_dims (ri_dims r); un_mag := dm_mag (ri_dims r);
         un_symbol := ue_symbol e;
         un_is_base := match ue_definition e with DefBase _ => true | DefExpr _ => false end |}.
Proof.
  intros Hu. destruct (accepted_all X L env S o (generated_ok_expand _ T) R) as (W & res & d8 & Hr1 & Hr4 & Ho & Hall).
  pose proof (resolved_wf X env _ _ _ Hr4) as Wr. rewrite Ho in Hu. simpl in Hu.
  apply (get_units_In X _ _ Wr) in Hu as (n & r & e & Hn & Et & ->).
  destruct (entry_decl X env _ _ _ _ _ Hr4 Hn) as (x & Hx & Ex & En).
  rewrite Ex in Et. apply item_of_type_unit in Et. subst x. simpl in En. subst n.
  exists e, r, res, d8. repeat split; auto. now apply (unit_decl X).
Qed.

Lemma same_entry (e e' : unit_entry X) r res d8 r' res' d8' :
  resolve_items X env (items_of X S) = Some (res, d8) ->
  resolve_items X env (items_of X S) = Some (res', d8') ->
  e = e' -> sget (ue_name e) res = Some r -> sget (ue_name e') res' = Some r' -> r = r'.
Proof. intros H H' <- Hr Hr'. rewrite H in H'. injection H' as <- <-. congruence. Qed.

(** No two units have the same symbol. *)
Lemma symbols_unique u u' s : In u (df_units o) -> In u' (df_units o) ->
  un_symbol u = Some s -> un_symbol u' = Some s -> u = u'.
Proof.
  intros Hu Hu' Hs Hs'.
  destruct (accepted_all X L env S o (generated_ok_expand _ T) R) as (W & _).
  apply unit_entry_of in Hu as (e & r & res & d8 & Hres & He & Hr & ->).
  apply unit_entry_of in Hu' as (e' & r' & res' & d8' & Hres' & He' & Hr' & ->).
  simpl in Hs, Hs'. assert (E : e = e') by (eapply (wf_symbols _ _ W); eauto). subst e'.
  assert (Er : r = r') by (exact (same_entry e e r res d8 r' res' d8' Hres Hres' eq_refl Hr Hr')). now subst r'.
Qed.

Lemma names_unique u u' : In u (df_units o) -> In u' (df_units o) -> un_name u = un_name u' -> u = u'.
Proof.
  intros Hu Hu' En.
  destruct (accepted_all X L env S o (generated_ok_expand _ T) R) as (W & _).
  apply unit_entry_of in Hu as (e & r & res & d8 & Hres & He & Hr & ->).
  apply unit_entry_of in Hu' as (e' & r' & res' & d8' & Hres' & He' & Hr' & ->).
  simpl in En. assert (E : DUnit e = DUnit e').
  { apply (nodup_decl X S); [apply (wf_names _ _ W)|now apply (unit_decl X)|now apply (unit_decl X)|exact En]. }
  injection E as <-. assert (Er : r = r') by (exact (same_entry e e r res d8 r' res' d8' Hres Hres' eq_refl Hr Hr')). now subst r'.
Qed.

(** Base units: symbol, factor one, and the base dimension. *)
Lemma base_unit_ready lo e d :
  good_platform env lo -> literals_ok k T ->
  In e (u_units S) -> base_unit_of e d ->
  exists u s, In u (df_units o) /\ un_symbol u = Some s /\ into_f64 env (un_mag u) = f64_one /\
    forall b, vec_of X L (un_dims u) b = if String.eqb b (base_dimension_of d) then 1%Qc else 0%Qc.
Proof.
  intros [Hlo Hp] [_ Hv] He Hb.
  destruct (accepted_all X L env S o (generated_ok_expand _ T) R) as (W & _).
  destruct (unit_results X L env S o (generated_ok_expand _ T) R) as (U1 & U2 & U3).
  destruct (U1 e He) as (u & Hu & En). destruct (U2 e u He Hu En) as [Es _].
  pose proof (wf_base_symbol _ _ W e d He Hb) as Hs. destruct (ue_symbol e) as [s|] eqn:Ee; [|congruence].
  exists u, s. split; auto. split; auto.
  destruct (base_unit_result X L env _ (pow_law k env) lo S o e d (vec_of X L (un_dims u)) (into_f64 env (un_mag u)))
    as [E1 E2]; auto; try lia.
  - apply generated_ok_expand.
  - right. left. exists u. rewrite vec_is_iff. auto.
  - left. exists u. auto.
Qed.

(** The dimension expression of every unit. *)
Hypothesis Hl : literals_ok k T.
Hypothesis Hi : i64_exponents k T.
Hypothesis Hs : struct_declaration_ok (df_base_dimensions o) = true.
Notation fields := (df_base_dimensions o).

Lemma fields_nodup : NoDup fields.
Proof. unfold struct_declaration_ok in Hs. now apply nodupb_iff. Qed.

Definition i64_dim (d : dimval X) : Prop := forall f e, In (f, e) d -> i64_exponent k e.

Lemma i64_zero : i64_exponent k (e_zero X).
Proof. destruct k; simpl; auto. Qed.
Lemma i64_one : i64_exponent k (e_one X).
Proof. destruct k; simpl; auto. Qed.

Lemma resolved_units_within u : In u (df_units o) ->
  within X fields (fun e => l_valid _ L e /\ i64_exponent k e) (un_dims u).
Proof.
  intros Hu. destruct Hl as [_ Hv].
  destruct (resolved_within X env (fun e => l_valid _ L e /\ i64_exponent k e) (l_valid _ L) S o []) as (A & B & C); auto.
  - intros x y z [X1 X2] [Y1 Y2] E. split; [apply (l_add _ L) in E; tauto|].
    exact (proj1 (exponent_range k x y x z X2 Y2) E).
  - intros x z [X1 X2] E. split; [apply (l_neg _ L) in E; tauto|].
    exact (proj1 (proj2 (exponent_range k x x x z X2 X2)) E).
  - intros x p z [X1 X2] Hp E. split; [apply (l_mul _ L) in E; tauto|].
    exact (proj2 (proj2 (exponent_range k x x p z X2 X2)) E).
  - split; [apply (l_one _ L)|apply i64_one].
Qed.

Lemma literal_of (dims : bdims X) :
  within X fields (fun e => l_valid _ L e /\ i64_exponent k e) dims ->
  exists d, dim_expr X (lit k) fields dims = Some d /\
    stands_for X fields L d (vec_of X L dims) /\ i64_dim d.
Proof.
  intros [W H].
  destruct (dim_expr_spec X L (lit k) fields dims) as (d & E & Sd).
  - apply fields_nodup.
  - split; auto. intros f e I. destruct (H f e I) as [H1 [H2 _]]. auto.
  - intros f e I. destruct (H f e I) as [H1 [H2 H3]]. now apply lit_id.
  - exists d. split; auto. split; auto. intros f e I. destruct Sd as [Sh Sd].
    destruct (Sd f e I) as [V Ev]. unfold vec_of in Ev.
    destruct (sget f dims) as [e'|] eqn:Eg.
    + apply sget_In in Eg. destruct (H f e' Eg) as [_ [V' I']].
      assert (e = e') by (apply (l_inj _ L); auto). now subst.
    + assert (e = e_zero X).
      { apply (l_inj _ L); auto; [apply (l_zero _ L)|]. rewrite Ev. symmetry. apply (l_zero _ L). }
      subst. apply i64_zero.
Qed.

Lemma unit_literal u : In u (df_units o) ->
  exists d, dim_expr X (lit k) fields (un_dims u) = Some d /\
    stands_for X fields L d (vec_of X L (un_dims u)) /\ i64_dim d.
Proof. intros Hu. apply literal_of. now apply resolved_units_within. Qed.

Lemma base_literal f : In f fields ->
  exists d, dim_expr X (lit k) fields (bd_for_base X f) = Some d /\
    stands_for X fields L d (fun b => if String.eqb b f then ZQc 1 else ZQc 0) /\ i64_dim d.
Proof.
  intros Hf. destruct (literal_of (bd_for_base X f)) as (d & E & Sd & Hd).
  - unfold bd_for_base. apply within_insert; auto.
    + split; [constructor|]. intros ? ? [].
    + split; [apply (l_one _ L)|apply i64_one].
  - exists d. split; auto. split; auto. eapply stands_for_proper; [|exact Sd].
    intros b _. apply vec_for_base.
Qed.

(** The table entry of a unit. *)
Definition entry_of (u : unit_def X) (r : runtime_unit X) : Prop :=
  exists s, un_symbol u = Some s /\ ru_symbol r = str s /\
    ru_mag r = into_f64 env (un_mag u) /\
    dim_expr X (lit k) fields (un_dims u) = Some (ru_dim r).

Lemma runtime_units_In us rs :
  runtime_units X env (lit k) fields us = Some rs ->
  (forall r, In r rs -> exists u, In u us /\ entry_of u r) /\
  (forall u s, In u us -> un_symbol u = Some s -> exists r, In r rs /\ entry_of u r).
Proof.
  unfold runtime_units. intros H.
  destruct (mapM (runtime_unit_of X env (lit k) fields) us) as [ms|] eqn:E; [|discriminate].
  injection H as <-. apply mapM_Some_iff in E. split.
  - intros r Hr. apply in_flat_map in Hr as (m & Hm & Hr). destruct m as [r'|]; [|destruct Hr].
    destruct Hr as [->|[]].
    clear -E Hm. induction E as [|u m us ms Em E IH]; [destruct Hm|]. destruct Hm as [->|Hm].
    + exists u. split; [now left|]. unfold runtime_unit_of in Em. destruct (un_symbol u) as [s|] eqn:Es; [|discriminate].
      destruct (dim_expr X (lit k) fields (un_dims u)) as [d|] eqn:Ed; [|discriminate].
      destruct (is_finite 53 1024 (into_f64 env (un_mag u))); [|discriminate].
      assert (Er : {| ru_symbol := str s; ru_dim := d; ru_mag := into_f64 env (un_mag u) |} = r) by congruence.
      subst r. exists s. simpl. auto.
    + destruct (IH Hm) as (u' & Hu' & He). exists u'. split; [now right|auto].
  - intros u s Hu Es.
    assert (K : exists r, In (Some r) ms /\ entry_of u r).
    { clear -E Hu Es. induction E as [|u' m us ms Em E IH]; [destruct Hu|]. destruct Hu as [->|Hu].
      - unfold runtime_unit_of in Em. rewrite Es in Em.
        destruct (dim_expr X (lit k) fields (un_dims u)) as [d|] eqn:Ed; [|discriminate].
        destruct (is_finite 53 1024 (into_f64 env (un_mag u))); [|discriminate].
        exists {| ru_symbol := str s; ru_dim := d; ru_mag := into_f64 env (un_mag u) |}. split.
        + left. congruence.
        + exists s. simpl. auto.
      - destruct (IH Hu) as (r & Hr & He). exists r. split; [now right|auto]. }
    destruct K as (r & Hr & He). exists r. split; auto. apply in_flat_map. exists (Some r). split; auto. now left.
Qed.

(** The table exists unless a factor is infinite or NaN. *)
Lemma runtime_units_defined us : incl us (df_units o) ->
  ((exists rs, runtime_units X env (lit k) fields us = Some rs) <->
   forall u s, In u us -> un_symbol u = Some s -> is_finite 53 1024 (into_f64 env (un_mag u)) = true).
Proof.
  intros Hin. unfold runtime_units. split.
  - intros [rs H] u s Hu Es. destruct (mapM (runtime_unit_of X env (lit k) fields) us) as [ms|] eqn:E; [|discriminate].
    apply mapM_Some_iff in E. clear H. induction E as [|u' m us' ms' Em E IH]; [destruct Hu|].
    destruct Hu as [->|Hu]; [|apply IH; auto; intros x Hx; apply Hin; now right].
    unfold runtime_unit_of in Em. rewrite Es in Em.
    destruct (dim_expr X (lit k) fields (un_dims u)); [|discriminate].
    destruct (is_finite 53 1024 (into_f64 env (un_mag u))); [auto|discriminate].
  - intros H. destruct (proj2 (mapM_defined (runtime_unit_of X env (lit k) fields) us)) as [ms Hm].
    + intros u Hu. unfold runtime_unit_of. destruct (un_symbol u) as [s|] eqn:Es; [|eauto].
      destruct (unit_literal u (Hin u Hu)) as (d & -> & _). rewrite (H u s Hu Es). eauto.
    + rewrite Hm. eauto.
Qed.

Lemma is_one_iff (m : magnitude) : is_one env m = true <-> into_f64 env m = f64_one.
Proof.
  unfold is_one. generalize (into_f64 env m). intros x. unfold f64_eqb. split.
  - destruct (b64_compare x f64_one) as [[]|] eqn:E; try discriminate. intros _.
    destruct (f64_of_Z_exact 1) as (F1 & R1 & S1); [reflexivity|].
    unfold b64_compare in E.
    destruct (is_finite 53 1024 x) eqn:Fx.
    + rewrite Bcompare_correct in E by auto. injection E as E. apply Rcompare_Eq_inv in E.
      apply f64_eq_of_R; auto. change (B2R 53 1024 x = B2R 53 1024 (f64_of_Z 1)) in E. rewrite R1 in E. change (Bsign 53 1024 x = Bsign 53 1024 (f64_of_Z 1)). rewrite S1.
      destruct x as [s|s|s pl Hp|s m' e B]; try discriminate; simpl in E |- *.
      * exfalso. lra.
      * destruct s; [|reflexivity]. exfalso.
        assert (F2R (Defs.Float radix2 (SpecFloat.cond_Zopp true (Zpos m')) e) < 0)%R by (apply F2R_lt_0; reflexivity).
        rewrite E in H. lra.
    + destruct x as [s|s|s pl Hp|s m' e B]; try discriminate; destruct s; discriminate.
  - intros ->. reflexivity.
Qed.
End System.
