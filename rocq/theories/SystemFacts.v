(** * Further facts about resolved systems used by the property files *)
From Coq Require Import String List Bool ZArith Lia Reals Qcanon.
From Flocq Require Import Core Binary Bits.
From Verif Require Import MachineInt Ratio F64 Magnitude MagnitudeFacts Exponent ExponentFacts
  SMap Expression DimensionMath DimensionMathFacts Types Snake Resolve ResolveLoop ResolveChecks
  SystemSpec ResolveFacts ResolveAccept ResolveEquations ResolveReports Expansion DecimalFacts Setting.
Import ListNotations.
Local Open Scope list_scope.
Local Close Scope Qc_scope.
Local Close Scope Q_scope.

Section Facts.
Context (X : exp_ops) (L : exp_laws X) (env : fenv).
Notation sys := (unresolved X (unit_entry X)).

(** The units of the output are the declared ones, with their symbols. *)
Lemma unit_results (S : sys) o :
  generated_ok X S -> resolve X env S = Some (o, []) ->
  (forall e, In e (u_units S) -> exists u, In u (df_units o) /\ un_name u = ue_name e) /\
  (forall e u, In e (u_units S) -> In u (df_units o) -> un_name u = ue_name e ->
     un_symbol u = ue_symbol e /\ (un_is_base u = true <-> exists d, base_unit_of e d)) /\
  (forall u, In u (df_units o) -> exists e, In e (u_units S) /\ un_name u = ue_name e).
Proof.
  intros G H. destruct (accepted_all X L env S o G H) as (W & res & d8 & Hr1 & Hr4 & Ho & Hall).
  pose proof (resolved_wf X env _ _ _ Hr4) as Wr. pose proof (wf_names _ _ W) as N.
  assert (key : forall u, In u (get_units X res) -> exists e r, In e (u_units S) /\
            sget (ue_name e) res = Some r /\
            u = {| un_name := ue_name e; un_dims := dm_dims (ri_dims r); un_mag := dm_mag (ri_dims r);
                   un_symbol := ue_symbol e;
                   un_is_base := match ue_definition e with DefBase _ => true | DefExpr _ => false end |}).
  { intros u Hu. apply (get_units_In X _ _ Wr) in Hu as (n & r & e & Hn & Et & ->).
    destruct (entry_decl X env _ _ _ _ _ Hr4 Hn) as (x & Hx & Ex & En).
    rewrite Ex in Et. apply item_of_type_unit in Et. subst x. simpl in En. subst n.
    exists e, r. repeat split; auto. now apply (unit_decl X). }
  subst o. simpl. repeat apply conj.
  - intros e He. assert (Hx : In (DUnit e) (decls S)) by now apply (unit_decl X).
    destruct (Hall _ Hx) as (r & Hr & Er & _). eexists. split.
    + apply (get_units_In X _ _ Wr). exists (ue_name e), r, e. rewrite Er. auto.
    + reflexivity.
  - intros e u He Hu En. destruct (key u Hu) as (e' & r & He' & Hr & ->). simpl in En.
    assert (Eq : DUnit e' = DUnit e).
    { apply (nodup_decl X S); auto; now apply (unit_decl X). }
    inversion Eq; subst e'. simpl. split; [reflexivity|]. unfold base_unit_of.
    destruct (ue_definition e); split; try discriminate; eauto.
    intros [d E]; discriminate.
  - intros u Hu. destruct (key u Hu) as (e' & r & He' & Hr & ->). exists e'. auto.
Qed.

(** The dimensions and constants of the output are the declared ones; the type names are the ones given. *)
Lemma dimension_results (S : sys) o :
  generated_ok X S -> resolve X env S = Some (o, []) ->
  forall n, (exists y, In y (df_dimensions o) /\ d_name y = n) <-> exists d, In d (u_dimensions S) /\ de_name d = n.
Proof.
  intros G H. destruct (accepted_all X L env S o G H) as (W & res & d8 & Hr1 & Hr4 & -> & Hall).
  pose proof (resolved_wf X env _ _ _ Hr4) as Wr. intros n. cbn [out_of df_dimensions]. split.
  - intros (y & Hy & <-). apply (get_dimensions_In X _ _ Wr) in Hy as (m & r & e & Hn & Et & ->).
    destruct (entry_decl X env _ _ _ _ _ Hr4 Hn) as (x & Hx & Ex & En).
    rewrite Ex in Et. apply item_of_type_dim in Et. subst x. exists e. split; [|reflexivity].
    unfold decls in Hx. rewrite !in_app_iff, !in_map_iff in Hx.
    destruct Hx as [(z & [= ->] & Hz)|[(z & E & _)|(z & E & _)]]; [exact Hz|discriminate E|discriminate E].
  - intros (d & Hd & <-). assert (Hx : In (DDimension d) (decls S)).
    { unfold decls. rewrite in_app_iff, in_map_iff. left. eauto. }
    destruct (Hall _ Hx) as (r & Hr & Er & _). eexists. split.
    + apply (get_dimensions_In X _ _ Wr). exists (de_name d), r, d. rewrite Er. auto.
    + reflexivity.
Qed.
Lemma constant_results (S : sys) o :
  generated_ok X S -> resolve X env S = Some (o, []) ->
  forall n, (exists y, In y (df_constants o) /\ c_name y = n) <-> exists d, In d (u_constants S) /\ ce_name d = n.
Proof.
  intros G H. destruct (accepted_all X L env S o G H) as (W & res & d8 & Hr1 & Hr4 & -> & Hall).
  pose proof (resolved_wf X env _ _ _ Hr4) as Wr. intros n. cbn [out_of df_constants]. split.
  - intros (y & Hy & <-). apply (get_constants_In X _ _ Wr) in Hy as (m & r & e & Hn & Et & ->).
    destruct (entry_decl X env _ _ _ _ _ Hr4 Hn) as (x & Hx & Ex & En).
    rewrite Ex in Et. apply item_of_type_const in Et. subst x. exists e. split; [|reflexivity].
    unfold decls in Hx. rewrite !in_app_iff, !in_map_iff in Hx.
    destruct Hx as [(z & E & _)|[(z & E & _)|(z & [= ->] & Hz)]]; [discriminate E|discriminate E|exact Hz].
  - intros (d & Hd & <-). assert (Hx : In (DConstant d) (decls S)).
    { unfold decls. rewrite !in_app_iff, !in_map_iff. right. right. eauto. }
    destruct (Hall _ Hx) as (r & Hr & Er & _). eexists. split.
    + apply (get_constants_In X _ _ Wr). exists (ce_name d), r, d. rewrite Er. auto.
    + reflexivity.
Qed.
Lemma type_results (S : sys) o :
  generated_ok X S -> resolve X env S = Some (o, []) ->
  u_quantity_types S = [df_quantity_type o] /\ u_dimension_types S = [df_dimension_type o].
Proof.
  intros G H. destruct (accepted_all X L env S o G H) as (W & res & d8 & _ & _ & -> & _).
  cbn [out_of df_quantity_type df_dimension_type].
  destruct (wf_quantity _ _ W) as [q ->], (wf_dimension _ _ W) as [d ->]. auto.
Qed.

(** Without exponent overflow the macro never panics (and the resolution loop terminates). *)
Section Total.
Hypothesis add_total : forall a b, e_add X a b <> None.
Hypothesis neg_total : forall a, e_neg X a <> None.
Hypothesis mul_total : forall a b, e_mul X a b <> None.

Lemma bd_mul_total a b : bd_mul X a b <> None.
Proof.
  unfold bd_mul. revert a. induction b as [|kv b IH]; intros a; simpl; [discriminate|].
  unfold bd_mul_step. destruct (sget (fst kv) a) as [v|].
  - destruct (e_add X v (snd kv)) eqn:E; [apply IH|now apply add_total in E].
  - apply IH.
Qed.

Lemma smap_opt_total (f : X -> option X) (m : bdims X) :
  (forall v, f v <> None) -> smap_opt f m <> None.
Proof.
  intros F. induction m as [|[k v] m IH]; simpl; [discriminate|].
  destruct (f v) eqn:E; [|now apply F in E]. destruct (smap_opt f m); [discriminate|tauto].
Qed.

Lemma bd_div_total a b : bd_div X a b <> None.
Proof.
  unfold bd_div, bd_inv. destruct (smap_opt (e_neg X) b) eqn:E; [apply bd_mul_total|].
  now apply smap_opt_total in E.
Qed.

Lemma eval_total_mut lk :
  (forall e, eval_with X env (look X lk) e <> None) /\ (forall v, feval_with X env (look X lk) v <> None).
Proof.
  apply expr_factor_ind.
  - intros f IH. exact IH.
  - intros l IHl r IHr op. rewrite eval_bin.
    destruct (eval_with X env (look X lk) l) as [a|]; [|easy].
    destruct (feval_with X env (look X lk) r) as [b|]; [|easy]. destruct op.
    + unfold dm_mul. destruct (bd_mul X (dm_dims a) (dm_dims b)) eqn:E; [congruence|].
      now apply bd_mul_total in E.
    + unfold dm_div. destruct (bd_div X (dm_dims a) (dm_dims b)) eqn:E; [congruence|].
      now apply bd_div_total in E.
  - intros [c|n]; cbn [feval_with look]; congruence.
  - intros t e. cbn [feval_with]. destruct t as [c|n]; cbn [look];
      unfold dm_pow, bd_pow;
      (destruct (smap_opt _ _) eqn:E; [congruence|]);
      apply smap_opt_total in E; auto.
  - intros x IH. exact IH.
Qed.

Lemma resolve_total (S : sys) : resolve X env S <> None.
Proof.
  rewrite resolve_unfold. pose proof (resolve_items_spec X env (U4 X S)) as O.
  destruct (resolve_items X env (U4 X S)) as [[res d8]|]; [discriminate|].
  simpl in O. destruct O as (i & lk & _ & _ & E). now apply eval_total_mut in E.
Qed.
End Total.
End Facts.

Lemma run_wrapping_total env T : run_unit_system (int_exp Wrapping) env T <> None.
Proof. apply resolve_total; simpl; intros; unfold i64_add, i64_neg, i64_mul, fit;
  destruct (in_i64 _); discriminate. Qed.

(** [literals_ok] in terms of the template, before expansion. *)
Definition template_literals_ok (k : mode) (T : unresolved (ops k) (unit_template (ops k))) : Prop :=
  (forall t e, In t (u_units T) -> ut_definition t = DefExpr e ->
     (forall c, In (Concrete c) (expr_vals e) -> encoded c) /\
     (forall p, In p (exponents e) -> l_valid (ops k) (laws k) p)) /\
  (forall c, In c (u_constants T) ->
     (forall x, In (Concrete x) (expr_vals (ce_rhs c)) -> encoded x) /\
     (forall p, In p (exponents (ce_rhs c)) -> l_valid (ops k) (laws k) p)) /\
  (forall d e, In d (u_dimensions T) -> de_rhs d = DefExpr e ->
     forall p, In p (exponents e) -> l_valid (ops k) (laws k) p).

Lemma template_literals k T : template_literals_ok k T -> literals_ok k T.
Proof.
  intros (Hu & Hc & Hd).
  assert (G : forall u e, In u (u_units (expand_templates T)) -> ue_definition u = DefExpr e ->
            (forall c, In (Concrete c) (expr_vals e) -> encoded c) /\
            (forall p, In p (exponents e) -> l_valid (ops k) (laws k) p)).
  { intros u e Hin E. simpl in Hin. apply in_flat_map in Hin as (t & Ht & Hin).
    apply expand_In in Hin as (p & a & _ & _ & ->).
    destruct p as [p|], a as [a|]; simpl in E;
      try (inversion E; subst; clear E; simpl; split; [|easy]; intros c [Ec|[Ec|[]]]; inversion Ec;
           eexists; reflexivity).
    now apply (Hu t). }
  split; [split|].
  - intros u e c Hin E. now apply (G u e).
  - intros c x Hin. now apply (Hc c).
  - intros x p Hx Hp. destruct x as [d|u|c]; simpl in Hp.
    + destruct (de_rhs d) as [b|e] eqn:E; [easy|]. apply (Hd d e); auto.
      unfold decls in Hx. apply in_app_iff in Hx as [Hx|Hx].
      * apply in_map_iff in Hx as (d' & Ed & Hd'). inversion Ed; now subst.
      * apply in_app_iff in Hx as [Hx|Hx]; apply in_map_iff in Hx as (d' & Ed & Hd'); discriminate.
    + destruct (ue_definition u) as [b|e] eqn:E; [easy|]. apply (G u e); auto.
      now apply (unit_decl (ops k)).
    + apply (Hc c); auto. unfold decls in Hx. apply in_app_iff in Hx as [Hx|Hx].
      * apply in_map_iff in Hx as (d' & Ed & Hd'). discriminate.
      * apply in_app_iff in Hx as [Hx|Hx]; apply in_map_iff in Hx as (d' & Ed & Hd'); [discriminate|].
        inversion Ed; now subst.
Qed.

Lemma f64_mul_one x : is_nan 53 1024 x = false -> f64_mul x f64_one = x.
Proof.
  intros Hn. destruct (f64_of_Z_exact 1) as (F1 & R1 & S1); [reflexivity|].
  destruct (is_finite 53 1024 x) eqn:Fx.
  - apply f64_mul_exact; auto.
    + unfold f64_one. rewrite R1. apply Rmult_1_r.
    + unfold f64_one. rewrite S1. destruct (Bsign 53 1024 x); reflexivity.
  - destruct x as [s|s|s pl H|s m e B]; try discriminate.
    destruct s; reflexivity.
Qed.

(** A unit defined as a power of another one. *)
Lemma power_consistent env lo (T : unresolved (int_exp Checked) (unit_template (int_exp Checked))) o n u a
    (e : Z) :
  good_platform env lo ->
  run_unit_system (int_exp Checked) env T = Some (o, []) ->
  In n (u_units T) -> ut_definition n = DefExpr (EVal (FPow (Other (un_name u)) (e : int_exp Checked))) ->
  In u (df_units o) -> In a (df_units o) -> un_name a = ut_name n ->
  (- 2 ^ 31 <= e < 2 ^ 31)%Z ->
  into_f64 env (un_mag a) = stored env (f_powi env (into_f64 env (un_mag u)) e) /\
  forall b, vec_of _ int_laws (un_dims a) b = (vec_of _ int_laws (un_dims u) b * ZQc e)%Qc.
Proof.
  intros [Hlo Hp] Hr Hn Hd Hu Ha En He.
  set (x := DUnit (expand_one n None None)).
  assert (Hx : In x (decls (expand_templates T))) by (apply expanded_In; auto).
  assert (En' : decl_name x = un_name a) by (symmetry; exact En).
  split.
  - destruct (fac_equations _ int_laws env (pow_int env) lo _ o (pow_int_law Checked env) ltac:(lia) Hp
              (generated_ok_expand _ T) Hr x Hx ltac:(easy)) as [_ E].
    specialize (E (into_f64 env (un_mag a))). rewrite En' in E.
    assert (Ra : fac_result (int_exp Checked) env o (un_name a) (into_f64 env (un_mag a))).
    { left. exists a. auto. }
    apply E in Ra. unfold x in Ra. simpl in Ra. rewrite Hd in Ra.
    inversion Ra as [f v Hf| |]; subst. inversion Hf as [| | |m p v Hv|]; subst.
    assert (Ev : v = into_f64 env (un_mag u)).
    { eapply fac_result_functional; [exact Hr|exact Hv|]. left. exists u. auto. }
    subst v. unfold pow_int, as_i32. rewrite wrap_id; auto. lia.
  - assert (Vd : exponents_valid (int_exp Checked) int_laws (expand_templates T)).
    { intros y p _ _. exact I. }
    destruct (dim_equations _ int_laws env _ o (generated_ok_expand _ T) Vd Hr x Hx) as [_ E].
    specialize (E (vec_of _ int_laws (un_dims a))). rewrite En' in E.
    assert (Ra : dim_result (int_exp Checked) int_laws o (un_name a) (vec_of _ int_laws (un_dims a))).
    { right; left. exists a. repeat split; auto. now apply vec_is_iff. }
    apply E in Ra. unfold x in Ra. simpl in Ra. rewrite Hd in Ra.
    inversion Ra as [f v Hf| |]; subst. inversion Hf as [| | |m p v1 v Hv Ev|]; subst.
    intros b. rewrite Ev.
    assert (Eu : v1 b = vec_of _ int_laws (un_dims u) b).
    { eapply (dim_result_functional _ int_laws env); [exact Hr|exact Hv|].
      right; left. exists u. repeat split; auto. now apply vec_is_iff. }
    rewrite Eu. reflexivity.
Qed.
