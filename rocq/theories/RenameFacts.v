(** * Facts for C93: evaluation under other names *)
From Coq Require Import String List Bool ZArith Lia.
From Verif Require Import MachineInt Ratio F64 Magnitude Exponent ExponentFacts SMap Snake Expression DimensionMath DimensionMathFacts Types PrefixSpec ExpansionSpec
  Resolve ResolveLoop ResolveChecks SystemSpec ResolveFacts ResolveEquations Expansion Setting SystemFacts Parse Grammar ParseFacts ParsedSystems
  Accuracy AccuracyFacts ExactFacts IndependenceFacts RemovalFacts PropertiesSystem LocalSpec LocalFacts RenameSpec.
Import ListNotations.
Local Open Scope list_scope.

Definition ren {C} (new : ident -> ident) (t : fac C) : fac C :=
  match t with Concrete c => Concrete c | Other n => Other (new n) end.

Lemma map_fuse {A B D E} (f : A -> B) (g : B -> D) :
  (forall e : expr A E, expr_map g (expr_map f e) = expr_map (fun t => g (f t)) e) /\
  (forall e : factor A E, factor_map g (factor_map f e) = factor_map (fun t => g (f t)) e).
Proof.
  apply expr_factor_ind.
  - intros v IH. cbn [expr_map]. now f_equal.
  - intros l IHl r IHr op. cbn [expr_map]. now f_equal.
  - reflexivity.
  - reflexivity.
  - intros x IH. cbn [factor_map]. now f_equal.
Qed.
Lemma map_same {A B E} (f g : A -> B) : (forall t, f t = g t) ->
  (forall e : expr A E, expr_map f e = expr_map g e) /\ (forall e : factor A E, factor_map f e = factor_map g e).
Proof.
  intros H. apply expr_factor_ind.
  - intros v IH. cbn [expr_map]. now f_equal.
  - intros l IHl r IHr op. cbn [expr_map]. now f_equal.
  - intros t. cbn [factor_map]. now rewrite H.
  - intros t e. cbn [factor_map]. now rewrite H.
  - intros x IH. cbn [factor_map]. now f_equal.
Qed.
Lemma ren_concrete {C D E} new (g : C -> D) (e : expr (fac C) E) :
  expr_map (map_concrete g) (expr_map (ren new) e) = expr_map (ren new) (expr_map (map_concrete g) e).
Proof.
  rewrite !(proj1 (map_fuse _ _)). apply map_same. intros [c|n]; reflexivity.
Qed.

Section Maps.
Context (X : exp_ops) (env : fenv).
Notation dm := (dimmag X).

Lemma bin_left {T} (l : expr T X) r op t : In t (expr_vals l) -> In t (expr_vals (EBin l r op)).
Proof. intros H. cbn [expr_vals]. apply in_app_iff. now left. Qed.
Lemma bin_right {T} (l : expr T X) r op t : In t (factor_vals r) -> In t (expr_vals (EBin l r op)).
Proof. intros H. cbn [expr_vals]. apply in_app_iff. now right. Qed.

Lemma mul_entries_get b (l : list (string * X)) : forall f f', NoDup (map fst l) -> bd_mul_entries X f l = Some f' ->
  match sget b l with
  | None => sget b f' = sget b f
  | Some e => match sget b f with None => sget b f' = Some e | Some v => sget b f' = e_add X v e end
  end.
Proof.
  induction l as [|[c e] l IH]; intros f f' Nd H.
  - assert (f' = f) by (cbn in H; congruence). subst f'. reflexivity.
  - inversion Nd as [|? ? Nc Nd']; subst. cbn [bd_mul_entries] in H.
    destruct (bd_mul_step X f (c, e)) as [g|] eqn:St; [|discriminate H]. specialize (IH g f' Nd' H).
    assert (Gc : sget c g = match sget c f with None => Some e | Some v => e_add X v e end /\ forall b, b <> c -> sget b g = sget b f).
    { unfold bd_mul_step in St. cbn [fst snd] in St. destruct (sget c f) as [v|] eqn:Ec.
      - destruct (e_add X v e) as [w|] eqn:Ea; [|discriminate St]. assert (Eg : g = sinsert c w f) by congruence. rewrite Eg.
        split; [now rewrite sget_insert_eq|]. intros b' Nb. now apply sget_insert_neq.
      - assert (Eg : g = sinsert c e f) by congruence. rewrite Eg. split; [apply sget_insert_eq|]. intros b' Nb. now apply sget_insert_neq. }
    destruct Gc as [G1 G2]. cbn [sget fst]. destruct (String.eqb_spec b c) as [Eb|Nb].
    + rewrite Eb in *. assert (Nl : sget c l = None) by now apply sget_None. rewrite Nl in IH. rewrite IH, G1. now destruct (sget c f).
    + rewrite (G2 b Nb) in IH. exact IH.
Qed.
Lemma mul_entries_wf (l : list (string * X)) : forall f f', wf f -> bd_mul_entries X f l = Some f' -> wf f'.
Proof.
  induction l as [|kv l IH]; intros f f' W H.
  - assert (f' = f) by (cbn in H; congruence). now subst f'.
  - cbn [bd_mul_entries] in H. destruct (bd_mul_step X f kv) as [g|] eqn:St; [|discriminate H].
    exact (IH g f' (bd_mul_step_wf X f kv g W St) H).
Qed.
(** [Q]: under which condition the exponents are claimed to be equal. *)
Context (Q : Prop).
Lemma mul_pointwise b1 b2 a1 a2 c1 c2 d1 d2 : wf a1 -> wf a2 -> wf c1 -> wf c2 ->
  (Q -> sget b1 a1 = sget b2 a2) -> (Q -> sget b1 c1 = sget b2 c2) -> bd_mul X a1 c1 = Some d1 -> bd_mul X a2 c2 = Some d2 ->
  wf d1 /\ wf d2 /\ (Q -> sget b1 d1 = sget b2 d2).
Proof.
  intros Wa1 Wa2 Wc1 Wc2 Ea Ec E1 E2. unfold bd_mul in *.
  split; [exact (mul_entries_wf _ _ _ Wa1 E1)|]. split; [exact (mul_entries_wf _ _ _ Wa2 E2)|]. intros q. specialize (Ea q). specialize (Ec q).
  pose proof (mul_entries_get b1 _ _ _ (wf_NoDup _ Wc1) E1) as K1. pose proof (mul_entries_get b2 _ _ _ (wf_NoDup _ Wc2) E2) as K2.
  rewrite Ea, Ec in K1. destruct (sget b2 c2) as [e|]; [destruct (sget b2 a2)|]; congruence.
Qed.
Lemma opt_pointwise (g : X -> option X) b1 b2 a1 a2 d1 d2 : wf a1 -> wf a2 -> (Q -> sget b1 a1 = sget b2 a2) ->
  smap_opt g a1 = Some d1 -> smap_opt g a2 = Some d2 -> wf d1 /\ wf d2 /\ (Q -> sget b1 d1 = sget b2 d2).
Proof.
  intros W1 W2 E E1 E2. split; [exact (smap_opt_wf _ _ _ E1 W1)|]. split; [exact (smap_opt_wf _ _ _ E2 W2)|]. intros q. specialize (E q).
  pose proof (smap_opt_get _ _ _ b1 E1) as K1. pose proof (smap_opt_get _ _ _ b2 E2) as K2.
  rewrite E in K1. destruct (sget b2 a2); congruence.
Qed.

(** The same factor, and for the base dimension recorded as [b1] and [b2] the same exponent. *)
Context (b1 b2 : string).
Definition sim (m1 m2 : dm) : Prop :=
  wf (dm_dims m1) /\ wf (dm_dims m2) /\ dm_mag m1 = dm_mag m2 /\ (Q -> sget b1 (dm_dims m1) = sget b2 (dm_dims m2)).

Lemma eval_sim new lk1 lk2 :
  (forall e : expr (fac dm) X, (forall t, In t (expr_vals e) -> match t with Concrete c => sim c c | Other n => sim (lk1 n) (lk2 (new n)) end) ->
     forall v1 v2, eval_with X env (look X lk1) e = Some v1 -> eval_with X env (look X lk2) (expr_map (ren new) e) = Some v2 -> sim v1 v2) /\
  (forall e : factor (fac dm) X, (forall t, In t (factor_vals e) -> match t with Concrete c => sim c c | Other n => sim (lk1 n) (lk2 (new n)) end) ->
     forall v1 v2, feval_with X env (look X lk1) e = Some v1 -> feval_with X env (look X lk2) (factor_map (ren new) e) = Some v2 -> sim v1 v2).
Proof.
  apply expr_factor_ind.
  - intros v IH P v1 v2 E1 E2. exact (IH P v1 v2 E1 E2).
  - intros l IHl r IHr op P v1 v2 E1 E2. cbn [expr_map] in E2. rewrite eval_bin in E1, E2.
    destruct (eval_with X env (look X lk1) l) as [x1|] eqn:X1; [|discriminate E1].
    destruct (feval_with X env (look X lk1) r) as [y1|] eqn:Y1; [|discriminate E1].
    destruct (eval_with X env (look X lk2) (expr_map (ren new) l)) as [x2|] eqn:X2; [|discriminate E2].
    destruct (feval_with X env (look X lk2) (factor_map (ren new) r)) as [y2|] eqn:Y2; [|discriminate E2].
    destruct (IHl (fun t H => P t (bin_left _ _ _ _ H)) x1 x2 eq_refl eq_refl) as (Wx1 & Wx2 & Mx & Sx).
    destruct (IHr (fun t H => P t (bin_right _ _ _ _ H)) y1 y2 eq_refl eq_refl) as (Wy1 & Wy2 & My & Sy).
    destruct op.
    + unfold dm_mul in E1, E2. destruct (bd_mul X (dm_dims x1) (dm_dims y1)) as [d1|] eqn:D1; [|discriminate E1].
      destruct (bd_mul X (dm_dims x2) (dm_dims y2)) as [d2|] eqn:D2; [|discriminate E2].
      destruct (mul_pointwise _ _ _ _ _ _ _ _ Wx1 Wx2 Wy1 Wy2 Sx Sy D1 D2) as (A & B & C).
      assert (Ev1 : v1 = mkDM d1 (mag_mul env (dm_mag x1) (dm_mag y1))) by congruence.
      assert (Ev2 : v2 = mkDM d2 (mag_mul env (dm_mag x2) (dm_mag y2))) by congruence. rewrite Ev1, Ev2, Mx, My. repeat split; assumption.
    + unfold dm_div in E1, E2. destruct (bd_div X (dm_dims x1) (dm_dims y1)) as [d1|] eqn:D1; [|discriminate E1].
      destruct (bd_div X (dm_dims x2) (dm_dims y2)) as [d2|] eqn:D2; [|discriminate E2].
      unfold bd_div in D1, D2. destruct (bd_inv X (dm_dims y1)) as [i1|] eqn:I1; [|discriminate D1].
      destruct (bd_inv X (dm_dims y2)) as [i2|] eqn:I2; [|discriminate D2].
      destruct (opt_pointwise _ _ _ _ _ _ _ Wy1 Wy2 Sy I1 I2) as (Wi1 & Wi2 & Si).
      destruct (mul_pointwise _ _ _ _ _ _ _ _ Wx1 Wx2 Wi1 Wi2 Sx Si D1 D2) as (A & B & C).
      assert (Ev1 : v1 = mkDM d1 (mag_div env (dm_mag x1) (dm_mag y1))) by congruence.
      assert (Ev2 : v2 = mkDM d2 (mag_div env (dm_mag x2) (dm_mag y2))) by congruence. rewrite Ev1, Ev2, Mx, My. repeat split; assumption.
  - intros t P v1 v2 E1 E2. specialize (P t (or_introl eq_refl)). destruct t as [c|n]; cbn [feval_with factor_map ren look] in *; congruence.
  - intros t e P v1 v2 E1 E2. specialize (P t (or_introl eq_refl)).
    assert (K : exists x1 x2, sim x1 x2 /\ dm_pow X env x1 e = Some v1 /\ dm_pow X env x2 e = Some v2).
    { destruct t as [c|n]; eexists; eexists; (split; [exact P|]); split; assumption. }
    destruct K as (x1 & x2 & (W1 & W2 & M & Sx) & F1 & F2). unfold dm_pow in F1, F2.
    destruct (bd_pow X (dm_dims x1) e) as [d1|] eqn:D1; [|discriminate F1].
    destruct (bd_pow X (dm_dims x2) e) as [d2|] eqn:D2; [|discriminate F2].
    destruct (opt_pointwise _ _ _ _ _ _ _ W1 W2 Sx D1 D2) as (A & B & C).
    assert (Ev1 : v1 = mkDM d1 (e_float_pow X env (dm_mag x1) e)) by congruence.
    assert (Ev2 : v2 = mkDM d2 (e_float_pow X env (dm_mag x2) e)) by congruence. rewrite Ev1, Ev2, M. repeat split; assumption.
  - intros x IH P v1 v2 E1 E2. exact (IH P v1 v2 E1 E2).
Qed.
Lemma sim_none m : sim (mkDM (bd_none X) m) (mkDM (bd_none X) m).
Proof. repeat split; constructor. Qed.
End Maps.

Lemma rename_one new f : rename_x new (SxOne f) = SxOne (rename_f new f).
Proof. reflexivity. Qed.
Lemma rename_bin new l o f : rename_x new (SxBin l o f) = SxBin (rename_x new l) o (rename_f new f).
Proof. reflexivity. Qed.
Lemma rename_val new a : rename_f new (SfVal a) = SfVal (rename_atom new a).
Proof. reflexivity. Qed.
Lemma rename_pow new a e : rename_f new (SfPow a e) = SfPow (rename_atom new a) e.
Proof. reflexivity. Qed.
Lemma rename_paren new x : rename_f new (SfParen x) = SfParen (rename_x new x).
Proof. reflexivity. Qed.

Section Files.
Context (k : mode) (new : ident -> ident).
Notation X := (ops k).

Lemma rename_mean {C} (at_ : atom -> option (fac C)) : (forall a, at_ (rename_atom new a) = option_map (ren new) (at_ a)) ->
  (forall x, mean_x at_ (mean_exp k) (rename_x new x) = option_map (expr_map (ren new)) (mean_x at_ (mean_exp k) x)) /\
  (forall x, mean_f at_ (mean_exp k) (rename_f new x) = option_map (factor_map (ren new)) (mean_f at_ (mean_exp k) x)).
Proof.
  intros Ha. apply sx_sf_ind.
  - intros y IH. rewrite rename_one, !mean_one, IH. now destruct (mean_f at_ (mean_exp k) y).
  - intros l IHl op y IHf. rewrite rename_bin, !mean_bin, IHl, IHf.
    destruct (mean_x at_ (mean_exp k) l); [|reflexivity]. now destruct (mean_f at_ (mean_exp k) y).
  - intros a. rewrite rename_val, !mean_val, Ha. now destruct (at_ a).
  - intros a e. rewrite rename_pow, !mean_pow, Ha. destruct (at_ a); [|reflexivity]. now destruct (mean_exp k e).
  - intros x IH. rewrite rename_paren, !mean_paren, IH. now destruct (mean_x at_ (mean_exp k) x).
Qed.

Lemma dimension_atom_renamed a : mean_dimension_atom (rename_atom new a) = option_map (ren new) (mean_dimension_atom a).
Proof.
  destruct a as [n'|l]; [reflexivity|]. cbn [rename_atom mean_dimension_atom]. destruct (mean_number l) as [m|]; [|reflexivity].
  now destruct (f64_eqb m f64_one).
Qed.
Lemma unit_atom_renamed a : mean_unit_atom (rename_atom new a) = option_map (ren new) (mean_unit_atom a).
Proof. destruct a as [n'|l]; [reflexivity|]. cbn [rename_atom mean_unit_atom]. now destruct (mean_number l). Qed.

(** Renamed definitions mean renamed expressions, base dimensions apart. *)
Lemma said_renamed n d : d <> BaseDimension ->
  said_expr k (new n) (renamed new d) = option_map (expr_map (ren new)) (said_expr k n d).
Proof.
  intros Nd. destruct d as [|x|i|x|z i]; [congruence| | | |]; cbn [renamed said_expr].
  - unfold mean_dimension_rhs. rewrite (proj1 (rename_mean mean_dimension_atom dimension_atom_renamed)).
    destruct (mean_x mean_dimension_atom (mean_exp k) x) as [e|]; [|reflexivity]. cbn [option_map]. f_equal. apply ren_concrete.
  - reflexivity.
  - unfold mean_unit_rhs. rewrite (proj1 (rename_mean mean_unit_atom unit_atom_renamed)).
    destruct (mean_x mean_unit_atom (mean_exp k) x) as [e|]; [|reflexivity]. cbn [option_map]. f_equal. apply ren_concrete.
  - reflexivity.
Qed.
(** Their numbers are dimensionless. *)
Lemma said_concrete n d e c : d <> BaseDimension -> said_expr k n d = Some e -> In (Concrete c) (expr_vals e) ->
  exists m, c = mkDM (bd_none X) m.
Proof.
  intros Nd E H.
  assert (Mp : forall C (g : C -> dimmag X) (e : expr (fac C) X), (forall y, exists m, g y = mkDM (bd_none X) m) ->
     In (Concrete c) (expr_vals (expr_map (map_concrete g) e)) -> exists m, c = mkDM (bd_none X) m).
  { intros C g e' Hg Hc. rewrite (proj1 (vals_map_mut X _)) in Hc. apply in_map_iff in Hc as ([y|y] & Ey & _); cbn [map_concrete] in Ey; [|discriminate Ey].
    assert (Ec : c = g y) by congruence. rewrite Ec. apply Hg. }
  destruct d as [|x|i|x|z i]; [congruence| | | |]; cbn [said_expr] in E.
  - destruct (mean_dimension_rhs k x) as [e'|]; [|discriminate E]. assert (Ee : e = expr_map (map_concrete (fun _ => dm_of_dimensions X (bd_none X))) e') by congruence.
    rewrite Ee in H. apply Mp in H; [exact H|]. intros y. eexists. reflexivity.
  - assert (Ee : e = EVal (FVal (Other i))) by congruence. rewrite Ee in H. destruct H as [H|[]]. discriminate H.
  - destruct (mean_unit_rhs k x) as [e'|]; [|discriminate E]. assert (Ee : e = expr_map (map_concrete (dm_of_magnitude X)) e') by congruence.
    rewrite Ee in H. apply Mp in H; [exact H|]. intros y. eexists. reflexivity.
  - assert (Ee : e = expr_map (map_concrete (dm_of_magnitude X)) (EBin (EVal (FVal (Concrete (from_f64 (f64_of_decimal 1 z))))) (FVal (Other i)) OMul)) by congruence.
    rewrite Ee in H. apply Mp in H; [exact H|]. intros y. eexists. reflexivity.
Qed.

Context (env : fenv) (f1 f2 : slist stmt) (T1 T2 : template k) (o1 o2 : defs X).
Hypothesis M1 : mean_file k f1 = Some T1.
Hypothesis M2 : mean_file k f2 = Some T2.
Hypothesis R1 : run_unit_system X env T1 = Some (o1, []).
Hypothesis R2 : run_unit_system X env T2 = Some (o2, []).
Context (N : ident -> Prop).
Hypothesis Closed : forall n, N n -> exists d, In (n, d) (says f1) /\ In (new n, renamed new d) (says f2) /\ forall s, refers s d -> N s.

Definition tells b1 b2 : Prop :=
  forall D, N D -> In (D, BaseDimension) (says f1) -> (base_dimension_of D = b1 <-> base_dimension_of (new D) = b2).
Lemma rename_all : forall n, N n -> exists l1 l2 m, comes_out o1 n l1 m /\ comes_out o2 (new n) l2 m /\ wf l1 /\ wf l2 /\
  forall b1 b2, tells b1 b2 -> sget b1 l1 = sget b2 l2.
Proof.
  assert (Loc : forall n, N n -> exists d x1 x2, In (n, d) (says f1) /\ In x1 (decls (declared T1)) /\ In x2 (decls (declared T2)) /\
     decl_name x1 = n /\ decl_name x2 = new n /\ said_expr k n d = Some (it_expr (item_of X x1)) /\
     said_expr k (new n) (renamed new d) = Some (it_expr (item_of X x2)) /\
     (forall s, mentions x1 s -> N s) /\
     match x1, x2 with DDimension _, DDimension _ => True | DDimension _, _ | _, DDimension _ => False | _, _ => True end).
  { intros n Hn. destruct (Closed n Hn) as (d & H1 & H2 & Hr). pose proof (said_decl k f1 T1 n d M1 H1) as A1.
    destruct A1 as (x1 & I1 & N1 & E1 & Re1 & K1). destruct (said_decl k f2 T2 (new n) _ M2 H2) as (x2 & I2 & N2 & E2 & Re2 & K2).
    exists d, x1, x2. do 7 (split; [assumption|]). split; [intros s Hs; apply Hr; now apply Re1|].
    assert (Eo : of_dimension (renamed new d) = of_dimension d) by (now destruct d).
    rewrite Eo in K2. destruct x1, x2; try exact Logic.I; congruence. }
  unfold run_unit_system in *.
  destruct (accepted_all X (laws k) env _ o1 (generated_ok_expand X T1) R1) as (W1 & res1 & d1 & _ & H1 & -> & A1).
  destruct (accepted_all X (laws k) env _ o2 (generated_ok_expand X T2) R2) as (W2 & res2 & d2 & _ & H2 & -> & A2).
  pose proof (resolved_wf X env _ _ _ H1) as Wr1. pose proof (resolved_wf X env _ _ _ H2) as Wr2.
  rewrite declared_expand in *.
  assert (K : forall b1 b2, forall n, grounded (declared T1) n -> N n -> sim X (tells b1 b2) b1 b2 (lk_of X res1 n) (lk_of X res2 (new n))).
  { intros b1 b2 n Gr. induction Gr as [x Hx Hm IH]. intros Hn.
    destruct (Loc _ Hn) as (d & x1 & x2 & Hd & I1 & I2 & N1 & N2 & E1 & E2 & Re & _).
    destruct (A1 x1 I1) as (r1 & G1 & _ & V1 & _). destruct (A2 x2 I2) as (r2 & G2 & _ & V2 & _).
    rewrite N1 in G1. rewrite N2 in G2. unfold lk_of at 1 2. rewrite G1, G2.
    assert (Db : d = BaseDimension \/ d <> BaseDimension) by (destruct d; [now left|right; discriminate..]).
    destruct Db as [->|Nd].
    - cbn [renamed said_expr] in E1, E2.
      assert (Q1 : it_expr (item_of X x1) = EVal (FVal (Concrete (dm_of_dimensions X (bd_for_base X (base_dimension_of (decl_name x))))))) by congruence.
      assert (Q2 : it_expr (item_of X x2) = EVal (FVal (Concrete (dm_of_dimensions X (bd_for_base X (base_dimension_of (new (decl_name x)))))))) by congruence.
      rewrite Q1 in V1. rewrite Q2 in V2. cbn [eval_with feval_with look] in V1, V2.
      assert (V1' : ri_dims r1 = dm_of_dimensions X (bd_for_base X (base_dimension_of (decl_name x)))) by congruence.
      assert (V2' : ri_dims r2 = dm_of_dimensions X (bd_for_base X (base_dimension_of (new (decl_name x))))) by congruence.
      rewrite V1', V2'. unfold sim, dm_of_dimensions, bd_for_base. cbn [dm_dims dm_mag].
      split; [apply sinsert_wf; constructor|]. split; [apply sinsert_wf; constructor|]. split; [reflexivity|].
      intros Hb. specialize (Hb _ Hn Hd). cbn [sinsert sget].
      destruct (String.eqb_spec b1 (base_dimension_of (decl_name x))) as [E|E], (String.eqb_spec b2 (base_dimension_of (new (decl_name x)))) as [E'|E'];
        try reflexivity; exfalso; destruct Hb as [Hb1 Hb2]; [apply E'; symmetry; apply Hb1; now symmetry|apply E; symmetry; apply Hb2; now symmetry].
    - pose proof (said_renamed (decl_name x) d Nd) as Er. rewrite E1, E2 in Er. cbn [option_map] in Er.
      assert (Er' : it_expr (item_of X x2) = expr_map (ren new) (it_expr (item_of X x1))) by congruence. rewrite Er' in V2.
      apply (proj1 (eval_sim X env (tells b1 b2) b1 b2 new (lk_of X res1) (lk_of X res2)) (it_expr (item_of X x1))) with (2 := V1) (3 := V2).
      intros [c|m] Ht.
      + destruct (said_concrete _ d _ c Nd E1 Ht) as (m & ->). apply sim_none.
      + assert (Hm' : mentions x1 m) by (apply mentions_item; now apply others_vals).
        assert (Ex : x1 = x) by (apply (same_decl X (declared T1)); auto; apply (wf_names _ _ W1)). subst x1.
        apply IH; auto. }
  intros n Hn. destruct (Loc _ Hn) as (d & x1 & x2 & Hd & I1 & I2 & N1 & N2 & E & E' & Re & Kd).
  assert (Gn : grounded (declared T1) n) by (rewrite <- N1; exact (wf_grounded _ _ W1 x1 I1)).
  destruct (A1 x1 I1) as (r1 & E1 & J1 & _). destruct (A2 x2 I2) as (r2 & E2 & J2 & _).
  rewrite N1 in E1. rewrite N2 in E2.
  assert (Kr : forall b1 b2, sim X (tells b1 b2) b1 b2 (ri_dims r1) (ri_dims r2)).
  { intros b1 b2. specialize (K b1 b2 n Gn Hn). unfold lk_of in K. rewrite E1, E2 in K. exact K. }
  assert (P : forall res (Wr : wf res) r x S n, sget n res = Some r -> ri_item r = item_of X x -> decl_name x = n ->
     comes_out (out_of X S res) n (dm_dims (ri_dims r))
       (match x with DDimension _ => None | _ => Some (dm_mag (ri_dims r)) end)).
  { clear. intros res Wr r x S n Er Ji Nx. unfold comes_out. cbn [out_of df_dimensions df_units df_constants]. destruct x as [e|e|e].
    - left. eexists. split; [apply (get_dimensions_In X _ _ Wr); exists n, r, e; split; [exact Er|]; split; [now rewrite Ji|reflexivity]|].
      split; [exact Nx|]. split; reflexivity.
    - right. left. eexists. split; [apply (get_units_In X _ _ Wr); exists n, r, e; split; [exact Er|]; split; [now rewrite Ji|reflexivity]|].
      split; [exact Nx|]. split; reflexivity.
    - right. right. eexists. split; [apply (get_constants_In X _ _ Wr); exists n, r, e; split; [exact Er|]; split; [now rewrite Ji|reflexivity]|].
      split; [exact Nx|]. split; reflexivity. }
  eexists. eexists. eexists. split; [exact (P res1 Wr1 r1 x1 (expand_templates T1) n E1 J1 N1)|]. split.
  - pose proof (P res2 Wr2 r2 x2 (expand_templates T2) _ E2 J2 N2) as P2.
    destruct (Kr EmptyString EmptyString) as (_ & _ & Em & _). rewrite Em.
    destruct x1, x2; try destruct Kd; exact P2.
  - destruct (Kr EmptyString EmptyString) as (Wd1 & Wd2 & _). split; [exact Wd1|]. split; [exact Wd2|].
    intros b1 b2 Hb. exact (proj2 (proj2 (proj2 (Kr b1 b2))) Hb).
Qed.
End Files.
