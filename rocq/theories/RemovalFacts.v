(** * Parts of an accepted system *)
From Coq Require Import String List Bool ZArith Lia Permutation.
From Verif Require Import MachineInt Ratio F64 Magnitude Exponent ExponentFacts SMap Expression DimensionMath Types ExpansionSpec
  Resolve ResolveLoop ResolveChecks SystemSpec ResolveFacts ResolveAccept ResolveEquations Expansion Setting SystemFacts.
Import ListNotations.
Local Open Scope list_scope.

(** Everything a system refers to is in it: one type of each kind, the names in definitions, and the
    dimensions in annotations. *)
Definition self_contained {X} (S : unresolved X (unit_entry X)) : Prop :=
  u_quantity_types S <> [] /\ u_dimension_types S <> [] /\
  forall x n, In x (decls S) -> mentions x n \/ annotation x = Some n -> In n (map decl_name (decls S)).

Section Remove.
Context (X : exp_ops) (L : exp_laws X) (env : fenv).
Notation sys := (unresolved X (unit_entry X)).

(** [accepted_all] without the annotations. *)
Lemma well_formed_all (S : sys) o ds :
  generated_ok X S -> well_formed S -> resolve X env S = Some (o, ds) ->
  exists res d8, resolve_items X env (U4 X S) = Some (res, d8) /\ o = out_of X S res /\
    forall x, In x (decls S) -> exists r, sget (decl_name x) res = Some r /\ ri_item r = item_of X x /\
      eval_with X env (look X (lk_of X res)) (it_expr (item_of X x)) = Some (ri_dims r).
Proof.
  intros G WF R. apply resolve_some in R as (res & d8 & Hres & -> & Hds). exists res, d8.
  assert (Du : snd (filter_undefined X (items_of X S)) = []).
  { apply undefined_nil. intros i n Hi Hn. rewrite items_of_decls in Hi.
    apply in_map_iff in Hi as (x & <- & Hx). rewrite names_of_items.
    apply (wf_defined _ _ WF x); auto. now apply mentions_item. }
  destruct (U_defined X S G Du) as (_ & _ & E4).
  split; auto. split; auto.
  intros x Hx. pose proof (wf_grounded _ _ WF x Hx) as Hg.
  apply (resolved_names X env S res d8 _ G Hres) in Hg. apply sget_keys in Hg as [r Hr].
  exists r. split; auto.
  assert (Hi : In (item_of X x) (items_of X S)) by (rewrite items_of_decls; now apply in_map).
  rewrite E4 in Hres. rewrite <- ident_of_item in Hr.
  assert (N : NoDup (map it_ident (items_of X S))) by (rewrite names_of_items; apply (wf_names _ _ WF)).
  destruct (resolved_equation X env _ _ _ _ _ N Hres Hi Hr) as (E & Ev & Hm).
  repeat split; auto.
Qed.

Lemma same_decl (S : sys) x y : NoDup (map decl_name (decls S)) -> In x (decls S) -> In y (decls S) ->
  decl_name x = decl_name y -> x = y.
Proof.
  induction (decls S) as [|z l IH]; cbn [map In]; [easy|]. intros N Hx Hy E. inversion N as [|? ? Hz N']; subst.
  destruct Hx as [->|Hx], Hy as [->|Hy]; auto.
  - exfalso. apply Hz. rewrite E. now apply in_map.
  - exfalso. apply Hz. rewrite <- E. now apply in_map.
Qed.

Context (S1 S2 : sys) (o2 : defs X).
Hypothesis G1 : generated_ok X S1.
Hypothesis G2 : generated_ok X S2.
Hypothesis R2 : resolve X env S2 = Some (o2, []).
Hypothesis Sub : incl (decls S1) (decls S2).
Hypothesis N1 : NoDup (map decl_name (decls S1)).
Hypothesis Q1 : length (u_quantity_types S1) <= 1.
Hypothesis D1 : length (u_dimension_types S1) <= 1.

Lemma unit_sub u : In u (u_units S1) -> In u (u_units S2).
Proof.
  intros H. assert (K : In (DUnit u) (decls S1)) by (unfold decls; rewrite !in_app_iff, !in_map_iff; right; left; eauto).
  apply Sub in K. unfold decls in K. rewrite !in_app_iff, !in_map_iff in K.
  destruct K as [(z & E & _)|[(z & E & K)|(z & E & _)]]; [discriminate E|congruence|discriminate E].
Qed.

Lemma part_well_formed : self_contained S1 -> well_formed S1.
Proof.
  intros (Hq & Hd & Hc). destruct (accepted_all X L env S2 o2 G2 R2) as (W2 & _).
  assert (Hm : forall x n, In x (decls S1) -> mentions x n -> exists y, In y (decls S1) /\ decl_name y = n).
  { intros x n Hx M. specialize (Hc x n Hx (or_introl M)). apply in_map_iff in Hc as (y & E & Hy). eauto. }
  constructor.
  - destruct (u_quantity_types S1) as [|q [|q' l]]; [congruence|eauto|cbn in Q1; lia].
  - destruct (u_dimension_types S1) as [|q [|q' l]]; [congruence|eauto|cbn in D1; lia].
  - exact N1.
  - intros x n Hx M. apply Hc with (x := x); auto.
  - assert (K : forall n, grounded S2 n -> forall x, In x (decls S1) -> decl_name x = n -> grounded S1 n).
    { intros n Gr. induction Gr as [z Hz Hmz IH]. intros x Hx E.
      assert (x = z) by (apply (same_decl S2); auto; apply (wf_names _ _ W2)). subst z. constructor; [exact Hx|].
      intros m Hmm. destruct (Hm x m Hx Hmm) as (y & Hy & Ey). exact (IH m Hmm y Hy Ey). }
    intros x Hx. apply (K _ (wf_grounded _ _ W2 x (Sub x Hx)) x Hx eq_refl).
  - intros x y Hx Hy M. apply (wf_kinds _ _ W2); auto.
  - intros u dim Hu B. destruct (wf_base _ _ W2 u dim (unit_sub u Hu) B) as (d & Hd2 & Ed & Eb).
    assert (Hx : In (DUnit u) (decls S1)) by (unfold decls; rewrite !in_app_iff, !in_map_iff; right; left; eauto).
    destruct (Hm (DUnit u) dim Hx) as (y & Hy & Ey).
    { cbn [mentions]. unfold base_unit_of in B. now rewrite B. }
    assert (y = DDimension d).
    { apply (same_decl S2); auto; [apply (wf_names _ _ W2)| |cbn; congruence].
      unfold decls; rewrite !in_app_iff, !in_map_iff; left; eauto. }
    subst y. unfold decls in Hy. rewrite !in_app_iff, !in_map_iff in Hy.
    destruct Hy as [(z & E & Hz)|[(z & E & _)|(z & E & _)]]; [|discriminate E|discriminate E].
    assert (z = d) by congruence. subst z. eauto.
  - intros u1 u2 dim H1 H2. apply (wf_base_unique _ _ W2); auto using unit_sub.
  - intros u1 u2 s H1 H2. apply (wf_symbols _ _ W2); auto using unit_sub.
  - intros u dim Hu. apply (wf_base_symbol _ _ W2); auto using unit_sub.
Qed.

(** It does not panic. *)
Lemma part_runs : exists o1 ds1, resolve X env S1 = Some (o1, ds1).
Proof.
  rewrite resolve_unfold. destruct (resolve_items X env (U4 X S1)) as [[res d]|] eqn:E; [eauto|exfalso].
  destruct (accepted_all X L env S2 o2 G2 R2) as (W2 & res2 & d2 & H2 & _).
  assert (N : NoDup (map it_ident (items_of X S2))) by (rewrite names_of_items; apply (wf_names _ _ W2)).
  pose proof (resolve_items_spec X env (U4 X S1)) as O. rewrite E in O. cbn in O.
  assert (O2 : overflows X env (items_of X S2)).
  { revert O. apply overflows_incl. intros i Hi. apply U4_sub in Hi. rewrite items_of_decls in *.
    apply in_map_iff in Hi as (x & <- & Hx). now apply in_map, Sub. }
  apply (resolve_items_none X env _ N) in O2. congruence.
Qed.

Lemma part_accepted : self_contained S1 -> exists o1, resolve X env S1 = Some (o1, []).
Proof.
  intros C. pose proof (part_well_formed C) as W1. destruct part_runs as (o1 & ds1 & R1). exists o1.
  replace ds1 with (@nil diag) in R1; [exact R1|]. symmetry. apply (accept_iff X L env S1 o1 ds1 G1 R1).
  split; [exact W1|]. pose proof (proj1 (accept_iff X L env S2 o2 [] G2 R2) eq_refl) as [_ Ann].
  destruct (well_formed_all S1 o1 ds1 G1 W1 R1) as (res1 & d1 & H1 & -> & A1).
  destruct (accepted_all X L env S2 o2 G2 R2) as (W2 & res2 & d2 & _ & H2 & -> & A2).
  pose proof (resolved_wf X env _ _ _ H1) as Wr1. pose proof (resolved_wf X env _ _ _ H2) as Wr2.
  assert (K : forall n, grounded S1 n -> lk_of X res1 n = lk_of X res2 n).
  { intros n Gr. induction Gr as [x Hx Hm IH].
    destruct (A1 x Hx) as (r1 & E1 & I1 & V1). destruct (A2 x (Sub x Hx)) as (r2 & E2 & I2 & V2 & _).
    unfold lk_of. rewrite E1, E2.
    rewrite (eval_look_ext X env (lk_of X res1) (lk_of X res2)) in V1; [congruence|].
    intros m Hm'. apply IH. now apply mentions_item. }
  assert (E : forall x, In x (decls S1) -> exists r1 r2, sget (decl_name x) res1 = Some r1 /\ sget (decl_name x) res2 = Some r2 /\
              ri_item r1 = item_of X x /\ ri_item r2 = item_of X x /\ ri_dims r1 = ri_dims r2).
  { intros x Hx. destruct (A1 x Hx) as (r1 & E1 & I1 & _). destruct (A2 x (Sub x Hx)) as (r2 & E2 & I2 & _).
    exists r1, r2. pose proof (K _ (wf_grounded _ _ W1 x Hx)) as Kx. unfold lk_of in Kx. rewrite E1, E2 in Kx. auto. }
  intros x Hx a Ha. destruct (Ann x (Sub x Hx) a Ha) as (D & dx & HD & ND & Fx & Inc).
  destruct C as (_ & _ & Hc). specialize (Hc x a Hx (or_intror Ha)). apply in_map_iff in Hc as (y & Ey & Hy).
  destruct (E y Hy) as (ra & rb & Ea & Eb & Ia & Ib & Eab).
  apply (get_dimensions_In X _ _ Wr2) in HD as (n & r & d & Hn & Ht & ->). cbn [d_name d_dims] in *.
  destruct (entry_decl X env _ _ _ _ _ H2 Hn) as (z & Hz & Iz & Nz).
  rewrite Iz in Ht. pose proof Ht as Ht'. apply item_of_type_dim in Ht'. subst z. cbn [decl_name] in Nz.
  assert (Er : r = rb) by congruence. subst r.
  exists {| d_name := de_name d; d_dims := dm_dims (ri_dims ra) |}, dx. split; [|split; [exact ND|split]].
  - apply (get_dimensions_In X _ _ Wr1). exists a, ra, d. split; [congruence|]. split; [|reflexivity]. rewrite Ia, <- Ib, Iz. exact Ht.
  - destruct (E x Hx) as (rx & ry & Ex & Ex2 & Ix & Ix2 & Exy).
    apply (fields_of_entry X env S2 res2 d2 x _ ry (wf_names _ _ W2) H2 (Sub x Hx) eq_refl Ex2) in Fx. subst dx.
    apply (fields_of_entry X env S1 res1 d1 x _ rx N1 H1 Hx eq_refl Ex). congruence.
  - cbn [d_dims]. rewrite Eab. exact Inc.
Qed.

Lemma part_contained o1 : resolve X env S1 = Some (o1, []) -> self_contained S1.
Proof.
  intros R1. pose proof (proj1 (accept_iff X L env S1 o1 [] G1 R1) eq_refl) as [W Ann].
  destruct (wf_quantity _ _ W) as [q Eq]. destruct (wf_dimension _ _ W) as [d Ed].
  split; [rewrite Eq; discriminate|]. split; [rewrite Ed; discriminate|].
  intros x n Hx [M|Ha]; [exact (wf_defined _ _ W x n Hx M)|].
  destruct (Ann x Hx n Ha) as (D & dx & HD & <- & _).
  destruct (accepted_all X L env S1 o1 G1 R1) as (_ & res & d8 & _ & H & -> & _).
  pose proof (resolved_wf X env _ _ _ H) as Wr. apply (get_dimensions_In X _ _ Wr) in HD as (m & r & e & Hm & Ht & ->).
  destruct (entry_decl X env _ _ _ _ _ H Hm) as (z & Hz & Iz & Nz). rewrite Iz in Ht. apply item_of_type_dim in Ht. subst z.
  cbn [d_name]. apply in_map_iff. exists (DDimension e). auto.
Qed.
(** Nothing of the larger system is lost that the part declares. *)
Lemma part_all o1 : resolve X env S1 = Some (o1, []) ->
  (forall y, In y (df_dimensions o2) -> In (d_name y) (map decl_name (decls S1)) -> In y (df_dimensions o1)) /\
  (forall y, In y (df_units o2) -> In (un_name y) (map decl_name (decls S1)) -> In y (df_units o1)) /\
  (forall y, In y (df_constants o2) -> In (c_name y) (map decl_name (decls S1)) -> In y (df_constants o1)).
Proof.
  intros R1. destruct (accepted_all X L env S1 o1 G1 R1) as (W1 & res1 & d1 & _ & H1 & -> & A1).
  destruct (accepted_all X L env S2 o2 G2 R2) as (W2 & res2 & d2 & _ & H2 & -> & A2).
  pose proof (resolved_wf X env _ _ _ H1) as Wr1. pose proof (resolved_wf X env _ _ _ H2) as Wr2.
  assert (K : forall n, grounded S1 n -> lk_of X res1 n = lk_of X res2 n).
  { intros n Gr. induction Gr as [x Hx Hm IH].
    destruct (A1 x Hx) as (r1 & E1 & I1 & V1 & _). destruct (A2 x (Sub x Hx)) as (r2 & E2 & I2 & V2 & _).
    unfold lk_of. rewrite E1, E2.
    rewrite (eval_look_ext X env (lk_of X res1) (lk_of X res2)) in V1; [congruence|].
    intros m Hm'. apply IH. now apply mentions_item. }
  assert (E : forall n r2, sget n res2 = Some r2 -> In n (map decl_name (decls S1)) ->
              exists r1, sget n res1 = Some r1 /\ ri_item r1 = ri_item r2 /\ ri_dims r1 = ri_dims r2).
  { intros n r2 Hr Hn. apply in_map_iff in Hn as (x & <- & Hx).
    destruct (A1 x Hx) as (r1 & E1 & I1 & _). destruct (A2 x (Sub x Hx)) as (r2' & E2 & I2 & _).
    assert (r2' = r2) by congruence. subst r2'. exists r1. split; [exact E1|]. split; [congruence|].
    pose proof (K _ (wf_grounded _ _ W1 x Hx)) as Kx. unfold lk_of in Kx. now rewrite E1, E2 in Kx. }
  cbn [out_of df_dimensions df_units df_constants]. split; [|split]; intros y Hy Hn.
  - apply (get_dimensions_In X _ _ Wr2) in Hy as (n & r & d & Hr & Ht & ->). cbn [d_name] in Hn.
    destruct (entry_decl X env _ _ _ _ _ H2 Hr) as (z & Hz & Iz & Nz).
    pose proof Ht as Ht'. rewrite Iz in Ht'. apply item_of_type_dim in Ht'. subst z. cbn [decl_name] in Nz. subst n.
    destruct (E _ r Hr Hn) as (r1 & E1 & Ei & Ed).
    apply (get_dimensions_In X _ _ Wr1). exists (de_name d), r1, d. rewrite Ei, Ed. auto.
  - apply (get_units_In X _ _ Wr2) in Hy as (n & r & d & Hr & Ht & ->). cbn [un_name] in Hn.
    destruct (entry_decl X env _ _ _ _ _ H2 Hr) as (z & Hz & Iz & Nz).
    pose proof Ht as Ht'. rewrite Iz in Ht'. apply item_of_type_unit in Ht'. subst z. cbn [decl_name] in Nz. subst n.
    destruct (E _ r Hr Hn) as (r1 & E1 & Ei & Ed).
    apply (get_units_In X _ _ Wr1). exists (ue_name d), r1, d. rewrite Ei, Ed. auto.
  - apply (get_constants_In X _ _ Wr2) in Hy as (n & r & d & Hr & Ht & ->). cbn [c_name] in Hn.
    destruct (entry_decl X env _ _ _ _ _ H2 Hr) as (z & Hz & Iz & Nz).
    pose proof Ht as Ht'. rewrite Iz in Ht'. apply item_of_type_const in Ht'. subst z. cbn [decl_name] in Nz. subst n.
    destruct (E _ r Hr Hn) as (r1 & E1 & Ei & Ed).
    apply (get_constants_In X _ _ Wr1). exists (ce_name d), r1, d. rewrite Ei, Ed. auto.
Qed.
End Remove.
