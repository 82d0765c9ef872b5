(** * Facts for C93: a system under other names is accepted *)
From Coq Require Import String List Bool ZArith Lia.
From Verif Require Import MachineInt Ratio F64 Magnitude Exponent ExponentFacts SMap Snake Expression DimensionMath DimensionMathFacts Types PrefixSpec ExpansionSpec
  Resolve ResolveLoop ResolveChecks SystemSpec ResolveFacts ResolveEquations ResolveAccept Expansion Setting SystemFacts
  IndependenceFacts RemovalFacts RenameFacts.
Import ListNotations.
Local Open Scope list_scope.

Section Entries.
Context (X : exp_ops) (new sy : ident -> ident).
Definition ren_definition {B C} (b : B -> B) (d : definition X B C) : definition X B C :=
  match d with DefBase y => DefBase (b y) | DefExpr e => DefExpr (expr_map (ren new) e) end.
Definition ren_dimension (d : dimension_entry X) : dimension_entry X :=
  {| de_name := new (de_name d); de_rhs := ren_definition (fun x => x) (de_rhs d) |}.
Definition ren_unit (u : unit_entry X) : unit_entry X :=
  {| ue_name := new (ue_name u); ue_symbol := option_map sy (ue_symbol u); ue_annotation := option_map new (ue_annotation u);
     ue_definition := ren_definition new (ue_definition u); ue_autogenerated_from := option_map new (ue_autogenerated_from u) |}.
Definition ren_constant (c : constant_entry X) : constant_entry X :=
  {| ce_name := new (ce_name c); ce_rhs := expr_map (ren new) (ce_rhs c); ce_annotation := option_map new (ce_annotation c) |}.
Definition ren_decl (x : decl X) : decl X :=
  match x with DDimension d => DDimension (ren_dimension d) | DUnit u => DUnit (ren_unit u) | DConstant c => DConstant (ren_constant c) end.
Notation sys := (unresolved X (unit_entry X)).
Definition renames (S1 S2 : sys) : Prop :=
  length (u_quantity_types S2) = length (u_quantity_types S1) /\ length (u_dimension_types S2) = length (u_dimension_types S1) /\
  u_dimensions S2 = map ren_dimension (u_dimensions S1) /\ u_units S2 = map ren_unit (u_units S1) /\
  u_constants S2 = map ren_constant (u_constants S1).

Lemma decls_ren S1 S2 : renames S1 S2 -> decls S2 = map ren_decl (decls S1).
Proof.
  intros (_ & _ & Ed & Eu & Ec). unfold decls. rewrite Ed, Eu, Ec, !map_app, !map_map. reflexivity.
Qed.
Lemma name_ren x : decl_name (ren_decl x) = new (decl_name x).
Proof. now destruct x. Qed.
Lemma kind_ren x : decl_kind (ren_decl x) = decl_kind x.
Proof. destruct x as [d|u|c]; try reflexivity. cbn [ren_decl decl_kind ren_unit ue_definition]. now destruct (ue_definition u). Qed.
Lemma annotation_ren x : annotation (ren_decl x) = option_map new (annotation x).
Proof. now destruct x. Qed.

Lemma vals_ren {C} :
  (forall e : expr (fac C) X, expr_vals (expr_map (ren new) e) = map (ren new) (expr_vals e)) /\
  (forall e : factor (fac C) X, factor_vals (factor_map (ren new) e) = map (ren new) (factor_vals e)).
Proof. apply vals_map_mut. Qed.
Lemma occurs_ren {C} n (e : expr (fac C) X) : occurs n (expr_map (ren new) e) <-> exists m, n = new m /\ occurs m e.
Proof.
  rewrite <- (proj1 (occurs_vals_mut X n)), (proj1 vals_ren), in_map_iff. split.
  - intros ([c|m] & E & H); [discriminate E|]. exists m. split; [cbn [ren] in E; congruence|]. now apply (proj1 (occurs_vals_mut X m)).
  - intros (m & -> & H). exists (Other m). split; [reflexivity|]. now apply (proj1 (occurs_vals_mut X m)).
Qed.
Lemma mentions_ren x n : mentions (ren_decl x) n <-> exists m, n = new m /\ mentions x m.
Proof.
  destruct x as [d|u|c]; cbn [ren_decl mentions ren_dimension ren_unit ren_constant de_rhs ue_definition ce_rhs].
  - destruct (de_rhs d) as [b|e]; cbn [ren_definition]; [|apply occurs_ren]. split; [intros []|intros (m & _ & [])].
  - destruct (ue_definition u) as [b|e]; cbn [ren_definition]; [|apply occurs_ren]. split; [intros ->; eauto|intros (m & -> & ->); reflexivity].
  - apply occurs_ren.
Qed.
Definition is_base_decl (x : decl X) : Prop := match x with DDimension d => de_rhs d = DefBase tt | _ => False end.
Lemma expr_ren x : ~ is_base_decl x -> it_expr (item_of X (ren_decl x)) = expr_map (ren new) (it_expr (item_of X x)).
Proof.
  intros N. destruct x as [d|u|c]; cbn [ren_decl item_of item_of_dimension item_of_unit item_of_constant it_expr ren_dimension ren_unit ren_constant de_rhs ue_definition ce_rhs].
  - destruct (de_rhs d) as [b|e] eqn:E; cbn [ren_definition]; [|apply ren_concrete]. exfalso. apply N. cbn [is_base_decl]. rewrite E. now destruct b.
  - destruct (ue_definition u) as [b|e]; cbn [ren_definition]; [reflexivity|apply ren_concrete].
  - apply ren_concrete.
Qed.

Section WellFormed.
Context (S1 S2 : sys).
Hypothesis Ren : renames S1 S2.
Hypothesis Inj : forall x y, In x (decls S1) -> In y (decls S1) -> new (decl_name x) = new (decl_name y) -> decl_name x = decl_name y.
Hypothesis SymInj : forall u v s t, In u (u_units S1) -> In v (u_units S1) -> ue_symbol u = Some s -> ue_symbol v = Some t -> sy s = sy t -> s = t.

Lemma in_ren y : In y (decls S2) <-> exists x, y = ren_decl x /\ In x (decls S1).
Proof. rewrite (decls_ren _ _ Ren), in_map_iff. split; intros (x & E & H); exists x; auto. Qed.
Lemma grounded_ren n : grounded S1 n -> grounded S2 (new n).
Proof.
  intros G. induction G as [x Hx Hm IH]. rewrite <- name_ren. constructor; [apply in_ren; eauto|].
  intros m Hmm. apply mentions_ren in Hmm as (m' & -> & Hm'). auto.
Qed.
Lemma unit_in u : In u (u_units S1) <-> In (DUnit u) (decls S1).
Proof.
  unfold decls. rewrite !in_app_iff, !in_map_iff. split; [intros H; right; left; eauto|].
  intros [(z & E & _)|[(z & E & H)|(z & E & _)]]; [discriminate E|congruence|discriminate E].
Qed.
Lemma units_ren u : In u (u_units S2) <-> exists v, u = ren_unit v /\ In v (u_units S1).
Proof. destruct Ren as (_ & _ & _ & -> & _). rewrite in_map_iff. split; intros (v & E & H); exists v; auto. Qed.
Lemma base_ren v dim : base_unit_of (ren_unit v) dim -> exists d, dim = new d /\ base_unit_of v d.
Proof.
  unfold base_unit_of. cbn [ren_unit ue_definition]. destruct (ue_definition v) as [b|e]; cbn [ren_definition]; intros E; [|discriminate E].
  exists b. split; congruence.
Qed.
Lemma nodup_map_inj {A} (f : A -> ident) (l : list A) :
  NoDup (map f l) -> (forall x y, In x l -> In y l -> new (f x) = new (f y) -> f x = f y) -> NoDup (map (fun x => new (f x)) l).
Proof.
  induction l as [|x l IH]; cbn [map]; intros N I'; [constructor|]. inversion N as [|? ? Nx N']; subst. constructor.
  - intros H. apply in_map_iff in H as (y & E & Hy). apply Nx. rewrite (I' x y) by (cbn; auto). now apply in_map.
  - apply IH; [exact N'|]. intros y z Hy Hz. apply I'; cbn; auto.
Qed.
Lemma renamed_well_formed : well_formed S1 -> well_formed S2.
Proof.
  intros W. pose proof Ren as (Eq & Ed & Edims & Eunits & Econsts). constructor.
  - destruct (wf_quantity _ _ W) as [q E]. rewrite E in Eq. destruct (u_quantity_types S2) as [|q' [|q'' l]]; try discriminate Eq. eauto.
  - destruct (wf_dimension _ _ W) as [q E]. rewrite E in Ed. destruct (u_dimension_types S2) as [|q' [|q'' l]]; try discriminate Ed. eauto.
  - rewrite (decls_ren _ _ Ren), map_map, (map_ext _ _ name_ren). apply nodup_map_inj; [apply (wf_names _ _ W)|exact Inj].
  - intros y n Hy Hm. apply in_ren in Hy as (x & -> & Hx). apply mentions_ren in Hm as (m & -> & Hm).
    pose proof (wf_defined _ _ W x m Hx Hm) as D. apply in_map_iff in D as (z & <- & Hz). rewrite <- name_ren. apply in_map. apply in_ren. eauto.
  - intros y Hy. apply in_ren in Hy as (x & -> & Hx). rewrite name_ren. apply grounded_ren. exact (wf_grounded _ _ W x Hx).
  - intros y z Hy Hz Hm. apply in_ren in Hy as (x & -> & Hx). apply in_ren in Hz as (w & -> & Hw). rewrite name_ren in Hm.
    apply mentions_ren in Hm as (m & E & Hm). pose proof (wf_defined _ _ W x m Hx Hm) as D. apply in_map_iff in D as (z & <- & Hz).
    apply Inj in E; [|assumption..]. rewrite !kind_ren. apply (wf_kinds _ _ W); auto. now rewrite E.
  - intros u dim Hu B. apply units_ren in Hu as (v & -> & Hv). apply base_ren in B as (d & -> & B).
    destruct (wf_base _ _ W v d Hv B) as (e & He & <- & Er). exists (ren_dimension e). split; [rewrite Edims; now apply in_map|].
    split; [reflexivity|]. cbn [ren_dimension de_rhs]. now rewrite Er.
  - intros u1 u2 dim H1 H2 B1 B2. apply units_ren in H1 as (v1 & -> & H1). apply units_ren in H2 as (v2 & -> & H2).
    apply base_ren in B1 as (d1 & E1 & B1). apply base_ren in B2 as (d2 & E2 & B2). f_equal.
    destruct (wf_base _ _ W v1 d1 H1 B1) as (e1 & I1 & N1 & _). destruct (wf_base _ _ W v2 d2 H2 B2) as (e2 & I2 & N2 & _).
    assert (D : forall e, In e (u_dimensions S1) -> In (DDimension e) (decls S1)).
    { intros e He. unfold decls. rewrite !in_app_iff, !in_map_iff. left. eauto. }
    assert (E : d1 = d2).
    { rewrite <- N1, <- N2. apply (Inj (DDimension e1) (DDimension e2)); auto. cbn [decl_name]. congruence. }
    apply (wf_base_unique _ _ W v1 v2 d1); auto. congruence.
  - intros u1 u2 s H1 H2 Y1 Y2. apply units_ren in H1 as (v1 & -> & H1). apply units_ren in H2 as (v2 & -> & H2). f_equal.
    cbn [ren_unit ue_symbol] in Y1, Y2. destruct (ue_symbol v1) as [s1|] eqn:Q1; [|discriminate Y1].
    destruct (ue_symbol v2) as [s2|] eqn:Q2; [|discriminate Y2]. cbn [option_map] in Y1, Y2.
    assert (s1 = s2) by (apply (SymInj v1 v2 s1 s2); auto; congruence). subst s2. exact (wf_symbols _ _ W v1 v2 s1 H1 H2 Q1 Q2).
  - intros u dim Hu B. apply units_ren in Hu as (v & -> & Hv). apply base_ren in B as (d & -> & B).
    pose proof (wf_base_symbol _ _ W v d Hv B) as K. cbn [ren_unit ue_symbol]. now destruct (ue_symbol v).
Qed.
End WellFormed.
End Entries.

(** ** Dimensions under other field names *)
Section Mimic.
Context (X : exp_ops) (env : fenv) (F : string -> Prop) (fld : string -> string).
Hypothesis Finj : forall b b', F b -> F b' -> fld b = fld b' -> b = b'.
Notation bd := (bdims X).

Record mimic (a1 a2 : bd) : Prop := {
  mi_wf1 : wf a1; mi_wf2 : wf a2;
  mi_in : forall b, sget b a1 <> None -> F b;
  mi_out : forall b', sget b' a2 <> None -> exists b, F b /\ b' = fld b;
  mi_get : forall b, F b -> sget (fld b) a2 = sget b a1 }.

Lemma mul_entries_defined (l : list (string * X)) : forall f, NoDup (map fst l) ->
  bd_mul_entries X f l <> None <-> forall b e v, In (b, e) l -> sget b f = Some v -> e_add X v e <> None.
Proof.
  induction l as [|[c e] l IH]; intros f Nd.
  - cbn [bd_mul_entries]. split; [intros _ b e v []|discriminate].
  - inversion Nd as [|? ? Nc Nd']; subst. cbn [bd_mul_entries].
    assert (Tail : forall g, (forall b, b <> c -> sget b g = sget b f) ->
       (bd_mul_entries X g l <> None <-> forall b e v, In (b, e) l -> sget b f = Some v -> e_add X v e <> None)).
    { intros g Hg. rewrite (IH g Nd'). assert (Hc : forall b e', In (b, e') l -> b <> c).
      { intros b e' H ->. apply Nc. change c with (fst (c, e')). now apply in_map. }
      split; intros H b e' v Hb; [rewrite <- (Hg b (Hc b e' Hb))|rewrite (Hg b (Hc b e' Hb))]; now apply H. }
    unfold bd_mul_step. cbn [fst snd]. destruct (sget c f) as [v|] eqn:Ec.
    + destruct (e_add X v e) as [w|] eqn:Ea.
      * rewrite (Tail (sinsert c w f)) by (intros b Nb; now apply sget_insert_neq). split.
        -- intros H b e' v' [E|Hb] G; [|now apply (H b e' v')]. assert (b = c /\ e' = e) as [-> ->] by (split; congruence).
           assert (v' = v) by congruence. subst v'. congruence.
        -- intros H b e' v' Hb. apply H. now right.
      * split; [congruence|]. intros H. exfalso. exact (H c e v (or_introl eq_refl) Ec Ea).
    + rewrite (Tail (sinsert c e f)) by (intros b Nb; now apply sget_insert_neq). split.
      * intros H b e' v' [E|Hb] G; [|now apply (H b e' v')]. assert (b = c) by congruence. subst b. congruence.
      * intros H b e' v' Hb. apply H. now right.
Qed.
Lemma mul_keys b (a c d : bd) : wf c -> bd_mul X a c = Some d -> sget b d <> None -> sget b a <> None \/ sget b c <> None.
Proof.
  intros Wc E H. pose proof (mul_entries_get X b _ _ _ (wf_NoDup _ Wc) E) as K.
  destruct (sget b c) as [e|]; [right; discriminate|]. left. congruence.
Qed.
Lemma mimic_mul a1 a2 c1 c2 d1 : mimic a1 a2 -> mimic c1 c2 -> bd_mul X a1 c1 = Some d1 ->
  exists d2, bd_mul X a2 c2 = Some d2 /\ mimic d1 d2.
Proof.
  intros A C E1. assert (D : bd_mul X a2 c2 <> None).
  { apply mul_entries_defined; [exact (wf_NoDup _ (mi_wf2 _ _ C))|]. intros b' e v Hb Gv.
    assert (E1' : bd_mul_entries X a1 c1 <> None) by (unfold bd_mul in E1; congruence).
    pose proof (proj1 (mul_entries_defined c1 a1 (wf_NoDup _ (mi_wf1 _ _ C))) E1') as K.
    pose proof (In_sget _ _ _ (mi_wf2 _ _ C) Hb) as Gb.
    destruct (mi_out _ _ C b') as (b & Fb & ->); [congruence|].
    rewrite (mi_get _ _ C b Fb) in Gb. rewrite (mi_get _ _ A b Fb) in Gv. apply (K b e v); [now apply sget_In|exact Gv]. }
  destruct (bd_mul X a2 c2) as [d2|] eqn:E2; [|congruence]. exists d2. split; [reflexivity|].
  assert (W1 : wf d1) by exact (mul_entries_wf X _ _ _ (mi_wf1 _ _ A) E1).
  assert (W2 : wf d2) by exact (mul_entries_wf X _ _ _ (mi_wf2 _ _ A) E2).
  constructor; [exact W1|exact W2| | |].
  - intros b H. destruct (mul_keys b _ _ _ (mi_wf1 _ _ C) E1 H) as [H'|H']; [exact (mi_in _ _ A b H')|exact (mi_in _ _ C b H')].
  - intros b' H. destruct (mul_keys b' _ _ _ (mi_wf2 _ _ C) E2 H) as [H'|H']; [exact (mi_out _ _ A b' H')|exact (mi_out _ _ C b' H')].
  - intros b Fb. pose proof (mul_entries_get X b _ _ _ (wf_NoDup _ (mi_wf1 _ _ C)) E1) as K1.
    pose proof (mul_entries_get X (fld b) _ _ _ (wf_NoDup _ (mi_wf2 _ _ C)) E2) as K2.
    rewrite (mi_get _ _ A b Fb), (mi_get _ _ C b Fb) in K2. destruct (sget b c1) as [e|]; [destruct (sget b a1)|]; congruence.
Qed.
Lemma smap_opt_defined {V W} (g : V -> option W) (m : list (string * V)) :
  smap_opt g m <> None <-> forall b e, In (b, e) m -> g e <> None.
Proof.
  induction m as [|[c v] m IH]; cbn [smap_opt]; [split; [intros _ b e []|discriminate]|].
  destruct (g v) as [w|] eqn:Eg.
  - destruct (smap_opt g m) as [r|].
    + split; [|discriminate]. intros _ b e [E|H]; [congruence|]. apply (proj1 IH ltac:(discriminate) b e H).
    + split; [congruence|]. intros H. apply IH. intros b e Hb. apply (H b e). now right.
  - split; [congruence|]. intros H. exfalso. exact (H c v (or_introl eq_refl) Eg).
Qed.
Lemma mimic_opt (g : X -> option X) a1 a2 d1 : mimic a1 a2 -> smap_opt g a1 = Some d1 ->
  exists d2, smap_opt g a2 = Some d2 /\ mimic d1 d2.
Proof.
  intros A E1. assert (D : smap_opt g a2 <> None).
  { apply smap_opt_defined. intros b' e Hb. assert (E1' : smap_opt g a1 <> None) by congruence.
    pose proof (In_sget _ _ _ (mi_wf2 _ _ A) Hb) as Gb. destruct (mi_out _ _ A b') as (b & Fb & ->); [congruence|].
    rewrite (mi_get _ _ A b Fb) in Gb. exact (proj1 (smap_opt_defined g a1) E1' b e (sget_In _ _ _ Gb)). }
  destruct (smap_opt g a2) as [d2|] eqn:E2; [|congruence]. exists d2. split; [reflexivity|].
  pose proof (fun b => smap_opt_get _ _ _ b E1) as K1. pose proof (fun b => smap_opt_get _ _ _ b E2) as K2.
  constructor.
  - exact (smap_opt_wf _ _ _ E1 (mi_wf1 _ _ A)).
  - exact (smap_opt_wf _ _ _ E2 (mi_wf2 _ _ A)).
  - intros b H. apply (mi_in _ _ A). specialize (K1 b). destruct (sget b a1); congruence.
  - intros b' H. apply (mi_out _ _ A). specialize (K2 b'). destruct (sget b' a2); congruence.
  - intros b Fb. specialize (K1 b). specialize (K2 (fld b)). rewrite (mi_get _ _ A b Fb) in K2. destruct (sget b a1); congruence.
Qed.
Lemma mimic_nil : mimic [] [].
Proof. constructor; try constructor; intros; cbn in *; congruence. Qed.
Lemma mimic_base b : F b -> mimic (bd_for_base X b) (bd_for_base X (fld b)).
Proof.
  intros Fb. unfold bd_for_base. constructor; try (apply sinsert_wf; constructor).
  - intros b' H. cbn [sinsert sget] in H. destruct (String.eqb_spec b' b) as [E|]; [now rewrite E|congruence].
  - intros b' H. cbn [sinsert sget] in H. destruct (String.eqb_spec b' (fld b)) as [E|]; [eauto|congruence].
  - intros b' Fb'. cbn [sinsert sget]. destruct (String.eqb_spec b' b) as [E|N]; [rewrite E; now rewrite String.eqb_refl|].
    destruct (String.eqb_spec (fld b') (fld b)) as [E|]; [|reflexivity]. apply Finj in E; congruence.
Qed.

Definition mim (m1 m2 : dimmag X) : Prop := mimic (dm_dims m1) (dm_dims m2).
Lemma eval_mimic new lk1 lk2 :
  (forall e : expr (fac (dimmag X)) X, (forall t, In t (expr_vals e) -> match t with Concrete c => mim c c | Other n => mim (lk1 n) (lk2 (new n)) end) ->
     forall v1, eval_with X env (look X lk1) e = Some v1 -> exists v2, eval_with X env (look X lk2) (expr_map (ren new) e) = Some v2 /\ mim v1 v2) /\
  (forall e : factor (fac (dimmag X)) X, (forall t, In t (factor_vals e) -> match t with Concrete c => mim c c | Other n => mim (lk1 n) (lk2 (new n)) end) ->
     forall v1, feval_with X env (look X lk1) e = Some v1 -> exists v2, feval_with X env (look X lk2) (factor_map (ren new) e) = Some v2 /\ mim v1 v2).
Proof.
  apply expr_factor_ind.
  - intros v IH P v1 E1. exact (IH P v1 E1).
  - intros l IHl r IHr op P v1 E1. cbn [expr_map]. rewrite eval_bin in E1. rewrite eval_bin.
    destruct (eval_with X env (look X lk1) l) as [x1|] eqn:X1; [|discriminate E1].
    destruct (feval_with X env (look X lk1) r) as [y1|] eqn:Y1; [|discriminate E1].
    destruct (IHl (fun t H => P t (bin_left _ _ _ _ _ H)) x1 eq_refl) as (x2 & X2 & Sx).
    destruct (IHr (fun t H => P t (bin_right _ _ _ _ _ H)) y1 eq_refl) as (y2 & Y2 & Sy). rewrite X2, Y2.
    destruct op.
    + unfold dm_mul in *. destruct (bd_mul X (dm_dims x1) (dm_dims y1)) as [d1|] eqn:D1; [|discriminate E1].
      destruct (mimic_mul _ _ _ _ _ Sx Sy D1) as (d2 & D2 & M). rewrite D2. eexists. split; [reflexivity|].
      assert (Ev1 : v1 = mkDM d1 (mag_mul env (dm_mag x1) (dm_mag y1))) by congruence. rewrite Ev1. exact M.
    + unfold dm_div in *. destruct (bd_div X (dm_dims x1) (dm_dims y1)) as [d1|] eqn:D1; [|discriminate E1].
      unfold bd_div in *. destruct (bd_inv X (dm_dims y1)) as [i1|] eqn:I1; [|discriminate D1].
      destruct (mimic_opt _ _ _ _ Sy I1) as (i2 & I2 & Mi). unfold bd_inv. rewrite I2.
      destruct (mimic_mul _ _ _ _ _ Sx Mi D1) as (d2 & D2 & M). rewrite D2. eexists. split; [reflexivity|].
      assert (Ev1 : v1 = mkDM d1 (mag_div env (dm_mag x1) (dm_mag y1))) by congruence. rewrite Ev1. exact M.
  - intros t P v1 E1. specialize (P t (or_introl eq_refl)). destruct t as [c|n]; cbn [feval_with factor_map ren look] in *;
      (eexists; split; [reflexivity|]); congruence.
  - intros t e P v1 E1. specialize (P t (or_introl eq_refl)).
    assert (K : forall x1 x2, mim x1 x2 -> dm_pow X env x1 e = Some v1 -> exists v2, dm_pow X env x2 e = Some v2 /\ mim v1 v2).
    { intros x1 x2 S F1. unfold dm_pow in *. destruct (bd_pow X (dm_dims x1) e) as [d1|] eqn:D1; [|discriminate F1].
      destruct (mimic_opt _ _ _ _ S D1) as (d2 & D2 & M). unfold bd_pow. rewrite D2. eexists. split; [reflexivity|].
      assert (Ev1 : v1 = mkDM d1 (e_float_pow X env (dm_mag x1) e)) by congruence. rewrite Ev1. exact M. }
    destruct t as [c|n]; cbn [feval_with factor_map ren look] in *; eapply K; eassumption.
  - intros x IH P v1 E1. exact (IH P v1 E1).
Qed.
End Mimic.

Section Accept.
Context (X : exp_ops) (L : exp_laws X) (env : fenv) (new sy : ident -> ident) (S1 S2 : unresolved X (unit_entry X)) (o1 : defs X).
Hypothesis G1 : generated_ok X S1.
Hypothesis G2 : generated_ok X S2.
Hypothesis R1 : resolve X env S1 = Some (o1, []).
Hypothesis Ren : renames X new sy S1 S2.
Hypothesis Inj : forall x y, In x (decls S1) -> In y (decls S1) -> new (decl_name x) = new (decl_name y) -> decl_name x = decl_name y.
Hypothesis SymInj : forall u v s t, In u (u_units S1) -> In v (u_units S1) -> ue_symbol u = Some s -> ue_symbol v = Some t -> sy s = sy t -> s = t.
Definition field_is (b : string) (d : dimension_entry X) : Prop :=
  In d (u_dimensions S1) /\ de_rhs d = DefBase tt /\ b = base_dimension_of (de_name d).
Hypothesis Fields : forall d d', In d (u_dimensions S1) -> In d' (u_dimensions S1) -> de_rhs d = DefBase tt -> de_rhs d' = DefBase tt ->
  (base_dimension_of (de_name d) = base_dimension_of (de_name d') <-> base_dimension_of (new (de_name d)) = base_dimension_of (new (de_name d'))).

Definition known (b : string) : Prop := exists d, field_is b d.
Definition field (b : string) : string :=
  match find (fun d => is_base_dimension d && String.eqb (base_dimension_of (de_name d)) b) (u_dimensions S1) with
  | Some d => base_dimension_of (new (de_name d))
  | None => b
  end.
Lemma field_spec d : In d (u_dimensions S1) -> de_rhs d = DefBase tt -> field (base_dimension_of (de_name d)) = base_dimension_of (new (de_name d)).
Proof.
  intros Hd Bd. unfold field. destruct (find _ _) as [e|] eqn:E.
  - apply find_some in E as [He K]. apply andb_prop in K as [Kb Ke]. apply String.eqb_eq in Ke. apply (Fields e d); auto.
    unfold is_base_dimension in Kb. destruct (de_rhs e) as [[]|]; [reflexivity|discriminate Kb].
  - exfalso. pose proof (find_none _ _ E d Hd) as K. cbn beta in K. unfold is_base_dimension in K. rewrite Bd, String.eqb_refl in K. discriminate K.
Qed.
Lemma field_inj b b' : known b -> known b' -> field b = field b' -> b = b'.
Proof.
  intros (d & Hd & Bd & ->) (d' & Hd' & Bd' & ->). rewrite !field_spec by assumption. apply Fields; assumption.
Qed.
Notation M := (mim X known field).

Lemma dims_decl d : In (DDimension d) (decls S1) -> In d (u_dimensions S1).
Proof.
  unfold decls. rewrite !in_app_iff, !in_map_iff. intros [(z & E & H)|[(z & E & _)|(z & E & _)]]; [congruence|discriminate E|discriminate E].
Qed.
(** One definition: if what it mentions corresponds, so does it. *)
Lemma step lk1 lk2 x v1 : In x (decls S1) -> (forall m, mentions x m -> M (lk1 m) (lk2 (new m))) ->
  eval_with X env (look X lk1) (it_expr (item_of X x)) = Some v1 ->
  exists v2, eval_with X env (look X lk2) (it_expr (item_of X (ren_decl X new sy x))) = Some v2 /\ M v1 v2.
Proof.
  intros Hx Hm E1. assert (D : is_base_decl X x \/ ~ is_base_decl X x).
  { destruct x as [d|u|c]; [|right; intros []..]. cbn [is_base_decl]. destruct (de_rhs d) as [[]|e]; [now left|right; discriminate]. }
  destruct D as [B|B].
  - destruct x as [d|u|c]; [|destruct B..]. cbn [is_base_decl] in B. apply dims_decl in Hx.
    cbn [ren_decl item_of item_of_dimension it_expr ren_dimension de_rhs de_name] in *. rewrite B in *. cbn [ren_definition eval_with feval_with look] in *.
    eexists. split; [reflexivity|].
    assert (Ev : v1 = dm_of_dimensions X (bd_for_base X (base_dimension_of (de_name d)))) by congruence. rewrite Ev.
    unfold mim, dm_of_dimensions. cbn [dm_dims]. rewrite <- (field_spec d Hx B). apply mimic_base; [exact field_inj|].
    exists d. split; [exact Hx|]. split; [exact B|reflexivity].
  - rewrite (expr_ren X new sy x B). refine (proj1 (eval_mimic X env known field new lk1 lk2) _ _ v1 E1).
    intros [c|m] Ht.
    + assert (C : dm_dims c = []).
      { destruct x as [d|u|c'].
        - cbn [item_of item_of_dimension it_expr] in Ht. cbn [is_base_decl] in B. destruct (de_rhs d) as [[]|e]; [congruence|].
          rewrite (proj1 (vals_map_mut X _)) in Ht. apply in_map_iff in Ht as ([y|y] & Ey & _); cbn [map_concrete] in Ey; [|discriminate Ey].
          assert (Ec : c = dm_of_dimensions X (bd_none X)) by congruence. now rewrite Ec.
        - cbn [item_of item_of_unit it_expr] in Ht. destruct (ue_definition u) as [b|e]; [destruct Ht as [Ht|[]]; discriminate Ht|].
          rewrite (proj1 (vals_map_mut X _)) in Ht. apply in_map_iff in Ht as ([y|y] & Ey & _); cbn [map_concrete] in Ey; [|discriminate Ey].
          assert (Ec : c = dm_of_magnitude X y) by congruence. now rewrite Ec.
        - cbn [item_of item_of_constant it_expr] in Ht.
          rewrite (proj1 (vals_map_mut X _)) in Ht. apply in_map_iff in Ht as ([y|y] & Ey & _); cbn [map_concrete] in Ey; [|discriminate Ey].
          assert (Ec : c = dm_of_magnitude X y) by congruence. now rewrite Ec. }
      unfold mim. rewrite C. apply mimic_nil.
    + apply Hm. apply mentions_item. now apply others_vals.
Qed.

Lemma renamed_accepted : exists o2, resolve X env S2 = Some (o2, []).
Proof.
  destruct (accepted_all X L env S1 o1 G1 R1) as (W1 & res1 & d1 & _ & H1 & Eo & A1).
  pose proof (renamed_well_formed X new sy S1 S2 Ren Inj SymInj W1) as W2.
  pose proof (resolved_wf X env _ _ _ H1) as Wr1.
  assert (Same : forall x y, In x (decls S1) -> In y (decls S1) -> new (decl_name x) = new (decl_name y) -> x = y).
  { intros x y Hx Hy E. apply (same_decl X S1); auto. apply (wf_names _ _ W1). }
  assert (V : forall x, In x (decls S1) -> exists r, sget (decl_name x) res1 = Some r /\ ri_item r = item_of X x /\
      lk_of X res1 (decl_name x) = ri_dims r /\ eval_with X env (look X (lk_of X res1)) (it_expr (item_of X x)) = Some (ri_dims r)).
  { intros x Hx. destruct (A1 x Hx) as (r & Er & Ir & Vr & _). exists r. split; [exact Er|]. split; [exact Ir|]. split; [|exact Vr].
    unfold lk_of. now rewrite Er. }
  assert (K : forall m d, iden X env (items_of X S2) m d -> forall x, In x (decls S1) -> m = new (decl_name x) -> M (lk_of X res1 (decl_name x)) d).
  { intros m d I. induction I as [i lk d Hi Hlk IH Ev]. intros x Hx E.
    rewrite items_of_decls in Hi. apply in_map_iff in Hi as (y & <- & Hy). apply (in_ren X new sy S1 S2 Ren) in Hy as (z & -> & Hz).
    rewrite ident_of_item, name_ren in E. assert (z = x) by (apply Same; auto). subst z.
    destruct (V x Hx) as (r & _ & _ & Lr & Vr). rewrite Lr.
    assert (St : forall m, mentions x m -> M (lk_of X res1 m) (lk (new m))); [|destruct (step (lk_of X res1) lk x _ Hx St Vr) as (v2 & E2 & Mv); congruence].
    intros m Hm. assert (Hm' : In (new m) (others (it_expr (item_of X (ren_decl X new sy x))))) by (apply mentions_item; apply mentions_ren; eauto).
    pose proof (wf_defined _ _ W1 x m Hx Hm) as D. apply in_map_iff in D as (w & <- & Hw). exact (IH _ Hm' w Hw eq_refl). }
  assert (N2 : NoDup (map it_ident (items_of X S2))) by (rewrite names_of_items; apply (wf_names _ _ W2)).
  assert (Runs : exists o2 ds2, resolve X env S2 = Some (o2, ds2)).
  { rewrite resolve_unfold. destruct (resolve_items X env (U4 X S2)) as [[res d]|] eqn:E; [eauto|exfalso].
    pose proof (resolve_items_spec X env (U4 X S2)) as O. rewrite E in O. cbn in O. destruct O as (i & lk & Hi & Hlk & He).
    apply U4_sub in Hi. rewrite items_of_decls in Hi. apply in_map_iff in Hi as (y & <- & Hy). apply (in_ren X new sy S1 S2 Ren) in Hy as (x & -> & Hx).
    destruct (V x Hx) as (r & _ & _ & Lr & Vr).
    assert (St : forall m, mentions x m -> M (lk_of X res1 m) (lk (new m))); [|destruct (step (lk_of X res1) lk x _ Hx St Vr) as (v2 & E2 & Mv); congruence].
    intros m Hm. assert (Hm' : In (new m) (others (it_expr (item_of X (ren_decl X new sy x))))) by (apply mentions_item; apply mentions_ren; eauto).
    pose proof (wf_defined _ _ W1 x m Hx Hm) as D. apply in_map_iff in D as (w & <- & Hw).
    refine (K _ _ _ w Hw eq_refl). apply (iden_incl X env (U4 X S2)); [|exact (Hlk _ Hm')]. intros j Hj. now apply U4_sub. }
  destruct Runs as (o2 & ds2 & R2). exists o2. replace ds2 with (@nil diag) in R2; [exact R2|].
  symmetry. apply (accept_iff X L env S2 o2 ds2 G2 R2). split; [exact W2|].
  destruct (well_formed_all X env S2 o2 ds2 G2 W2 R2) as (res2 & d2 & H2 & Eo2 & A2).
  pose proof (resolved_wf X env _ _ _ H2) as Wr2.
  assert (K2 : forall x, In x (decls S1) -> exists r1 r2, sget (decl_name x) res1 = Some r1 /\ sget (new (decl_name x)) res2 = Some r2 /\
      ri_item r1 = item_of X x /\ ri_item r2 = item_of X (ren_decl X new sy x) /\ M (ri_dims r1) (ri_dims r2)).
  { assert (Q : forall n, grounded S1 n -> M (lk_of X res1 n) (lk_of X res2 (new n))).
    { intros n Gr. induction Gr as [x Hx Hm IH]. destruct (V x Hx) as (r & _ & _ & Lr & Vr). rewrite Lr.
      destruct (step (lk_of X res1) (lk_of X res2) x _ Hx IH Vr) as (v2 & E2 & Mv).
      destruct (A2 (ren_decl X new sy x)) as (r2 & Er2 & _ & V2); [apply (in_ren X new sy S1 S2 Ren); eauto|].
      rewrite name_ren in Er2. unfold lk_of at 1. rewrite Er2. congruence. }
    intros x Hx. destruct (V x Hx) as (r & Er & Ir & Lr & _).
    destruct (A2 (ren_decl X new sy x)) as (r2 & Er2 & Ir2 & _); [apply (in_ren X new sy S1 S2 Ren); eauto|]. rewrite name_ren in Er2.
    exists r, r2. do 4 (split; [assumption|]). pose proof (Q _ (wf_grounded _ _ W1 x Hx)) as Qx. rewrite Lr in Qx. unfold lk_of in Qx. now rewrite Er2 in Qx. }
  pose proof (proj1 (accept_iff X L env S1 o1 [] G1 R1) eq_refl) as [_ Ann].
  intros y Hy a Ha. apply (in_ren X new sy S1 S2 Ren) in Hy as (x & -> & Hx). rewrite annotation_ren in Ha.
  destruct (annotation x) as [a0|] eqn:Ea; [|discriminate Ha]. assert (a = new a0) by (cbn [option_map] in Ha; congruence). subst a.
  destruct (Ann x Hx a0 Ea) as (D & dx & HD & ND & Fx & Inc). rewrite Eo in HD, Fx.
  apply (get_dimensions_In X _ _ Wr1) in HD as (n & r & d & Hn & Ht & ->). cbn [d_name d_dims] in *.
  destruct (entry_decl X env _ _ _ _ _ H1 Hn) as (z & Hz & Iz & Nz).
  rewrite Iz in Ht. pose proof Ht as Ht'. apply item_of_type_dim in Ht'. subst z. cbn [decl_name] in Nz.
  destruct (K2 _ Hz) as (ra & rb & Era & Erb & Ira & Irb & Mab). cbn [decl_name] in Era, Erb.
  destruct (K2 x Hx) as (rx & ry & Erx & Ery & Irx & Iry & Mxy).
  exists {| d_name := new (de_name d); d_dims := dm_dims (ri_dims rb) |}, (dm_dims (ri_dims ry)). split; [|split; [cbn [d_name]; congruence|split]].
  - rewrite Eo2. apply (get_dimensions_In X _ _ Wr2). exists (new (de_name d)), rb, (ren_dimension X new d). split; [exact Erb|].
    split; [rewrite Irb; reflexivity|reflexivity].
  - rewrite Eo2. apply (fields_of_entry X env S2 res2 d2 (ren_decl X new sy x) (new (decl_name x)) ry (wf_names _ _ W2) H2); [apply (in_ren X new sy S1 S2 Ren); eauto|apply name_ren|exact Ery|reflexivity].
  - cbn [d_dims]. intros b' e Hb. apply (fields_of_entry X env S1 res1 d1 x _ rx (wf_names _ _ W1) H1 Hx eq_refl Erx) in Fx. subst dx.
    assert (r = ra) by congruence. subst ra.
    pose proof (In_sget _ _ _ (mi_wf2 _ _ _ _ _ Mab) Hb) as Gb. destruct (mi_out _ _ _ _ _ Mab b') as (b & Fb & ->); [congruence|].
    rewrite (mi_get _ _ _ _ _ Mab b Fb) in Gb. apply sget_In in Gb. apply Inc in Gb.
    apply sget_In. rewrite (mi_get _ _ _ _ _ Mxy b Fb). apply In_sget; [exact (mi_wf1 _ _ _ _ _ Mxy)|exact Gb].
Qed.
End Accept.
