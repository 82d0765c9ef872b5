(** * What a name means depends on what is said about it *)
From Coq Require Import String List Bool ZArith Lia.
From Verif Require Import MachineInt Ratio F64 Magnitude Exponent ExponentFacts SMap Snake Expression DimensionMath Types PrefixSpec ExpansionSpec
  Resolve ResolveLoop ResolveChecks SystemSpec ResolveFacts ResolveEquations Expansion Setting SystemFacts Parse Grammar ParseFacts ParsedSystems
  Accuracy AccuracyFacts ExactFacts IndependenceFacts RemovalFacts PropertiesSystem LocalSpec.
Import ListNotations.
Local Open Scope list_scope.

Section Local.
Context (k : mode).
Notation X := (ops k).

Definition said_expr (n : ident) (d : said) : option (expr (fac (dimmag X)) X) :=
  match d with
  | BaseDimension => Some (EVal (FVal (Concrete (dm_of_dimensions X (bd_for_base X (base_dimension_of n))))))
  | DimensionIs x => match mean_dimension_rhs k x with
                     | Some e => Some (expr_map (map_concrete (fun _ => dm_of_dimensions X (bd_none X))) e) | None => None end
  | BaseUnitOf i => Some (EVal (FVal (Other i)))
  | ValueIs x => match mean_unit_rhs k x with
                 | Some e => Some (expr_map (map_concrete (dm_of_magnitude X)) e) | None => None end
  | PowerOfTen z i => Some (expr_map (map_concrete (dm_of_magnitude X))
      (EBin (EVal (FVal (Concrete (from_f64 (f64_of_decimal 1 z))))) (FVal (Other i)) OMul))
  end.
Definition of_dimension (d : said) : bool := match d with BaseDimension | DimensionIs _ => true | _ => false end.

Lemma occurs_dimension :
  forall x e, mean_dimension_rhs k x = Some e -> forall s, occurs s e <-> in_x s x.
Proof.
  assert (K : (forall x e, mean_x mean_dimension_atom (mean_exp k) x = Some e -> forall s, occurs s e <-> in_x s x) /\
    (forall x e, mean_f mean_dimension_atom (mean_exp k) x = Some e -> forall s, foccurs s e <-> in_f s x)).
  { apply sx_sf_ind.
    - intros y IH e Me s. rewrite mean_one in Me.
      destruct (mean_f mean_dimension_atom (mean_exp k) y) as [f'|]; [|discriminate Me].
      assert (e = EVal f') by congruence. subst e. split; intros O; inversion O; subst; constructor; now apply (IH f').
    - intros l IHl op y IHf e Me s. rewrite mean_bin in Me.
      destruct (mean_x mean_dimension_atom (mean_exp k) l) as [l'|]; [|discriminate Me].
      destruct (mean_f mean_dimension_atom (mean_exp k) y) as [f'|]; [|discriminate Me].
      assert (e = EBin l' f' (mean_op op)) by congruence. subst e.
      specialize (IHl l' eq_refl s). specialize (IHf f' eq_refl s).
      split; intros O; inversion O; subst; [apply in_left|apply in_right|apply occ_lhs|apply occ_rhs]; tauto.
    - intros a e Me s. rewrite mean_val in Me. destruct (mean_dimension_atom a) as [w|] eqn:Ma; [|discriminate Me].
      assert (e = FVal w) by congruence. subst e. destruct a as [n|l]; cbn [mean_dimension_atom] in Ma.
      + assert (w = Other n) by congruence. subst w. split; intros O; inversion O; subst; constructor.
      + destruct (mean_number l) as [m|]; [|discriminate Ma]. destruct (f64_eqb m f64_one); [|discriminate Ma].
        assert (w = Concrete tt) by congruence. subst w. split; intros O; inversion O.
    - intros a x e Me s. rewrite mean_pow in Me. destruct (mean_dimension_atom a) as [w|] eqn:Ma; [|discriminate Me].
      destruct (mean_exp k x) as [p|] eqn:Mp; [|discriminate Me].
      assert (e = FPow w p) by congruence. subst e. destruct a as [n|l]; cbn [mean_dimension_atom] in Ma.
      + assert (w = Other n) by congruence. subst w. split; intros O; inversion O; subst; constructor.
      + destruct (mean_number l) as [m|]; [|discriminate Ma]. destruct (f64_eqb m f64_one); [|discriminate Ma].
        assert (w = Concrete tt) by congruence. subst w. split; intros O; inversion O.
    - intros x IH e Me s. rewrite mean_paren in Me.
      destruct (mean_x mean_dimension_atom (mean_exp k) x) as [x'|]; [|discriminate Me].
      assert (e = FParen x') by congruence. subst e. split; intros O; inversion O; subst; constructor; now apply (IH x'). }
  exact (proj1 K).
Qed.

Definition as_said (T : template k) n d : Prop :=
  exists x, In x (decls (declared T)) /\ decl_name x = n /\ said_expr n d = Some (it_expr (item_of X x)) /\
    (forall s, mentions x s <-> refers s d) /\
    match x with DDimension _ => of_dimension d = true | _ => of_dimension d = false end.

Lemma said_decl f (T : template k) n d : mean_file k f = Some T -> In (n, d) (says f) -> as_said T n d.
Proof.
  intros M Hd. unfold mean_file in M.
  destruct (collect (mean_stmt k) (sl_items f)) as [es|] eqn:Co; [|discriminate M].
  assert (Ed : u_dimensions T = flat_map (fun e => match e with EntDimension _ u => [u] | _ => [] end) es)
    by (injection M as <-; reflexivity).
  assert (Eu : u_units T = flat_map (fun e => match e with EntUnit _ u => [u] | _ => [] end) es)
    by (injection M as <-; reflexivity).
  assert (Ec : u_constants T = flat_map (fun e => match e with EntConstant _ c => [c] | _ => [] end) es)
    by (injection M as <-; reflexivity).
  clear M. unfold says in Hd. apply in_flat_map in Hd as (s & Hs & Hd).
  destruct (collect_all _ _ _ _ Co Hs) as (en & Hen & Ms).
  assert (IND : forall de, en = EntDimension k de -> In (DDimension de) (decls (declared T))).
  { intros de ->. unfold decls. rewrite !in_app_iff, !in_map_iff. left. exists de. split; [reflexivity|].
    change (u_dimensions (declared T)) with (u_dimensions T). rewrite Ed. apply in_flat_map. exists (EntDimension _ de). split; [exact Hen|now left]. }
  destruct s as [| |l i [x|]|l i ann rhs|l i ann x]; try easy.
  - (* derived dimension *)
    cbn [says_stmt] in Hd. destruct Hd as [Hd|[]]. assert (n = i /\ d = DimensionIs x) as [-> ->] by (split; congruence).
    cbn [mean_stmt] in Ms. destruct (mean_dimension_rhs k x) as [e|] eqn:Mx; [|discriminate Ms].
    destruct en as [| |de| |]; try discriminate Ms. exists (DDimension de). split; [now apply IND|].
    injection Ms as <-. split; [reflexivity|]. split; [|split; [|reflexivity]].
    + unfold said_expr. rewrite Mx. reflexivity.
    + intros s. cbn [mentions de_rhs refers]. now apply (occurs_dimension x e).
  - (* base dimension *)
    cbn [says_stmt] in Hd. destruct Hd as [Hd|[]]. assert (n = i /\ d = BaseDimension) as [-> ->] by (split; congruence).
    cbn [mean_stmt] in Ms. destruct en as [| |de| |]; try discriminate Ms. exists (DDimension de). split; [now apply IND|].
    injection Ms as <-. split; [reflexivity|]. split; [reflexivity|]. split; [|reflexivity].
    intros s. reflexivity.
  - (* units *)
    cbn [mean_stmt] in Ms. destruct (mean_unit k l i ann rhs) as [t|] eqn:Mu; [|discriminate Ms].
    destruct en as [| | |u|]; try discriminate Ms. assert (E : u = t) by congruence. subst u. clear Ms.
    assert (Ht : In t (u_units T)) by (rewrite Eu; apply in_flat_map; exists (EntUnit _ t); split; [exact Hen|now left]).
    unfold mean_unit in Mu.
    destruct (mean_unit_definition k (bases_of l) rhs) as [def|] eqn:D; [|discriminate Mu].
    destruct (at_most_one (symbols_of l)) as [sy|]; [|discriminate Mu].
    destruct (at_most_one (metrics_of l)) as [me|] eqn:Me; [|discriminate Mu].
    assert (Et : ut_name t = i /\ ut_aliases t = alias_names l /\ ut_definition t = def /\
       ut_prefixes t = match me with Some skip => si_without skip | None => [] end ++ explicit_prefixes l)
      by (injection Mu as <-; auto).
    destruct Et as (En & Ea & Edf & Ep). clear Mu.
    assert (Ep' : ut_prefixes t = prefixes_of l).
    { rewrite Ep. unfold prefixes_of. f_equal. destruct (metrics_of l) as [|m1 [|]]; cbn [at_most_one] in Me;
        try discriminate Me; injection Me as <-; cbn [flat_map]; rewrite ?app_nil_r; reflexivity. }
    assert (IN : forall p a, chosen (ut_prefixes t) p -> chosen (ut_aliases t) a -> In (DUnit (variant t p a)) (decls (declared T))).
    { intros p a Hp Ha. unfold decls. rewrite !in_app_iff, !in_map_iff. right. left. exists (variant t p a). split; [reflexivity|].
      apply declared_units. exists t. split; [exact Ht|]. exists p, a. auto. }
    assert (SC : forall p a, chosen (ut_prefixes t) p -> chosen (ut_aliases t) a -> (p <> None \/ a <> None) ->
       variant_name t p a = n -> d = PowerOfTen (match p with Some p => si_power p | None => 0 end) i -> as_said T n d).
    { intros p a Hp Ha Np Hn ->. exists (DUnit (variant t p a)). split; [now apply IN|]. split; [exact Hn|].
      assert (Evd : variant_definition t p a = DefExpr (EBin (EVal (FVal (Concrete (from_f64 (f64_of_decimal 1
         (match p with Some p => si_power p | None => 0 end)))))) (FVal (Other i)) OMul)).
      { unfold variant_definition. rewrite En. destruct p; [reflexivity|]. destruct a; [reflexivity|]. destruct Np; congruence. }
      split; [|split; [|reflexivity]].
      - cbn [item_of item_of_unit it_expr ue_definition variant]. rewrite Evd. reflexivity.
      - intros s. cbn [mentions ue_definition variant]. rewrite Evd. cbn [refers].
        set (c := from_f64 _) in *. clearbody c. split; [intros Hm|intros ->; apply occ_rhs; constructor].
        inversion Hm as [? H|? ? ? H|? ? ? H]; subst; [inversion H as [? H'| |]; subst; inversion H'|inversion H; subst; reflexivity]. }
    cbn [says_stmt] in Hd. rewrite !in_app_iff in Hd. destruct Hd as [Hd|[Hd|Hd]].
    + exists (DUnit (variant t None None)). split; [apply IN; exact Logic.I|].
      unfold mean_unit_definition in D. destruct (bases_of l) as [|b [|b2 bs]], rhs as [x|]; try discriminate D.
      * destruct Hd as [Hd|[]]. assert (n = i /\ d = ValueIs x) as [-> ->] by (split; congruence).
        destruct (mean_unit_rhs k x) as [e|] eqn:Mx; [|discriminate D].
        assert (E : def = DefExpr (B := ident) (C := magnitude) e) by congruence.
        split; [exact En|]. cbn [mentions item_of item_of_unit it_expr ue_definition variant]. unfold variant_definition. rewrite Edf, E.
        split; [|split; [|reflexivity]]; [unfold said_expr; now rewrite Mx|].
        intros s. cbn [refers]. split; [exact (occurs_source x e Mx s)|exact (proj2 (proj1 mean_names x e Mx) s)].
      * destruct Hd as [Hd|[]]. assert (n = i /\ d = BaseUnitOf b) as [-> ->] by (split; congruence).
        assert (E : def = DefBase (X := X) (C := magnitude) b) by congruence.
        split; [exact En|]. cbn [mentions item_of item_of_unit it_expr ue_definition variant]. unfold variant_definition. rewrite Edf, E.
        split; [reflexivity|]. split; [|reflexivity]. intros s. cbn [refers]. intuition.
    + apply in_map_iff in Hd as (a & Hd & Ha). assert (n = a /\ d = PowerOfTen 0 i) as [-> ->] by (split; congruence).
      apply (SC None (Some a)); auto; [exact Logic.I|cbn [chosen]; now rewrite Ea|right; discriminate].
    + apply in_flat_map in Hd as (p & Hp & Hd). apply in_map_iff in Hd as (a & Hd & Ha).
      assert (En' : n = (si_name p ++ a)%string) by congruence. assert (Ed' : d = PowerOfTen (si_power p) i) by congruence. clear Hd.
      destruct Ha as [<-|Ha].
      * apply (SC (Some p) None); auto; [cbn [chosen]; now rewrite Ep'|exact Logic.I|left; discriminate|].
        unfold variant_name. now rewrite En.
      * apply (SC (Some p) (Some a)); auto; [cbn [chosen]; now rewrite Ep'|cbn [chosen]; now rewrite Ea|left; discriminate].
  - (* constants *)
    cbn [says_stmt] in Hd. destruct Hd as [Hd|[]]. assert (n = i /\ d = ValueIs x) as [-> ->] by (split; congruence).
    cbn [mean_stmt] in Ms. destruct (mean_unit_rhs k x) as [e|] eqn:Mx; [|discriminate Ms].
    destruct en as [| | | |c]; try discriminate Ms.
    assert (E : ce_name c = i /\ ce_rhs c = e) by (injection Ms as <-; auto). destruct E as [E1 E2].
    exists (DConstant c). split.
    + unfold decls. rewrite !in_app_iff, !in_map_iff. right. right. exists c. split; [reflexivity|].
      change (u_constants (declared T)) with (u_constants T). rewrite Ec. apply in_flat_map. exists (EntConstant _ c). split; [exact Hen|now left].
    + split; [exact E1|]. split; [|split; [|reflexivity]].
      * unfold said_expr. rewrite Mx. cbn [item_of item_of_constant it_expr]. now rewrite E2.
      * intros s. cbn [mentions refers]. rewrite E2. split; [exact (occurs_source x e Mx s)|exact (proj2 (proj1 mean_names x e Mx) s)].
Qed.

Lemma decl_said f (T : template k) x : mean_file k f = Some T -> In x (decls (declared T)) -> exists d, In (decl_name x, d) (says f).
Proof.
  intros M Hx. unfold mean_file in M.
  destruct (collect (mean_stmt k) (sl_items f)) as [es|] eqn:Co; [|discriminate M].
  assert (Ed : u_dimensions T = flat_map (fun e => match e with EntDimension _ u => [u] | _ => [] end) es)
    by (injection M as <-; reflexivity).
  assert (Eu : u_units T = flat_map (fun e => match e with EntUnit _ u => [u] | _ => [] end) es)
    by (injection M as <-; reflexivity).
  assert (Ec : u_constants T = flat_map (fun e => match e with EntConstant _ c => [c] | _ => [] end) es)
    by (injection M as <-; reflexivity).
  clear M. assert (IN : forall s d n, In s (sl_items f) -> In (n, d) (says_stmt s) -> In (n, d) (says f)).
  { intros s d n Hs H. unfold says. apply in_flat_map. eauto. }
  unfold decls in Hx. rewrite !in_app_iff, !in_map_iff in Hx. destruct Hx as [(y & <- & Hy)|[(y & <- & Hy)|(y & <- & Hy)]]; cbn [decl_name].
  - change (u_dimensions (declared T)) with (u_dimensions T) in Hy. rewrite Ed in Hy. apply in_flat_map in Hy as (en & Hen & Hy).
    destruct en as [| |u| |]; try easy. destruct Hy as [->|[]]. destruct (collect_in _ _ _ _ Co Hen) as (s & Hs & Ms).
    destruct s as [| |l i [x|]|l i ann rhs|l i ann x]; cbn [mean_stmt] in Ms; try discriminate Ms.
    + destruct (mean_dimension_rhs k x) as [e|]; [|discriminate Ms]. assert (E : de_name y = i) by (injection Ms as <-; reflexivity).
      exists (DimensionIs x). apply (IN _ _ _ Hs). cbn [says_stmt]. left. now rewrite E.
    + assert (E : de_name y = i) by (injection Ms as <-; reflexivity).
      exists BaseDimension. apply (IN _ _ _ Hs). cbn [says_stmt]. left. now rewrite E.
    + destruct (mean_unit k l i ann rhs); discriminate Ms.
    + destruct (mean_unit_rhs k x); discriminate Ms.
  - apply declared_units in Hy as (t & Ht & p & a & Hp & Ha & ->). cbn [ue_name variant].
    rewrite Eu in Ht. apply in_flat_map in Ht as (en & Hen & Ht).
    destruct en as [| | |u|]; try easy. destruct Ht as [->|[]]. destruct (collect_in _ _ _ _ Co Hen) as (s & Hs & Ms).
    destruct s as [| |? ? [x|]|l i ann rhs|? ? ? x]; cbn [mean_stmt] in Ms; try discriminate Ms.
    { destruct (mean_dimension_rhs k x); discriminate Ms. }
    2: { destruct (mean_unit_rhs k x); discriminate Ms. }
    destruct (mean_unit k l i ann rhs) as [u|] eqn:Mu; [|discriminate Ms].
    assert (E : u = t) by congruence. subst u. clear Ms. unfold mean_unit in Mu.
    destruct (mean_unit_definition k (bases_of l) rhs) as [def|] eqn:D; [|discriminate Mu].
    destruct (at_most_one (symbols_of l)) as [sy|]; [|discriminate Mu].
    destruct (at_most_one (metrics_of l)) as [me|] eqn:Me; [|discriminate Mu].
    assert (Et : ut_name t = i /\ ut_aliases t = alias_names l /\
       ut_prefixes t = match me with Some skip => si_without skip | None => [] end ++ explicit_prefixes l)
      by (injection Mu as <-; auto).
    destruct Et as (En & Ea & Ep). clear Mu.
    assert (Ep' : ut_prefixes t = prefixes_of l).
    { rewrite Ep. unfold prefixes_of. f_equal. destruct (metrics_of l) as [|m1 [|]]; cbn [at_most_one] in Me;
        try discriminate Me; injection Me as <-; cbn [flat_map]; rewrite ?app_nil_r; reflexivity. }
    unfold variant_name in *. rewrite En, Ea, Ep' in *. destruct p as [p|].
    + exists (PowerOfTen (si_power p) i). apply (IN _ _ _ Hs). cbn [says_stmt]. rewrite !in_app_iff. right. right.
      apply in_flat_map. exists p. split; [exact Hp|]. apply in_map_iff. exists (match a with Some a => a | None => i end). split; [reflexivity|].
      destruct a as [a|]; [right; exact Ha|now left].
    + destruct a as [a|].
      * exists (PowerOfTen 0 i). apply (IN _ _ _ Hs). cbn [says_stmt]. rewrite !in_app_iff. right. left.
        apply in_map_iff. exists a. split; [reflexivity|exact Ha].
      * unfold mean_unit_definition in D. destruct (bases_of l) as [|b [|b2 bs]] eqn:B, rhs as [x|]; try discriminate D.
        -- exists (ValueIs x). apply (IN _ _ _ Hs). cbn [says_stmt]. rewrite !in_app_iff. left. now left.
        -- exists (BaseUnitOf b). apply (IN _ _ _ Hs). cbn [says_stmt]. rewrite !in_app_iff, B. left. now left.
  - change (u_constants (declared T)) with (u_constants T) in Hy. rewrite Ec in Hy. apply in_flat_map in Hy as (en & Hen & Hy).
    destruct en as [| | | |u]; try easy. destruct Hy as [->|[]]. destruct (collect_in _ _ _ _ Co Hen) as (s & Hs & Ms).
    destruct s as [| |l i [x|]|l i ann rhs|l i ann x]; cbn [mean_stmt] in Ms; try discriminate Ms.
    + destruct (mean_dimension_rhs k x); discriminate Ms.
    + destruct (mean_unit k l i ann rhs); discriminate Ms.
    + destruct (mean_unit_rhs k x) as [e|]; [|discriminate Ms]. assert (E : ce_name y = i) by (injection Ms as <-; reflexivity).
      exists (ValueIs x). apply (IN _ _ _ Hs). cbn [says_stmt]. left. now rewrite E.
Qed.

Context (env : fenv) (f1 f2 : slist stmt) (T1 T2 : template k) (o1 o2 : defs X).
Hypothesis M1 : mean_file k f1 = Some T1.
Hypothesis M2 : mean_file k f2 = Some T2.
Hypothesis R1 : run_unit_system X env T1 = Some (o1, []).
Hypothesis R2 : run_unit_system X env T2 = Some (o2, []).
Context (N : ident -> Prop).
Hypothesis Closed : forall n, N n -> exists d, In (n, d) (says f1) /\ In (n, d) (says f2) /\ forall s, refers s d -> N s.

Lemma local_all : forall n, N n -> exists l m, comes_out o1 n l m /\ comes_out o2 n l m.
Proof.
  assert (Loc : forall n, N n -> exists d x1 x2, as_said T1 n d /\ In x1 (decls (declared T1)) /\ In x2 (decls (declared T2)) /\
     decl_name x1 = n /\ decl_name x2 = n /\ it_expr (item_of X x1) = it_expr (item_of X x2) /\
     (forall s, mentions x1 s -> N s) /\
     match x1, x2 with DDimension _, DDimension _ => True | DDimension _, _ | _, DDimension _ => False | _, _ => True end).
  { intros n Hn. destruct (Closed n Hn) as (d & H1 & H2 & Hr). pose proof (said_decl f1 T1 n d M1 H1) as A1.
    destruct A1 as (x1 & I1 & N1 & E1 & Re1 & K1). destruct (said_decl f2 T2 n d M2 H2) as (x2 & I2 & N2 & E2 & Re2 & K2).
    exists d, x1, x2. split; [exists x1; auto|]. repeat split; auto; [|intros s Hs; apply Hr; now apply Re1|].
    - generalize dependent (said_expr n d). intros o E1 E2. congruence.
    - destruct x1, x2; try exact Logic.I; congruence. }
  unfold run_unit_system in *.
  destruct (accepted_all X (laws k) env _ o1 (generated_ok_expand X T1) R1) as (W1 & res1 & d1 & _ & H1 & -> & A1).
  destruct (accepted_all X (laws k) env _ o2 (generated_ok_expand X T2) R2) as (W2 & res2 & d2 & _ & H2 & -> & A2).
  pose proof (resolved_wf X env _ _ _ H1) as Wr1. pose proof (resolved_wf X env _ _ _ H2) as Wr2.
  rewrite declared_expand in *.
  assert (K : forall n, grounded (declared T1) n -> N n -> lk_of X res1 n = lk_of X res2 n).
  { intros n Gr. induction Gr as [x Hx Hm IH]. intros Hn.
    destruct (Loc _ Hn) as (d & x1 & x2 & _ & I1 & I2 & N1 & N2 & E & Re & _).
    destruct (A1 x1 I1) as (r1 & E1 & _ & V1 & _). destruct (A2 x2 I2) as (r2 & E2 & _ & V2 & _).
    rewrite N1 in E1. rewrite N2 in E2. unfold lk_of. rewrite E1, E2. rewrite E in V1.
    rewrite (eval_look_ext X env (lk_of X res1) (lk_of X res2)) in V1; [congruence|].
    intros m Hm'. rewrite <- E in Hm'. apply mentions_item in Hm'.
    assert (Ex : x1 = x) by (apply (same_decl X (declared T1)); auto; apply (wf_names _ _ W1)). subst x1.
    apply IH; auto. }
  intros n Hn. destruct (Loc _ Hn) as (d & x1 & x2 & _ & I1 & I2 & N1 & N2 & E & Re & Kd).
  assert (Gn : grounded (declared T1) n) by (rewrite <- N1; exact (wf_grounded _ _ W1 x1 I1)).
  specialize (K n Gn Hn).
  destruct (A1 x1 I1) as (r1 & E1 & J1 & _). destruct (A2 x2 I2) as (r2 & E2 & J2 & _).
  rewrite N1 in E1. rewrite N2 in E2. unfold lk_of in K. rewrite E1, E2 in K.
  assert (Kr : ri_dims r1 = ri_dims r2) by congruence.
  assert (P : forall res (Wr : wf res) r x S, sget n res = Some r -> ri_item r = item_of X x -> decl_name x = n ->
     comes_out (out_of X S res) n (dm_dims (ri_dims r))
       (match x with DDimension _ => None | _ => Some (dm_mag (ri_dims r)) end)).
  { intros res Wr r x S Er Ji Nx. unfold comes_out. cbn [out_of df_dimensions df_units df_constants]. destruct x as [e|e|e].
    - left. eexists. split; [apply (get_dimensions_In X _ _ Wr); exists n, r, e; split; [exact Er|]; split; [now rewrite Ji|reflexivity]|].
      split; [exact Nx|]. split; reflexivity.
    - right. left. eexists. split; [apply (get_units_In X _ _ Wr); exists n, r, e; split; [exact Er|]; split; [now rewrite Ji|reflexivity]|].
      split; [exact Nx|]. split; reflexivity.
    - right. right. eexists. split; [apply (get_constants_In X _ _ Wr); exists n, r, e; split; [exact Er|]; split; [now rewrite Ji|reflexivity]|].
      split; [exact Nx|]. split; reflexivity. }
  eexists. eexists. split; [exact (P res1 Wr1 r1 x1 _ E1 J1 N1)|]. pose proof (P res2 Wr2 r2 x2 (expand_templates T2) E2 J2 N2) as P2.
  rewrite <- Kr in P2. destruct x1, x2; try destruct Kd; exact P2.
Qed.

(** At most one thing comes out under a name. *)
Lemma comes_out_one T o n l m l' m' : run_unit_system X env T = Some (o, []) -> comes_out o n l m -> comes_out o n l' m' -> l = l' /\ m = m'.
Proof.
  intros R A B. unfold run_unit_system in R.
  destruct (accepted_all X (laws k) env _ o (generated_ok_expand X T) R) as (W & res & d & _ & H & -> & Al).
  pose proof (resolved_wf X env _ _ _ H) as Wr.
  assert (K : forall l m, comes_out (out_of X (expand_templates T) res) n l m -> exists r, sget n res = Some r /\ l = dm_dims (ri_dims r) /\
     m = match it_type (ri_item r) with ItDimension _ => None | _ => Some (dm_mag (ri_dims r)) end).
  { clear A B. intros l0 m0 C. unfold comes_out in C. cbn [out_of df_dimensions df_units df_constants] in C.
    destruct C as [(y & Hy & <- & <- & ->)|[(y & Hy & <- & <- & ->)|(y & Hy & <- & <- & ->)]].
    - apply (get_dimensions_In X _ _ Wr) in Hy as (n' & r & e & Hn & Ht & ->). exists r. rewrite Ht.
      destruct (entry_decl X env _ _ _ _ _ H Hn) as (x & Hx & Ix & Nx). rewrite Ix in Ht. 
      destruct x as [z|z|z]; try discriminate Ht. assert (z = e) by (cbn in Ht; congruence). subst z. cbn [decl_name] in Nx.
      cbn. rewrite Nx. auto.
    - apply (get_units_In X _ _ Wr) in Hy as (n' & r & e & Hn & Ht & ->). exists r. rewrite Ht.
      destruct (entry_decl X env _ _ _ _ _ H Hn) as (x & Hx & Ix & Nx). rewrite Ix in Ht. 
      destruct x as [z|z|z]; try discriminate Ht. assert (z = e) by (cbn in Ht; congruence). subst z. cbn [decl_name] in Nx.
      cbn. rewrite Nx. auto.
    - apply (get_constants_In X _ _ Wr) in Hy as (n' & r & e & Hn & Ht & ->). exists r. rewrite Ht.
      destruct (entry_decl X env _ _ _ _ _ H Hn) as (x & Hx & Ix & Nx). rewrite Ix in Ht. 
      destruct x as [z|z|z]; try discriminate Ht. assert (z = e) by (cbn in Ht; congruence). subst z. cbn [decl_name] in Nx.
      cbn. rewrite Nx. auto. }
  destruct (K _ _ A) as (r & Er & -> & ->). destruct (K _ _ B) as (r' & Er' & -> & ->).
  assert (r = r') by congruence. subst r'. auto.
Qed.

(** Whatever comes out was said, and so was everything it refers to. *)
Lemma comes_out_said f T o n l m : mean_file k f = Some T -> run_unit_system X env T = Some (o, []) -> comes_out o n l m ->
  exists d, In (n, d) (says f).
Proof.
  intros M R C. unfold run_unit_system in R.
  destruct (accepted_all X (laws k) env _ o (generated_ok_expand X T) R) as (W & res & d & _ & H & -> & Al).
  pose proof (resolved_wf X env _ _ _ H) as Wr. rewrite declared_expand in *.
  assert (K : exists x, In x (decls (declared T)) /\ decl_name x = n).
  { unfold comes_out in C. cbn [out_of df_dimensions df_units df_constants] in C.
    destruct C as [(y & Hy & <- & _)|[(y & Hy & <- & _)|(y & Hy & <- & _)]].
    - apply (get_dimensions_In X _ _ Wr) in Hy as (n' & r & e & Hn & Ht & ->).
      destruct (entry_decl X env _ _ _ _ _ H Hn) as (x & Hx & Ix & Nx). try rewrite declared_expand in Hx. exists x. split; [exact Hx|].
      rewrite Ix in Ht. destruct x as [z|z|z]; try discriminate Ht. assert (z = e) by (cbn in Ht; congruence). now subst z.
    - apply (get_units_In X _ _ Wr) in Hy as (n' & r & e & Hn & Ht & ->).
      destruct (entry_decl X env _ _ _ _ _ H Hn) as (x & Hx & Ix & Nx). try rewrite declared_expand in Hx. exists x. split; [exact Hx|].
      rewrite Ix in Ht. destruct x as [z|z|z]; try discriminate Ht. assert (z = e) by (cbn in Ht; congruence). now subst z.
    - apply (get_constants_In X _ _ Wr) in Hy as (n' & r & e & Hn & Ht & ->).
      destruct (entry_decl X env _ _ _ _ _ H Hn) as (x & Hx & Ix & Nx). try rewrite declared_expand in Hx. exists x. split; [exact Hx|].
      rewrite Ix in Ht. destruct x as [z|z|z]; try discriminate Ht. assert (z = e) by (cbn in Ht; congruence). now subst z. }
  destruct K as (x & Hx & <-). exact (decl_said f T x M Hx).
Qed.
Lemma said_closed f T o n d s : mean_file k f = Some T -> run_unit_system X env T = Some (o, []) -> In (n, d) (says f) -> refers s d ->
  exists d', In (s, d') (says f).
Proof.
  intros M R Hd Hs. unfold run_unit_system in R.
  destruct (accepted_all X (laws k) env _ o (generated_ok_expand X T) R) as (W & _). rewrite declared_expand in *.
  destruct (said_decl f T n d M Hd) as (x & Hx & _ & _ & Re & _). apply Re in Hs.
  pose proof (wf_defined _ _ W x s Hx Hs) as D. apply in_map_iff in D as (y & <- & Hy). exact (decl_said f T y M Hy).
Qed.
End Local.
