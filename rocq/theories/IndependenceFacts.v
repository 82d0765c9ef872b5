(** * Facts for C81: the factors of an accepted file against any other consistent choice of sizes *)
From Coq Require Import String List Bool ZArith QArith Qcanon Qreals Reals Lra Lia.
From Verif Require Import MachineInt Ratio F64 Magnitude Exponent ExponentFacts Expression Types PrefixSpec ExpansionSpec
  Snake Resolve SystemSpec ResolveFacts ResolveEquations ResolveAccept Expansion Setting SystemFacts PropertiesSystem
  Parse Grammar ParseFacts ParsedSystems Accuracy RoundingSpec AccuracyFacts ExactFacts
  Equivariance EquivarianceFacts.
Import ListNotations.
Close Scope Q_scope. Close Scope Qc_scope. Close Scope R_scope.
Local Open Scope list_scope.

(** ** Specification: sizes
    [V] assigns a size to every name of the file: base units may have any positive size, everything
    else is what its definition says. *)
Definition sizes (V : ident -> Q) (f : slist stmt) : Prop :=
  (forall n, In (n, XBase) (file_defs f) -> (0 < V n)%Q) /\
  (forall n d, In (n, d) (file_defs f) -> d <> XBase -> exists q, is_def V d q /\ (V n == q)%Q).

(** ** Rationals as reals *)
Lemma Q2R_inv_all a : Q2R (/ a) = (/ Q2R a)%R.
Proof.
  destruct (Qeq_dec a 0) as [E|E]; [|now apply Q2R_inv].
  rewrite (Qeq_eqR _ _ E), AccuracyFacts.Q2R_0, Rinv_0. rewrite (Qeq_eqR (/ a) 0); [apply AccuracyFacts.Q2R_0|]. rewrite E. reflexivity.
Qed.
Lemma Q2R_power_all a z : Q2R (a ^ z) = powerRZ (Q2R a) z.
Proof.
  destruct z as [|p|p]; cbn [Qpower powerRZ].
  - unfold Q2R. cbn. lra.
  - apply Q2R_power_pos.
  - rewrite Q2R_inv_all. f_equal. apply Q2R_power_pos.
Qed.
Lemma powerRZ_scaled a t z : powerRZ (a * exp t) z = (powerRZ a z * exp (t * IZR z))%R.
Proof.
  assert (P : forall n, ((a * exp t) ^ n = a ^ n * exp (t * INR n))%R).
  { intros n. rewrite Rpow_mult_distr. f_equal. induction n as [|n IH]; [cbn; now rewrite Rmult_0_r, exp_0|].
    rewrite S_INR, Rmult_plus_distr_l, Rmult_1_r, exp_plus. change (exp t ^ S n)%R with (exp t * exp t ^ n)%R. rewrite IH. ring. }
  destruct z as [|p|p]; cbn [powerRZ].
  - rewrite Rmult_0_r, exp_0. ring.
  - rewrite P. now rewrite INR_IZR_INZ, positive_nat_Z.
  - rewrite P, Rinv_mult, <- exp_Ropp. do 2 f_equal. rewrite INR_IZR_INZ, positive_nat_Z.
    change (Z.neg p) with (- Z.pos p)%Z. rewrite opp_IZR. ring.
Qed.

Section Mode.
Context {md : mode}.
Notation X := (ops md).
Lemma occurs_source :
  forall x e, mean_unit_rhs md x = Some e -> forall s, occurs s e -> in_x s x.
Proof.
  assert (K : (forall x e, mean_x mean_unit_atom (mean_exp md) x = Some e -> forall s, occurs s e -> in_x s x) /\
    (forall x e, mean_f mean_unit_atom (mean_exp md) x = Some e -> forall s, foccurs s e -> in_f s x)).
  { apply sx_sf_ind.
    - intros y IH e Me s O. rewrite mean_one in Me.
      destruct (mean_f mean_unit_atom (mean_exp md) y) as [f'|]; [|discriminate Me].
      assert (e = EVal f') by congruence. subst e. inversion O; subst. constructor. now apply (IH f').
    - intros l IHl op y IHf e Me s O. rewrite mean_bin in Me.
      destruct (mean_x mean_unit_atom (mean_exp md) l) as [l'|]; [|discriminate Me].
      destruct (mean_f mean_unit_atom (mean_exp md) y) as [f'|]; [|discriminate Me].
      assert (e = EBin l' f' (mean_op op)) by congruence. subst e. inversion O; subst; [apply in_left|apply in_right]; eauto.
    - intros a e Me s O. rewrite mean_val in Me. destruct a as [n|l]; cbn [mean_unit_atom] in Me.
      + assert (e = FVal (Other n)) by congruence. subst e. inversion O; subst. constructor.
      + destruct (mean_number l) as [m|]; [|discriminate Me]. set (c := from_f64 m) in *. clearbody c.
        assert (e = FVal (Concrete c)) by congruence. subst e. inversion O.
    - intros a x e Me s O. rewrite mean_pow in Me. destruct (mean_unit_atom a) as [w|] eqn:Ma; [|discriminate Me].
      destruct (mean_exp md x) as [p|] eqn:Mp; [|discriminate Me].
      assert (e = FPow w p) by congruence. subst e. destruct a as [n|l]; cbn [mean_unit_atom] in Ma.
      + assert (w = Other n) by congruence. subst w. inversion O; subst. constructor.
      + destruct (mean_number l) as [m|]; [|discriminate Ma]. set (c := from_f64 m) in *. clearbody c.
        assert (w = Concrete c) by congruence. subst w. inversion O.
    - intros x IH e Me s O. rewrite mean_paren in Me.
      destruct (mean_x mean_unit_atom (mean_exp md) x) as [x'|]; [|discriminate Me].
      assert (e = FParen x') by congruence. subst e. inversion O; subst. constructor. now apply (IH x'). }
  exact (proj1 K).
Qed.

Section Accepted.
Context (env : fenv) (f : slist stmt) (T : template md) (o : defs X).
Hypothesis Lit : literals_ok md T.
Hypothesis M : mean_file md f = Some T.
Hypothesis Run : run_unit_system X env T = Some (o, []).
Hypothesis N : NoDup (df_base_dimensions o).
Context (G V : ident -> Q).
Hypothesis HG : exact_solution G f.
Hypothesis HV : sizes V f.
Notation fields := (df_base_dimensions o).
Notation L := (laws md).

(** The size of the base unit of a base dimension. *)
Definition base_size (b : string) : R :=
  match find (fun u => match ue_definition u with DefBase d => String.eqb (base_dimension_of d) b | _ => false end)
             (u_units (declared T)) with
  | Some u => Q2R (V (ue_name u))
  | None => 1%R
  end.
Notation weight := (weight fields base_size).

Lemma weight_ext v w : (forall b, v b = w b) -> weight v = weight w.
Proof.
  intros H. unfold EquivarianceFacts.weight. clear N. induction fields as [|b l IH]; [reflexivity|]. cbn [fold_right]. now rewrite H, IH.
Qed.

Lemma base_unit_source u d : In u (u_units (declared T)) -> ue_definition u = DefBase d -> In (ue_name u, XBase) (file_defs f).
Proof.
  intros Hu Ed. apply declared_units in Hu as (t & Ht & p & a & Hp & Ha & ->).
  destruct (unit_source md f T t p a M Ht Hp Ha) as (x & Hx & Co). cbn [ue_definition variant] in Ed. rewrite Ed in Co.
  inversion Co; subst. exact Hx.
Qed.
Lemma base_size_pos b : (0 < base_size b)%R.
Proof.
  unfold base_size. destruct (find _ _) as [u|] eqn:E; [|lra]. apply find_some in E as [Hu E].
  destruct (ue_definition u) as [d|] eqn:Ed; [|discriminate E]. pose proof (proj1 HV _ (base_unit_source u d Hu Ed)) as K.
  apply Qlt_Rlt in K. now rewrite AccuracyFacts.Q2R_0 in K.
Qed.

(** Expressions. *)
Lemma eval_scaled (Rn : ident -> vec -> Prop) :
  (forall x e v qV qG, mean_unit_rhs md x = Some e -> is_x V x qV -> is_x G x qG ->
     (forall s w, occurs s e -> Rn s w -> Q2R (V s) = (Q2R (G s) * exp (weight w))%R) ->
     ev_dim X L Rn e v -> Q2R qV = (Q2R qG * exp (weight v))%R) /\
  (forall x e v qV qG, mean_f mean_unit_atom (mean_exp md) x = Some e -> is_f V x qV -> is_f G x qG ->
     (forall s w, foccurs s e -> Rn s w -> Q2R (V s) = (Q2R (G s) * exp (weight w))%R) ->
     fev_dim X L Rn e v -> Q2R qV = (Q2R qG * exp (weight v))%R).
Proof.
  assert (Z0 : forall v, (forall b, v b = 0%Qc) -> exp (weight v) = 1%R).
  { intros v H. rewrite (weight_ext v (fun _ => ZQc 0)), weight_zero; [apply exp_0|]. intros b. rewrite H. symmetry. apply DimensionMathFacts.ZQc_0. }
  unfold mean_unit_rhs. apply sx_sf_ind.
  - intros y IH e v qV qG Me IV IG On E. rewrite mean_one in Me.
    destruct (mean_f mean_unit_atom (mean_exp md) y) as [f'|]; [|discriminate Me].
    assert (e = EVal f') by congruence. subst e. inversion IV; inversion IG; inversion E; subst.
    apply (IH f'); auto. intros s w O. apply On. now constructor.
  - intros l IHl op y IHf e v qV qG Me IV IG On E. rewrite mean_bin in Me.
    destruct (mean_x mean_unit_atom (mean_exp md) l) as [l'|]; [|discriminate Me].
    destruct (mean_f mean_unit_atom (mean_exp md) y) as [f'|]; [|discriminate Me].
    assert (e = EBin l' f' (mean_op op)) by congruence. subst e.
    assert (Ol : forall s w, occurs s l' -> Rn s w -> Q2R (V s) = (Q2R (G s) * exp (weight w))%R) by (intros s w O; apply On; now apply occ_lhs).
    assert (Of : forall s w, foccurs s f' -> Rn s w -> Q2R (V s) = (Q2R (G s) * exp (weight w))%R) by (intros s w O; apply On; now apply occ_rhs).
    inversion IV as [|? ? ? a b Ho Ia Ib|? ? a b Ia Ib]; subst; inversion IG as [|? ? ? a' b' Ho' Ia' Ib'|? ? a' b' Ia' Ib']; subst; try congruence.
    + assert (Em : mean_op op = OMul) by (destruct op; try reflexivity; congruence). rewrite Em in E.
      inversion E as [|? ? v1 v2 ? E1 E2 Ev|]; subst.
      rewrite !Q2R_mult, (IHl l' v1 a a' eq_refl Ia Ia' Ol E1), (IHf f' v2 b b' eq_refl Ib Ib' Of E2).
      rewrite (weight_ext v _ Ev), weight_plus, exp_plus. ring.
    + cbn [mean_op] in E. inversion E as [| |? ? v1 v2 ? E1 E2 Ev]; subst. unfold Qdiv.
      rewrite !Q2R_mult, !Q2R_inv_all, (IHl l' v1 a a' eq_refl Ia Ia' Ol E1), (IHf f' v2 b b' eq_refl Ib Ib' Of E2).
      rewrite (weight_ext v _ Ev), weight_minus. unfold Rminus. rewrite exp_plus, exp_Ropp, Rinv_mult. ring.
  - intros a e v qV qG Me IV IG On E. rewrite mean_val in Me. inversion IV; inversion IG; subst.
    destruct a as [s|l]; cbn [mean_unit_atom atom_Q] in *.
    + assert (e = FVal (Other s)) by congruence. subst e. inversion E; subst. apply (On s); [constructor|assumption].
    + destruct (mean_number l) as [m|]; [|discriminate Me].
      set (c := from_f64 m) in *. clearbody c. assert (e = FVal (Concrete c)) by congruence. subst e.
      inversion E; subst. rewrite Z0 by assumption. ring.
  - intros a x e v qV qG Me IV IG On E. rewrite mean_pow in Me.
    inversion IV as [|? ? z Hz|]; inversion IG as [|? ? z' Hz'|]; subst. assert (z' = z) by congruence. subst z'.
    destruct (mean_unit_atom a) as [w|] eqn:Ma; [|discriminate Me].
    destruct (mean_exp md x) as [p|] eqn:Mp; [|discriminate Me].
    assert (e = FPow w p) by congruence. subst e. assert (Ep : l_val X L p = ZQc z) by exact (exp_value md x z p Hz Mp).
    rewrite !Q2R_power_all. destruct a as [s|l]; cbn [mean_unit_atom atom_Q] in *.
    + assert (w = Other s) by congruence. subst w. inversion E as [| | |? ? v1 ? Hv1 Ev|]; subst.
      rewrite (On s v1 ltac:(constructor) Hv1), powerRZ_scaled. do 2 f_equal.
      rewrite Ep in Ev. now rewrite (weight_ext v _ Ev), weight_mul.
    + destruct (mean_number l) as [m|]; [|discriminate Ma].
      set (c := from_f64 m) in *. clearbody c. assert (w = Concrete c) by congruence. subst w.
      inversion E; subst. rewrite Z0 by assumption. ring.
  - intros x IH e v qV qG Me IV IG On E. rewrite mean_paren in Me.
    destruct (mean_x mean_unit_atom (mean_exp md) x) as [x'|]; [|discriminate Me].
    assert (e = FParen x') by congruence. subst e. inversion IV; inversion IG; inversion E; subst.
    apply (IH x'); auto. intros s w O. apply On. now constructor.
Qed.

(** Base dimensions and base units. *)
Lemma fields_are : fields = map (fun d => base_dimension_of (de_name d)) (filter is_base_dimension (u_dimensions (declared T))).
Proof.
  destruct (accepted_all X L env _ o (generated_ok_expand _ T) Run) as (_ & res & d8 & _ & _ & Eo & _).
  rewrite Eo. reflexivity.
Qed.
Lemma base_vector u d v : In u (u_units (declared T)) -> ue_definition u = DefBase d -> dim_result X L o d v ->
  weight v = ln (Q2R (V (ue_name u))).
Proof.
  intros Hu Ed Hv. pose proof (accepted_wf env T o Run) as W.
  destruct (wf_base _ _ W u d Hu Ed) as (e & He & En & Er).
  pose proof (C24_dimension_equations md env T o Lit Run (DDimension e)) as K.
  destruct K as (_ & _ & K). { unfold decls. apply in_app_iff. left. now apply in_map. }
  cbn [decl_name] in K. rewrite En in K. specialize (K v Hv). cbn [dim_equation] in K. rewrite Er, En in K.
  assert (Hf : In (base_dimension_of d) fields).
  { rewrite fields_are. apply in_map_iff. exists e. rewrite En. split; [reflexivity|]. apply filter_In. split; [exact He|].
    unfold is_base_dimension. now rewrite Er. }
  assert (Hb : base_size (base_dimension_of d) = Q2R (V (ue_name u))).
  { unfold base_size. destruct (find _ _) as [u'|] eqn:E.
    - apply find_some in E as [Hu' E]. destruct (ue_definition u') as [d'|] eqn:Ed'; [|discriminate E]. apply String.eqb_eq in E.
      destruct (wf_base _ _ W u' d' Hu' Ed') as (e' & He' & En' & Er').
      assert (e' = e).
      { pose proof N as N'. rewrite fields_are in N'. apply (name_eq _ _ _ _ N').
        - apply filter_In. split; [exact He'|]. unfold is_base_dimension. now rewrite Er'.
        - apply filter_In. split; [exact He|]. unfold is_base_dimension. now rewrite Er.
        - congruence. }
      assert (Edd : d' = d) by congruence. rewrite Edd in Ed'. now rewrite (wf_base_unique _ _ W u' u d Hu' Hu Ed' Ed).
    - exfalso. pose proof (find_none _ _ E u Hu) as F. cbn beta in F. rewrite Ed, String.eqb_refl in F. discriminate F. }
  rewrite <- Hb. clear -K Hf N. unfold EquivarianceFacts.weight.
  assert (Z0 : forall l, ~ In (base_dimension_of d) l -> fold_right (fun g acc => q (v g) * ln (base_size g) + acc)%R 0%R l = 0%R).
  { induction l as [|g l IH]; [reflexivity|]. cbn [fold_right]. intros H. rewrite IH by (intros H'; apply H; now right).
    rewrite K. destruct (String.eqb g (base_dimension_of d)) eqn:E; [exfalso; apply H; left; now apply String.eqb_eq|].
    replace (q 0%Qc) with 0%R; [ring|]. unfold q. cbn. unfold Q2R. cbn. lra. }
  revert Hf. induction fields as [|g l IH]; [intros []|]. cbn [fold_right]. inversion N as [|? ? Ng Nl]; subst. intros [->|Hf].
  - rewrite (Z0 l Ng), K, String.eqb_refl. replace (q 1%Qc) with 1%R; [ring|]. unfold q. cbn. unfold Q2R. cbn. lra.
  - rewrite (IH Nl Hf), K. destruct (String.eqb g (base_dimension_of d)) eqn:E.
    + apply String.eqb_eq in E. subst g. contradiction.
    + replace (q 0%Qc) with 0%R; [ring|]. unfold q. cbn. unfold Q2R. cbn. lra.
Qed.

(** The size of every name is its factor times the sizes of the base units, to the powers of its dimension. *)
Lemma scaled_sizes n v d : In (n, d) (file_defs f) -> dim_result X L o n v ->
  Q2R (V n) = (Q2R (G n) * exp (weight v))%R.
Proof.
  pose proof (accepted_wf env T o Run) as W. intros Hd.
  assert (Gr : grounded (declared T) n).
  { destruct (source_decl f T n d M Hd) as (x & Hx & <- & _). exact (wf_grounded _ _ W x Hx). }
  revert d Hd v. induction Gr as [y Hy _ IH]. intros d Hd v Hv.
  destruct (source_decl f T _ d M Hd) as (x & Hx & Ex & Nx & _ & Mx & _).
  apply (name_eq decl_name _ _ _ (wf_names _ _ W) Hx Hy) in Ex. subst y. clear Hy.
  destruct (C24_dimension_equations md env T o Lit Run x Hx) as (_ & _ & K). specialize (K v Hv).
  assert (On : forall s, in_def s d -> forall w, dim_result X L o s w -> Q2R (V s) = (Q2R (G s) * exp (weight w))%R).
  { intros s Hs w Hw. destruct (source_names env f T o M Run _ d s Hd Hs) as (d' & Hd'). exact (IH s (Mx s Hs) d' Hd' w Hw). }
  assert (Dx : exists def, corr md d def /\ match def with DefBase b => dim_result X L o b v | DefExpr e => ev_dim X L (fun n v => dim_result X L o n v) e v end /\
     (forall b, def = DefBase b -> exists u, In u (u_units (declared T)) /\ ue_definition u = DefBase b /\ ue_name u = decl_name x)).
  { destruct x as [e|u|c]; [destruct (Nx Logic.I)| |].
    - assert (Hu : In u (u_units (declared T))) by now apply (unit_decl X). pose proof Hu as Hu0.
      apply declared_units in Hu as (t & Ht & p & a & Hp & Ha & ->).
      destruct (unit_source md f T t p a M Ht Hp Ha) as (d' & Hd' & Co).
      change (decl_name (DUnit (variant t p a))) with (variant_name t p a) in *.
      assert (d' = d) by exact (one_source env f T o M Run _ _ _ Hd' Hd). subst d'.
      exists (variant_definition t p a). split; [exact Co|]. cbn [dim_equation ue_definition variant] in K. split.
      + destruct (variant_definition t p a) as [b|e]; exact K.
      + intros b Eb. exists (variant t p a). auto.
    - assert (Hc : In c (u_constants T)).
      { unfold decls in Hx. rewrite !in_app_iff, !in_map_iff in Hx.
        destruct Hx as [(z & E & _)|[(z & E & _)|(z & E & Hz)]]; [discriminate E|discriminate E|].
        assert (z = c) by congruence. now subst z. }
      destruct (constant_source md f T c M Hc) as (x' & Hd' & Mx'). change (decl_name (DConstant c)) with (ce_name c) in *.
      assert (d = XExpr x') by exact (one_source env f T o M Run _ _ _ Hd Hd'). subst d.
      exists (DefExpr (ce_rhs c)). split; [now constructor|]. split; [exact K|]. intros b E. discriminate E. }
  destruct Dx as (def & Co & Ev & Bu). clear K.
  destruct (HG _ d Hd) as (qG & IG & EG). rewrite (Qeq_eqR _ _ EG).
  destruct Co as [b|x' e Me|k i].
  - cbn [is_def] in IG. subst qG. destruct (Bu b eq_refl) as (u & Hu & Eu & <-).
    rewrite (base_vector u b v Hu Eu Ev). rewrite exp_ln.
    + unfold Q2R at 2. cbn. lra.
    + pose proof (proj1 HV _ (base_unit_source u b Hu Eu)) as K. apply Qlt_Rlt in K. now rewrite AccuracyFacts.Q2R_0 in K.
  - destruct (proj2 HV _ _ Hd ltac:(discriminate)) as (qV & IV & EV). rewrite (Qeq_eqR _ _ EV).
    apply (proj1 (eval_scaled (fun n v => dim_result X L o n v)) x' e); auto.
    intros s w O Hw. apply On; [|exact Hw]. cbn [in_def].
    exact (occurs_source x' e Me s O).
  - destruct (proj2 HV _ _ Hd ltac:(discriminate)) as (qV & IV & EV). rewrite (Qeq_eqR _ _ EV). cbn [is_def] in IV, IG. subst qV qG.
    rewrite !Q2R_mult. inversion Ev as [|? ? v1 v2 ? E1 E2 E3|]; subst. inversion E1; subst. inversion E2; subst.
    match goal with H : fev_dim _ _ _ (FVal (Concrete _)) _ |- _ => inversion H; subst end.
    rewrite (On i eq_refl v2) by assumption. rewrite (weight_ext v v2); [ring|].
    intros b. rewrite E3. match goal with H : forall b, v1 b = 0%Qc |- _ => rewrite H end. ring.
Qed.
End Accepted.
End Mode.
