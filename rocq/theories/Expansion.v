(** * Prefixes, aliases, base units and annotations: consequences of the definitions *)
From Coq Require Import String List Bool ZArith QArith Qcanon Lia Permutation Sorted Reals.
From Flocq Require Import Core.Core IEEE754.Binary IEEE754.Bits.
From Verif Require Import MachineInt Ratio F64 DecimalFacts Magnitude MagnitudeFacts Exponent
  ExponentFacts SMap Expression DimensionMath DimensionMathFacts Types Snake Resolve ResolveLoop
  ResolveChecks SystemSpec ResolveFacts ResolveAccept ResolveEquations.
Import ListNotations.
Local Open Scope list_scope.
Local Open Scope Z_scope.

(** ** Prefixes *)

Lemma all_prefixes_complete p : In p all_prefixes.
Proof. destruct p; simpl; tauto. Qed.

Lemma prefix_eqb_eq p q : prefix_eqb p q = true <-> p = q.
Proof. destruct p, q; simpl; split; intros; congruence. Qed.

Lemma metric_prefixes_In skip p : In p (metric_prefixes skip) <-> ~ In p skip.
Proof.
  unfold metric_prefixes. rewrite filter_In, negb_true_iff. split.
  - intros [_ H] Hin. assert (E : existsb (prefix_eqb p) skip = true).
    { apply existsb_exists. exists p. split; auto. now apply prefix_eqb_eq. }
    congruence.
  - intros H. split; [apply all_prefixes_complete|].
    destruct (existsb (prefix_eqb p) skip) eqn:E; auto. exfalso. apply H.
    apply existsb_exists in E as (q & Hq & E). apply prefix_eqb_eq in E. now subst.
Qed.

Lemma sorted_filter {A} (R : A -> A -> Prop) (f : A -> bool) l :
  StronglySorted R l -> StronglySorted R (filter f l).
Proof.
  induction 1 as [|x l S IH F]; simpl; [constructor|]. destruct (f x); auto. constructor; auto.
  rewrite Forall_forall in *. intros y Hy. apply F. now apply filter_In in Hy.
Qed.

Lemma metric_prefixes_sorted skip :
  StronglySorted (fun p q => prefix_decimal q < prefix_decimal p) (metric_prefixes skip).
Proof.
  unfold metric_prefixes. apply sorted_filter. unfold all_prefixes.
  repeat (constructor; [|repeat (constructor; [simpl; lia|]); constructor]). constructor.
Qed.

Lemma prefix_names_distinct p q : prefix_name p = prefix_name q -> p = q.
Proof. destruct p, q; simpl; intros; congruence. Qed.
Lemma prefix_symbols_distinct p q : prefix_short p = prefix_short q -> p = q.
Proof. destruct p, q; simpl; intros; congruence. Qed.
Lemma prefix_decimals_distinct p q : prefix_decimal p = prefix_decimal q -> p = q.
Proof. destruct p, q; simpl; intros; congruence. Qed.

(** A finite double whose exponent field is at least [lo + 52] survives the encoding. *)
Definition expo_ge (k : Z) (x : f64) : bool :=
  match x with B754_finite _ _ _ _ e _ => k <=? e | _ => false end.

Lemma expo_ge_stable lo x : expo_ge (lo + 52) x = true -> stable lo x.
Proof.
  destruct x as [| | |s m e H]; simpl; try discriminate. intros He. apply Z.leb_le in He.
  split; [reflexivity|right]. cbn [B2R]. rewrite <- F2R_Zabs. rewrite abs_cond_Zopp. simpl Z.abs.
  eapply Rle_trans; [apply bpow_le; exact He|].
  rewrite <- F2R_bpow. apply F2R_le. lia.
Qed.

Lemma expo_ge_weak k k' x : (k' <= k)%Z -> expo_ge k x = true -> expo_ge k' x = true.
Proof. destruct x; simpl; try discriminate. intros H E. apply Z.leb_le in E. apply Z.leb_le. lia. Qed.

Lemma prefix_expo p : expo_ge (-112) (f64_of_decimal 1 (prefix_decimal p)) = true.
Proof. destruct p; vm_compute; reflexivity. Qed.

Lemma prefix_stable lo p : lo <= -164 -> stable lo (f64_of_decimal 1 (prefix_decimal p)).
Proof.
  intros Hlo. apply expo_ge_stable. apply (expo_ge_weak (-112)); [lia|apply prefix_expo].
Qed.

Lemma prefix_factor_value env lo p :
  -1074 <= lo <= -164 -> powi_from lo (f_powi env) ->
  into_f64 env (prefix_factor p) = f64_of_decimal 1 (prefix_decimal p).
Proof.
  intros Hlo Hp. unfold prefix_factor. apply (roundtrip_stable env lo); auto; [lia|].
  apply prefix_stable. lia.
Qed.

(** ** The list of expanded units *)

Lemma nth_error_flat_map {A B C} (f : A -> B -> C) (lb : list B) (la : list A) i j :
  (j < length lb)%nat ->
  nth_error (flat_map (fun a => map (f a) lb) la) (i * length lb + j) =
  match nth_error la i, nth_error lb j with
  | Some a, Some b => Some (f a b)
  | _, _ => None
  end.
Proof.
  intros Hj. revert i. induction la as [|a la IH]; intros i.
  - simpl. destruct (i * length lb + j)%nat; destruct i; reflexivity.
  - simpl flat_map. destruct i as [|i].
    + simpl. rewrite nth_error_app1 by now rewrite map_length.
      rewrite nth_error_map. destruct (nth_error lb j); reflexivity.
    + rewrite nth_error_app2 by (rewrite map_length; simpl; lia).
      rewrite map_length. replace (S i * length lb + j - length lb)%nat with (i * length lb + j)%nat
        by (simpl; lia).
      rewrite IH. reflexivity.
Qed.

Lemma nth_error_opts {A} (l : list A) i :
  (i <= length l)%nat -> nth_error (map Some l ++ [None]) i = Some (nth_error l i).
Proof.
  intros H. destruct (Nat.eq_dec i (length l)) as [->|Hn].
  - rewrite nth_error_app2 by (rewrite map_length; lia). rewrite map_length, Nat.sub_diag. simpl.
    f_equal. symmetry. apply nth_error_None. lia.
  - rewrite nth_error_app1 by (rewrite map_length; lia). rewrite nth_error_map.
    destruct (nth_error l i) eqn:E; auto. apply nth_error_None in E. lia.
Qed.

Section Exp.
Context (X : exp_ops).

Lemma expand_length (t : unit_template X) :
  length (expand t) = ((length (ut_prefixes t) + 1) * (length (ut_aliases t) + 1))%nat.
Proof.
  unfold expand. generalize (ut_prefixes t) as ps. intros ps.
  assert (E : length (map Some (ut_aliases t) ++ [None]) = (length (ut_aliases t) + 1)%nat)
    by (rewrite app_length, map_length; reflexivity).
  assert (F : forall l, length (flat_map (fun p => map (fun a => expand_one t p a)
                (map Some (ut_aliases t) ++ [None])) l) = (length l * (length (ut_aliases t) + 1))%nat).
  { induction l as [|p l IH]; simpl; auto. rewrite app_length, map_length, E, IH. lia. }
  rewrite F, app_length, map_length. reflexivity.
Qed.

Lemma expand_nth (t : unit_template X) i j :
  (i <= length (ut_prefixes t))%nat -> (j <= length (ut_aliases t))%nat ->
  nth_error (expand t) (i * (length (ut_aliases t) + 1) + j) =
  Some (expand_one t (nth_error (ut_prefixes t) i) (nth_error (ut_aliases t) j)).
Proof.
  intros Hi Hj. unfold expand.
  assert (E : length (map Some (ut_aliases t) ++ [None]) = (length (ut_aliases t) + 1)%nat)
    by (rewrite app_length, map_length; reflexivity).
  rewrite <- E. rewrite (nth_error_flat_map (fun p a => expand_one t p a)) by (rewrite E; lia).
  rewrite !nth_error_opts by lia. reflexivity.
Qed.
End Exp.

(** ** Encoded literals and stable factors *)

Section Stable.
Context (X : exp_ops) (L : exp_laws X) (env : fenv).
Notation sys := (unresolved X (unit_entry X)).
Notation dm := (dimmag X).

(** Numbers in definitions are doubles ([Magnitude::from_f64] in the parser). *)
Definition literals_encoded (S : sys) : Prop :=
  (forall u e c, In u (u_units S) -> ue_definition u = DefExpr e -> In (Concrete c) (expr_vals e) -> encoded c) /\
  (forall k c, In k (u_constants S) -> In (Concrete c) (expr_vals (ce_rhs k)) -> encoded c).

Hypothesis pow_encoded : forall m p, encoded (e_float_pow X env m p).

Lemma eval_encoded_mut lk :
  (forall e : expr (fac dm) X, (forall f d, In f (expr_vals e) -> lk f = Some d -> encoded (dm_mag d)) ->
     forall d, eval_with X env lk e = Some d -> encoded (dm_mag d)) /\
  (forall v : factor (fac dm) X, (forall f d, In f (factor_vals v) -> lk f = Some d -> encoded (dm_mag d)) ->
     forall d, feval_with X env lk v = Some d -> encoded (dm_mag d)).
Proof.
  apply expr_factor_ind.
  - intros f IH HP d H. apply IH; auto.
  - intros l IHl r IHr op HP d H. rewrite eval_bin in H.
    destruct (eval_with X env lk l) as [a|]; [|discriminate].
    destruct (feval_with X env lk r) as [b|]; [|discriminate].
    destruct op; unfold dm_mul, dm_div in H.
    + destruct (bd_mul X (dm_dims a) (dm_dims b)) as [c|]; [|discriminate].
      assert (E : dm_mag d = mag_mul env (dm_mag a) (dm_mag b)) by (inversion H; reflexivity).
      rewrite E. unfold mag_mul. eexists; reflexivity.
    + destruct (bd_div X (dm_dims a) (dm_dims b)) as [c|]; [|discriminate].
      assert (E : dm_mag d = mag_div env (dm_mag a) (dm_mag b)) by (inversion H; reflexivity).
      rewrite E. unfold mag_div. eexists; reflexivity.
  - intros t HP d H. apply (HP t); auto. now left.
  - intros t e HP d H. cbn [feval_with] in H. destruct (lk t) as [a|]; [|discriminate].
    unfold dm_pow in H. destruct (bd_pow X (dm_dims a) e) as [c|]; [|discriminate].
    assert (E : dm_mag d = e_float_pow X env (dm_mag a) e) by (inversion H; reflexivity).
    rewrite E. apply pow_encoded.
  - intros x IH HP d H. apply IH; auto.
Qed.

Lemma iden_encoded (S : sys) n d :
  literals_encoded S -> iden X env (items_of X S) n d -> encoded (dm_mag d).
Proof.
  intros [HU HC] H. induction H as [i lk d Hi Hlk IH He].
  rewrite items_of_decls in Hi. apply in_map_iff in Hi as (x & <- & Hx).
  apply (proj1 (eval_encoded_mut (look X lk)) (it_expr (item_of X x))); auto.
  intros [c|m] d' Hf E; cbn [look] in E.
  - assert (Ec : d' = c) by congruence. subst d'.
    destruct x as [dd|u|k]; cbn [item_of it_expr item_of_dimension item_of_unit item_of_constant] in Hf.
    + destruct (de_rhs dd) as [[]|e].
      * destruct Hf as [Ef|[]]. assert (Ec : c = dm_of_dimensions X (bd_for_base X (base_dimension_of (de_name dd)))) by congruence.
        rewrite Ec. eexists; reflexivity.
      * rewrite (proj1 (vals_map_mut X _)) in Hf. apply in_map_iff in Hf as ([y|y] & Ey & _); [|discriminate].
        assert (Ec : c = dm_of_dimensions X (bd_none X)) by (cbn [map_concrete] in Ey; congruence).
        rewrite Ec. eexists; reflexivity.
    + destruct (ue_definition u) as [dim|e] eqn:Ed.
      * destruct Hf as [Ef|[]]. discriminate.
      * rewrite (proj1 (vals_map_mut X _)) in Hf. apply in_map_iff in Hf as ([y|y] & Ey & Hy); [|discriminate].
        assert (Ec : c = dm_of_magnitude X y) by (cbn [map_concrete] in Ey; congruence).
        rewrite Ec. cbn [dm_mag dm_of_magnitude]. apply (HU u e y); auto. now apply unit_decl.
    + rewrite (proj1 (vals_map_mut X _)) in Hf. apply in_map_iff in Hf as ([y|y] & Ey & Hy); [|discriminate].
      assert (Ec : c = dm_of_magnitude X y) by (cbn [map_concrete] in Ey; congruence).
      rewrite Ec. cbn [dm_mag dm_of_magnitude]. apply (HC k y); auto. now apply constant_decl.
  - assert (Ec : d' = lk m) by congruence. rewrite Ec. apply IH. now apply others_vals.
Qed.

(** Every factor of an accepted system survives the encoding. *)
Lemma results_stable lo (S : sys) o n f :
  -1074 <= lo <= -52 -> powi_from lo (f_powi env) ->
  generated_ok X S -> literals_encoded S -> resolve X env S = Some (o, []) ->
  fac_result X env o n f -> stable lo f.
Proof.
  intros Hlo Hp G LE R Hf. destruct (accepted_all X L env S o G R) as (WF & res & d8 & Hall & H4 & -> & All).
  apply (fac_result_iff X env S res d8) in Hf as (r & x & Hr & Hx & _ & _ & <-); auto.
  destruct (resolved_entry X env _ _ _ _ _ Hall Hr) as (_ & _ & D).
  apply (iden_encoded S) in D; auto. destruct D as [g E]. rewrite E. now apply decoded_stable.
Qed.

(** ** Aliases and prefixed units *)

Lemma expanded_In (T : unresolved X (unit_template X)) t p a :
  In t (u_units T) -> (p = None \/ exists q, p = Some q /\ In q (ut_prefixes t)) ->
  (a = None \/ exists b, a = Some b /\ In b (ut_aliases t)) ->
  In (DUnit (expand_one t p a)) (decls (expand_templates T)).
Proof.
  intros Ht Hp Ha. apply unit_decl. simpl. apply in_flat_map. exists t. split; auto.
  apply expand_In. eauto.
Qed.

Section Factor.
Context (powf : f64 -> X -> f64).
Hypothesis powf_law : forall m p, into_f64 env (e_float_pow X env m p) = powf (into_f64 env m) p.

(** The generated unit has the dimension of the unit it comes from. *)
Lemma generated_dim (T : unresolved X (unit_template X)) o t p a v :
  exponents_valid X L (expand_templates T) ->
  run_unit_system X env T = Some (o, []) -> In t (u_units T) ->
  (p = None \/ exists q, p = Some q /\ In q (ut_prefixes t)) ->
  (a = None \/ exists b, a = Some b /\ In b (ut_aliases t)) ->
  dim_result X L o (format_name t p a) v <-> dim_result X L o (ut_name t) v.
Proof.
  intros V R Ht Hp Ha. pose proof (generated_ok_expand X T) as G. unfold run_unit_system in R.
  destruct (accepted_all X L env _ o G R) as (WF & res & d8 & Hall & H4 & Eo & All).
  assert (Hpl : In (DUnit (expand_one t None None)) (decls (expand_templates T)))
    by (apply expanded_In; auto).
  pose proof (expanded_In T t p a Ht Hp Ha) as Hx.
  destruct p as [q|], a as [b|]; try tauto.
  all: destruct (dim_equations X L env _ o G V R _ Hx) as [[w Hw] Heq]; cbn [decl_name ue_name expand_one] in *.
  all: pose proof (Heq w Hw) as E; unfold dim_equation in E; cbn [expand_one ue_definition get_definition] in E.
  all: inversion E as [|l r v1 v2 v0 E1 E2 Es|]; subst.
  all: inversion E1 as [f v3 E1'| |]; subst; inversion E1' as [c v4 Hz| | | |]; subst.
  all: inversion E2 as [|n v5 Hn| | |]; subst.
  all: assert (Eq : forall b0, w b0 = v2 b0) by (intros b0; rewrite Es, Hz; ring).
  all: assert (EXT : forall n0 v w, dim_result X L (out_of X (expand_templates T) res) n0 v -> (forall b, v b = w b) ->
         dim_result X L (out_of X (expand_templates T) res) n0 w) by (apply (R_dim_ext X L env _ res d8 H4)).
  all: split; intros Hv.
  all: try (eapply EXT; [exact Hn|]; intros b0; rewrite <- Eq;
            apply (dim_result_functional X L env _ _ _ _ _ _ R Hw Hv)).
  all: eapply EXT; [exact Hw|]; intros b0; rewrite Eq;
       apply (dim_result_functional X L env _ _ _ _ _ _ R Hn Hv).
Qed.

(** Its factor is the prefix' factor times the unit's, rounded once. *)
Lemma generated_fac lo (T : unresolved X (unit_template X)) o t p a f g :
  -1074 <= lo <= -164 -> powi_from lo (f_powi env) ->
  run_unit_system X env T = Some (o, []) -> In t (u_units T) ->
  In p (ut_prefixes t) -> (a = None \/ exists b, a = Some b /\ In b (ut_aliases t)) ->
  fac_result X env o (format_name t (Some p) a) f -> fac_result X env o (ut_name t) g ->
  f = stored env (f64_mul (f64_of_decimal 1 (prefix_decimal p)) g).
Proof.
  intros Hlo Hp R Ht Hpr Ha Hf Hg. pose proof (generated_ok_expand X T) as G. unfold run_unit_system in R.
  assert (Hx : In (DUnit (expand_one t (Some p) a)) (decls (expand_templates T)))
    by (apply expanded_In; eauto).
  assert (Hlo' : -1074 <= lo <= -52) by lia.
  destruct (fac_equations X L env powf lo _ o powf_law Hlo' Hp G R _ Hx (fun H => H)) as [_ Heq].
  specialize (Heq f Hf). unfold fac_equation in Heq.
  assert (E : ev_fac X env powf (fac_result X env o)
    (EBin (EVal (FVal (Concrete (prefix_factor p)))) (FVal (Other (ut_name t))) OMul) f)
    by (destruct a; exact Heq).
  inversion E as [|l r v1 v2 E1 E2|]; subst.
  inversion E1 as [f' v3 E1'| |]; subst; inversion E1'; subst. inversion E2; subst.
  rewrite (prefix_factor_value env lo) by auto.
  match goal with H : fac_result X env o (ut_name t) ?v |- _ =>
    rewrite (fac_result_functional X env _ _ _ _ _ _ R H Hg) end.
  reflexivity.
Qed.

Lemma alias_fac lo (T : unresolved X (unit_template X)) o t a f :
  -1074 <= lo <= -52 -> powi_from lo (f_powi env) -> literals_encoded (expand_templates T) ->
  run_unit_system X env T = Some (o, []) -> In t (u_units T) -> In a (ut_aliases t) ->
  fac_result X env o a f <-> fac_result X env o (ut_name t) f.
Proof.
  intros Hlo Hp LE R Ht Ha. pose proof (generated_ok_expand X T) as G. unfold run_unit_system in R.
  assert (Hx : In (DUnit (expand_one t None (Some a))) (decls (expand_templates T)))
    by (apply expanded_In; eauto).
  assert (Hpl : In (DUnit (expand_one t None None)) (decls (expand_templates T)))
    by (apply expanded_In; auto).
  destruct (fac_equations X L env powf lo _ o powf_law Hlo Hp G R _ Hx (fun H => H)) as [[h Hh] Heq].
  destruct (fac_equations X L env powf lo _ o powf_law Hlo Hp G R _ Hpl (fun H => H)) as [[g Hg] _].
  pose proof (Heq h Hh) as E. unfold fac_equation in E. cbn [decl_name ue_name expand_one format_name ue_definition get_definition] in *.
  inversion E as [|l r v1 v2 E1 E2|]; subst.
  inversion E1 as [f' v3 E1'| |]; subst; inversion E1'; subst. inversion E2; subst.
  match goal with H : fac_result X env o (ut_name t) ?v |- _ =>
    match v with v2 => pose proof (fac_result_functional X env _ _ _ _ _ _ R H Hg) as Ev end end. subst v2.
  assert (St : stable lo g) by (apply (results_stable lo (expand_templates T) o (ut_name t) g); auto).
  assert (Eg : stored env (f64_mul (into_f64 env (from_f64 f64_one)) g) = g).
  { unfold stored. rewrite (roundtrip_stable env lo f64_one) by (auto; apply one_stable; lia).
    rewrite f64_one_mul by apply St. now apply (roundtrip_stable env lo). }
  rewrite Eg in Hh. split; intros H.
  - rewrite (fac_result_functional X env _ _ _ _ _ _ R H Hh). exact Hg.
  - rewrite (fac_result_functional X env _ _ _ _ _ _ R H Hg). exact Hh.
Qed.

(** A base unit has factor one and the unit vector as dimension. *)
Lemma base_unit_result lo (S : sys) o u d v f :
  -1074 <= lo <= -52 -> powi_from lo (f_powi env) ->
  generated_ok X S -> exponents_valid X L S -> resolve X env S = Some (o, []) ->
  In u (u_units S) -> base_unit_of u d ->
  dim_result X L o (ue_name u) v -> fac_result X env o (ue_name u) f ->
  f = f64_one /\
  forall b, v b = if String.eqb b (base_dimension_of d) then 1%Qc else 0%Qc.
Proof.
  intros Hlo Hp G V R Hu Hb Hv Hf. unfold base_unit_of in Hb.
  destruct (accepted_all X L env S o G R) as (WF & _).
  destruct (wf_base _ _ WF u d Hu Hb) as (D & HD & ND & BD).
  apply unit_decl in Hu. apply dimension_decl in HD.
  pose proof (proj2 (fac_equations X L env powf lo S o powf_law Hlo Hp G R _ Hu (fun H => H)) f Hf) as Ef.
  pose proof (proj2 (dim_equations X L env S o G V R _ Hu) v Hv) as Ev.
  unfold fac_equation in Ef. unfold dim_equation in Ev. rewrite Hb in Ef, Ev. split; auto.
  rewrite <- ND in Ev.
  pose proof (proj2 (dim_equations X L env S o G V R _ HD) v Ev) as ED.
  unfold dim_equation in ED. rewrite BD, ND in ED. exact ED.
Qed.
End Factor.
End Stable.

(** ** Annotations *)

Section Annotations.
Context (X : exp_ops) (L : exp_laws X) (env : fenv).
Notation sys := (unresolved X (unit_entry X)).

Lemma fields_dim (S : sys) o x d :
  fields_of o x d -> dim_result X L o (decl_name x) (vec_of X L d).
Proof.
  assert (V : forall (d : bdims X), vec_is X L d (vec_of X L d)) by (intros d'; apply vec_is_iff; auto).
  destruct x as [e|e|e]; simpl; intros (y & Hy & <- & <-).
  - left. exists y. auto.
  - right; left. exists y. auto.
  - right; right. exists y. auto.
Qed.

Lemma dimension_wf (S : sys) o ds D :
  resolve X env S = Some (o, ds) -> In D (df_dimensions o) -> wf (d_dims D).
Proof.
  intros R HD. apply resolve_some in R as (res & d8 & Hres & -> & _).
  pose proof (resolved_wf X env _ _ _ Hres) as W.
  apply get_dimensions_In in HD as (n & r & e & Hr & Et & ->); auto. simpl.
  destruct (resolved_entry X env _ _ _ _ _ Hres Hr) as (_ & _ & De).
  apply (iden_incl X env _ (items_of X S)) in De; [|apply U4_sub]. eapply iden_wf; eauto.
Qed.

Lemma fields_wf (S : sys) o ds x d :
  resolve X env S = Some (o, ds) -> fields_of o x d -> wf d.
Proof.
  intros R H. apply resolve_some in R as (res & d8 & Hres & -> & _).
  pose proof (resolved_wf X env _ _ _ Hres) as W.
  assert (K : forall n r, sget n res = Some r -> wf (dm_dims (ri_dims r))).
  { intros n r Hr. destruct (resolved_entry X env _ _ _ _ _ Hres Hr) as (_ & _ & De).
    apply (iden_incl X env _ (items_of X S)) in De; [|apply U4_sub]. eapply iden_wf; eauto. }
  destruct x as [e|e|e]; simpl in H; destruct H as (y & Hy & _ & <-).
  - apply get_dimensions_In in Hy as (n & r & e' & Hr & _ & ->); auto. simpl. eauto.
  - apply get_units_In in Hy as (n & r & e' & Hr & _ & ->); auto. simpl. eauto.
  - apply get_constants_In in Hy as (n & r & e' & Hr & _ & ->); auto. simpl. eauto.
Qed.

(** Where the annotation's exponent is not zero, the annotated item has the same exponent. *)
Lemma annotation_nonzero (S : sys) o x a :
  generated_ok X S -> resolve X env S = Some (o, []) ->
  In x (decls S) -> annotation x = Some a ->
  exists v w, dim_result X L o a v /\ dim_result X L o (decl_name x) w /\
    forall b, v b <> 0%Qc -> w b = v b.
Proof.
  intros G R Hx Ha.
  destruct (proj1 (accept_iff X L env S o [] G R) eq_refl) as [WF HA].
  destruct (HA x Hx a Ha) as (D & dx & HD & ND & Hf & Hsub).
  exists (vec_of X L (d_dims D)), (vec_of X L dx). split.
  - left. exists D. repeat split; auto. apply vec_is_iff; auto.
  - split; [now apply (fields_dim S)|]. intros b Hb. unfold vec_of in *.
    destruct (sget b (d_dims D)) as [e|] eqn:E; [|now rewrite ZQc_0 in Hb].
    apply sget_In in E. apply Hsub in E. apply In_sget in E; [now rewrite E|].
    eapply fields_wf; eauto.
Qed.

(** If the annotation records no zero exponents and the dimensions agree, no diagnostic follows
    from the annotation. *)
Lemma annotation_true_accepted (S : sys) o ds x a D :
  generated_ok X S -> exponents_valid X L S -> resolve X env S = Some (o, ds) ->
  annotation x = Some a -> In D (df_dimensions o) -> d_name D = a ->
  (forall b e, In (b, e) (d_dims D) -> l_val X L e <> 0%Qc) ->
  (exists dx, fields_of o x dx /\ forall b, vec_of X L dx b = vec_of X L (d_dims D) b) ->
  annotation_accepted o x.
Proof.
  intros G V R Ha HD ND HZ (dx & Hf & Hv) a' Ha'. assert (a' = a) by congruence. subst a'.
  exists D, dx. repeat split; auto. intros b e Hin.
  pose proof (dimension_wf S o ds D R HD) as WD. pose proof (fields_wf S o ds x dx R Hf) as Wx.
  assert (Hb : vec_of X L (d_dims D) b = l_val X L e) by (unfold vec_of; now rewrite (In_sget _ _ _ WD Hin)).
  rewrite <- Hv in Hb. unfold vec_of in Hb. destruct (sget b dx) as [e'|] eqn:E.
  2: { exfalso. apply (HZ b e Hin). rewrite <- Hb. apply ZQc_0. }
  apply sget_In. rewrite E. f_equal. apply (l_inj X L); auto.
  - (* both come from resolved values *)
    apply resolve_some in R as (res & d8 & Hres & Eo & _). subst o.
    pose proof (resolved_wf X env _ _ _ Hres) as W.
    assert (K : forall n r, sget n res = Some r -> bd_ok X L (dm_dims (ri_dims r))).
    { intros n r Hr. destruct (resolved_entry X env _ _ _ _ _ Hres Hr) as (_ & _ & De).
      apply (iden_incl X env _ (items_of X S)) in De; [|apply U4_sub]. eapply iden_ok; eauto. }
    assert (O : bd_ok X L dx).
    { destruct x as [y|y|y]; simpl in Hf; destruct Hf as (z & Hz & _ & <-).
      - apply get_dimensions_In in Hz as (n & r & e0 & Hr & _ & ->); auto. simpl. eauto.
      - apply get_units_In in Hz as (n & r & e0 & Hr & _ & ->); auto. simpl. eauto.
      - apply get_constants_In in Hz as (n & r & e0 & Hr & _ & ->); auto. simpl. eauto. }
    eapply bd_ok_get; eauto.
  - apply resolve_some in R as (res & d8 & Hres & Eo & _). subst o.
    pose proof (resolved_wf X env _ _ _ Hres) as W.
    apply get_dimensions_In in HD as (n & r & e0 & Hr & _ & ->); auto. simpl in *.
    destruct (resolved_entry X env _ _ _ _ _ Hres Hr) as (_ & _ & De).
    apply (iden_incl X env _ (items_of X S)) in De; [|apply U4_sub].
    apply (iden_ok X L) in De; auto. apply In_sget in Hin; auto. eapply bd_ok_get; eauto.
Qed.
End Annotations.

(** Powers produce encoded factors in both builds. *)
Lemma pow_encoded_int m env x p : encoded (e_float_pow (int_exp m) env x p).
Proof. eexists; reflexivity. Qed.
Lemma pow_encoded_rat m env x p : encoded (e_float_pow (rat_exp m) env x p).
Proof. eexists; reflexivity. Qed.
