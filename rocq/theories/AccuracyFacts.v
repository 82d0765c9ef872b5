(** * The factors of an accepted system against the exact values of its source *)
From Coq Require Import String List Bool ZArith QArith Qreals Reals Lra Lia.
From Flocq Require Import Core IEEE754.Binary IEEE754.Bits.
From Verif Require Import MachineInt Ratio F64 FloatOps DecimalFacts NumericFacts FloatFacts Magnitude MagnitudeFacts
  Exponent ExponentFacts Expression Types PrefixSpec ExpansionSpec Resolve SystemSpec ResolveFacts
  ResolveEquations ResolveAccept Expansion Setting SystemFacts PropertiesSystem
  Parse Grammar ParseFacts ParsedSystems Accuracy RoundingSpec RoundingFacts.
From Verif Require SupersetFacts PropertiesSerde.
Import ListNotations.
Close Scope Q_scope. Close Scope R_scope.
Local Open Scope list_scope.

Lemma Q2R_power_pos q p : Q2R (Qpower_positive q p) = (Q2R q ^ Pos.to_nat p)%R.
Proof.
  unfold Qpower_positive. induction p as [p IH|p IH|].
  - change (pow_pos Qmult q p~1) with (Qmult q (Qmult (pow_pos Qmult q p) (pow_pos Qmult q p))).
    rewrite !Q2R_mult, IH, Pos2Nat.inj_xI. cbn [Rpow_def.pow]. f_equal.
    replace (2 * Pos.to_nat p)%nat with (Pos.to_nat p + Pos.to_nat p)%nat by lia. now rewrite pow_add.
  - change (pow_pos Qmult q p~0) with (Qmult (pow_pos Qmult q p) (pow_pos Qmult q p)).
    rewrite !Q2R_mult, IH, Pos2Nat.inj_xO.
    replace (2 * Pos.to_nat p)%nat with (Pos.to_nat p + Pos.to_nat p)%nat by lia. now rewrite pow_add.
  - cbn [pow_pos]. now rewrite Pos2Nat.inj_1, pow_1.
Qed.
Lemma Q2R_0 : Q2R 0 = 0%R.
Proof. unfold Q2R. cbn. lra. Qed.
Lemma nonzero q : Q2R q <> 0%R -> ~ (q == 0)%Q.
Proof. intros H E. apply H. apply Qeq_eqR in E. now rewrite E, Q2R_0. Qed.
Lemma Q2R_power q z : Q2R q <> 0%R -> Q2R (q ^ z) = powerRZ (Q2R q) z.
Proof.
  intros H. destruct z as [|p|p]; cbn [Qpower powerRZ].
  - unfold Q2R. cbn. lra.
  - apply Q2R_power_pos.
  - rewrite Q2R_inv, Q2R_power_pos; [reflexivity|]. apply nonzero. rewrite Q2R_power_pos. now apply pow_nonzero.
Qed.

Lemma moderate_nonzero q : moderate q -> Q2R q <> 0%R.
Proof. intros [H _] E. rewrite E, Rabs_R0 in H. pose proof (bpow_gt_0 radix2 (-900)). lra. Qed.
Lemma moderate_wide q : moderate q -> (bpow radix2 (-1009) <= Rabs (Q2R q) <= bpow radix2 1009)%R.
Proof. intros [L H]. split; [eapply Rle_trans; [|exact L]|eapply Rle_trans; [exact H|]]; apply bpow_le; lia. Qed.
Lemma moderate_eq q q' : (q == q')%Q -> moderate q -> moderate q'.
Proof. intros E H. unfold moderate in *. now rewrite <- (Qeq_eqR _ _ E). Qed.
Definition small (m : nat) : Prop := (Z.of_nat m <= 2 ^ 40)%Z.

Lemma nearest_approx r x : wide r -> nearest r x -> approx 1 r x.
Proof.
  intros W H. apply wide_range in W. unfold nearest in H.
  rewrite Rlt_bool_true in H by exact (rnd_small 53 1024 eq_refl eq_refl r W). destruct H as [F E]. split; [exact F|].
  destruct (rnd_error 53 1024 eq_refl r W) as (e & Be & Ee). rewrite E. unfold rnd64. 
  match goal with |- near 1 r ?y => replace y with (r * (1 + e))%R by (rewrite <- Ee; reflexivity) end.
  apply near_round. exact Be.
Qed.
Lemma Q2R_pow10 k : Q2R ((10 # 1) ^ k) = powerRZ 10 k.
Proof.
  assert (E : Q2R (10 # 1) = 10%R) by (unfold Q2R; cbn; lra).
  rewrite Q2R_power by (rewrite E; lra). now rewrite E.
Qed.
Lemma lit_approx l v : mean_number l = Some v -> moderate (lit_Q l) -> approx 1 (Q2R (lit_Q l)) v.
Proof.
  intros H M. apply moderate_wide in M as W.
  assert (W' : wide (Q2R (lit_Q l))).
  { destruct W as [A B]. split; [eapply Rle_trans; [|exact A]|eapply Rle_trans; [exact B|]]; apply bpow_le; lia. }
  destruct l as [neg n|neg d k]; cbn [mean_number lit_Q] in *.
  - destruct (is_i64 (signed neg n)); [|discriminate H]. apply nearest_approx; [exact W'|].
    rewrite Q2R_inject. replace v with (f64_of_Z (signed neg n)) by congruence. apply f64_of_Z_nearest.
  - rewrite Q2R_mult, Q2R_inject, Q2R_pow10 in *.
    assert (D : nearest (IZR (Z.of_N d) * powerRZ 10 k) (f64_of_decimal (Z.of_N d) k)) by (apply f64_of_decimal_nearest; lia).
    destruct neg; cbn [signed] in *.
    + assert (W2 : wide (IZR (Z.of_N d) * powerRZ 10 k)).
      { rewrite opp_IZR, Ropp_mult_distr_l_reverse in W'. unfold wide in W'. now rewrite Rabs_Ropp in W'. }
      destruct (nearest_approx _ _ W2 D) as [F (t & B & E)].
      replace v with (b64_opp (f64_of_decimal (Z.of_N d) k)) by congruence. split.
      * unfold b64_opp. now rewrite is_finite_Bopp.
      * exists t. split; [exact B|]. unfold b64_opp. rewrite B2R_Bopp, E, opp_IZR. ring.
    + replace v with (f64_of_decimal (Z.of_N d) k) by congruence. now apply nearest_approx.
Qed.

Section Env.
Context (k : mode) (env : fenv) (lo : Z).
Hypothesis Plat : good_platform env lo.
Hypothesis Low : (lo <= -953)%Z.
Hypothesis Acc : accurate_pow k env.

Lemma stored_same m q v : small m -> moderate q -> approx m (Q2R q) v -> stored env v = v.
Proof.
  intros Hm [L _] [F N]. destruct Plat as [Hlo Hp]. unfold stored. apply (roundtrip_stable env lo); [lia|exact Hp|].
  split.
  - destruct v; try reflexivity; discriminate F.
  - right. pose proof (near_bounds m _ _ ltac:(unfold small in Hm; lia) N) as [B _].
    apply Rle_trans with (bpow radix2 (-901)); [apply bpow_le; lia|].
    eapply Rle_trans; [|exact B]. change (-900)%Z with (1 + -901)%Z in L. rewrite bpow_plus in L.
    change (bpow radix2 1) with 2%R in L. lra.
Qed.

Scheme rounds_x_ind2 := Induction for rounds_x Sort Prop
  with rounds_f_ind2 := Induction for rounds_f Sort Prop.
Combined Scheme rounds_ind from rounds_x_ind2, rounds_f_ind2.

Lemma rounds_moderate G C :
  (forall x q n, rounds_x G C x q n -> moderate q) /\ (forall f q n, rounds_f G C f q n -> moderate q).
Proof. apply (rounds_ind G C (fun x q n _ => moderate q) (fun f q n _ => moderate q)); auto. Qed.

Notation X := (ops k).
Context (G : ident -> Q) (C : ident -> nat).
Hypothesis Few : forall s, small (C s).

Lemma exp_whole e z p : exp_Z e = Some z -> mean_exp k e = Some p ->
  match k return ops k -> Prop with IntegerExponents => fun p => p = z | RationalExponents => fun p => p = mkRatio z 1 end p.
Proof.
  clear Plat Low Acc Few env lo G C.
  assert (I : forall p, exp_Z e = Some z -> mean_exp IntegerExponents e = Some p -> p = z).
  { clear p. intros p. destruct e as [[neg n|? ? ?]|]; cbn [exp_Z mean_exp]; try discriminate. intros A B. unfold mean_int in B.
    destruct (is_i64 (signed neg n)); [|discriminate B]. congruence. }
  destruct k; intros A B; [exact (I p A B)|].
  destruct (mean_exp IntegerExponents e) as [p'|] eqn:E.
  - destruct (SupersetFacts.mean_exp_rat e p' E) as [B' _]. rewrite (I p' A eq_refl) in B'. unfold rint in B'. congruence.
  - destruct e as [[neg n|? ? ?]|]; cbn [exp_Z mean_exp] in *; try discriminate. rewrite E in B. discriminate B.
Qed.

Lemma exp_value e z p : exp_Z e = Some z -> mean_exp k e = Some p -> l_val (ops k) (laws k) p = ZQc z.
Proof.
  intros A B. pose proof (exp_whole e z p A B) as H. clear -H. destruct k; subst p; [reflexivity|]. exact (proj2 (rint_rval z)).
Qed.

Lemma pow_approx m q v e z p : exp_Z e = Some z -> mean_exp k e = Some p ->
  approx m (Q2R q) v -> Q2R q <> 0%R -> (Z.abs z < 2 ^ 31)%Z -> moderate (q ^ z) ->
  small (Z.abs_nat z * m + 2 * Z.abs_nat z) ->
  exists w, pow k env v p = stored env w /\ approx (Z.abs_nat z * m + 2 * Z.abs_nat z) (Q2R (q ^ z)) w.
Proof.
  intros He Hp [F N] Nz Hz M Hs. pose proof (exp_whole e z p He Hp) as Hw.
  pose proof (near_powerRZ z m _ _ N) as Np. rewrite <- Q2R_power in Np by exact Nz.
  destruct M as [L H]. assert (Hs' : (Z.of_nat (Z.abs_nat z * m) <= 2 ^ 45)%Z).
  { unfold small in Hs. revert Hs. generalize (Z.abs_nat z * m)%nat (2 * Z.abs_nat z)%nat. intros. lia. }
  pose proof (near_bounds _ _ _ Hs' Np) as [B1 B2].
  eexists. split; [|destruct (Acc v z F Hz) as [F' N']; [|split; [exact F'|exact (near_trans _ _ _ _ _ Np N')]]].
  - clear -Hw Hz. destruct k; subst p; cbn [pow].
    + unfold pow_int. f_equal. unfold as_i32. rewrite wrap_id by lia. reflexivity.
    + unfold pow_rat. cbn [Ratio.num denom]. f_equal. f_equal. apply PropertiesSerde.div_one. apply f64_of_Z_exact. lia.
  - split.
    + apply Rle_trans with (bpow radix2 (-901)); [apply bpow_le; lia|]. eapply Rle_trans; [|exact B1].
      change (-900)%Z with (1 + -901)%Z in L. rewrite bpow_plus in L. change (bpow radix2 1) with 2%R in L. lra.
    + eapply Rle_trans; [exact B2|]. apply Rle_trans with (bpow radix2 901); [|apply bpow_le; lia].
      change 901%Z with (1 + 900)%Z. rewrite bpow_plus. change (bpow radix2 1) with 2%R. lra.
Qed.

Lemma eval_approx (Rn : ident -> f64 -> Prop) :
  (forall x q n, rounds_x G C x q n -> small n ->
     forall e v, mean_unit_rhs k x = Some e ->
     (forall s w, occurs s e -> Rn s w -> approx (C s) (Q2R (G s)) w) ->
     ev_fac X env (pow k env) Rn e v -> approx n (Q2R q) v) /\
  (forall f q n, rounds_f G C f q n -> small n ->
     forall e v, mean_f mean_unit_atom (mean_exp k) f = Some e ->
     (forall s w, foccurs s e -> Rn s w -> approx (C s) (Q2R (G s)) w) ->
     fev_fac X env (pow k env) Rn e v -> approx n (Q2R q) v).
Proof.
  destruct (rounds_moderate G C) as [Mx Mf].
  assert (ST : forall m q v, approx m (Q2R q) v -> small m -> moderate q -> approx m (Q2R q) (stored env v)).
  { intros m q v A Hm M. now rewrite (stored_same m q v Hm M A). }
  apply (rounds_ind G C
    (fun x q n _ => small n ->
     forall e v, mean_unit_rhs k x = Some e ->
     (forall s w, occurs s e -> Rn s w -> approx (C s) (Q2R (G s)) w) ->
     ev_fac X env (pow k env) Rn e v -> approx n (Q2R q) v)
    (fun f q n _ => small n ->
     forall e v, mean_f mean_unit_atom (mean_exp k) f = Some e ->
     (forall s w, foccurs s e -> Rn s w -> approx (C s) (Q2R (G s)) w) ->
     fev_fac X env (pow k env) Rn e v -> approx n (Q2R q) v)).
  - intros f q n _ IH Hs e v M On V. unfold mean_unit_rhs in M. rewrite mean_one in M.
    destruct (mean_f mean_unit_atom (mean_exp k) f) as [f'|] eqn:Mf'; [|discriminate M].
    assert (E : e = EVal f') by congruence. subst e. inversion V; subst.
    apply (IH Hs f' v eq_refl); [|assumption]. intros s w O. apply On. now constructor.
  - intros l o f a b m n Ho Rl IHl Rf IHf M Hs e v Me On V. unfold mean_unit_rhs in *. rewrite mean_bin in Me.
    destruct (mean_x mean_unit_atom (mean_exp k) l) as [l'|]; [|discriminate Me].
    destruct (mean_f mean_unit_atom (mean_exp k) f) as [f'|]; [|discriminate Me].
    assert (E : e = EBin l' f' (mean_op o)) by congruence. clear Me. subst e.
    assert (Eo : mean_op o = OMul) by (destruct o; [reflexivity|congruence|reflexivity]). rewrite Eo in *.
    inversion V; subst. apply ST; [|exact Hs|exact M]. unfold small in *. rewrite Q2R_mult.
    apply approx_mul; [lia| | |rewrite <- Q2R_mult; now apply moderate_wide].
    + apply (IHl ltac:(lia) l' v1 eq_refl); [|assumption]. intros s w O. apply On. now constructor.
    + apply (IHf ltac:(lia) f' v2 eq_refl); [|assumption]. intros s w O. apply On. now constructor.
  - intros l f a b m n Rl IHl Rf IHf M Hs e v Me On V. unfold mean_unit_rhs in *. rewrite mean_bin in Me.
    destruct (mean_x mean_unit_atom (mean_exp k) l) as [l'|]; [|discriminate Me].
    destruct (mean_f mean_unit_atom (mean_exp k) f) as [f'|]; [|discriminate Me].
    assert (E : e = EBin l' f' ODiv) by (cbn [mean_op] in Me; congruence). clear Me. subst e.
    pose proof (moderate_nonzero _ (Mf _ _ _ Rf)) as Nz.
    inversion V; subst. apply ST; [|exact Hs|exact M]. unfold small in *. rewrite Q2R_div by now apply nonzero.
    apply approx_div; [lia| | |exact Nz|rewrite <- Q2R_div by (now apply nonzero); now apply moderate_wide].
    + apply (IHl ltac:(lia) l' v1 eq_refl); [|assumption]. intros s w O. apply On. now constructor.
    + apply (IHf ltac:(lia) f' v2 eq_refl); [|assumption]. intros s w O. apply On. now constructor.
  - intros s M Hs e v Me On V. rewrite mean_val in Me. cbn [mean_unit_atom] in Me.
    assert (E : e = FVal (Other s)) by congruence. subst e. inversion V; subst. apply On; [constructor|assumption].
  - intros l M Hs e v Me On V. rewrite mean_val in Me. cbn [mean_unit_atom] in Me.
    destruct (mean_number l) as [w|] eqn:Ml; [|discriminate Me].
    assert (E : e = FVal (Concrete (from_f64 w))) by congruence. clear Me. subst e.
    inversion V; subst. apply (ST 1%nat (lit_Q l) w); [|exact Hs|exact M]. now apply lit_approx.
  - intros a e z q n He Hz Rf IH M Hs e' v Me On V. rewrite mean_pow in Me.
    pose proof (moderate_nonzero _ (Mf _ _ _ Rf)) as Nz.
    destruct (mean_unit_atom a) as [w|] eqn:Ma; [|discriminate Me].
    destruct (mean_exp k e) as [p|] eqn:Mp; [|discriminate Me].
    assert (E : e' = FPow w p) by congruence. clear Me. subst e'.
    assert (Sn : small n) by (inversion Rf; subst; [apply Few|unfold small; lia]).
      assert (Aw : forall w', fev_fac X env (pow k env) Rn (FVal w) w' -> approx n (Q2R q) w').
      { intros w' V'. apply (IH Sn (FVal w) w'); [now rewrite mean_val, Ma| |exact V'].
        intros s w0 O. apply On. inversion O; subst. constructor. }
      assert (Go : forall v', approx n (Q2R q) v' -> approx (Z.abs_nat z * n + 2 * Z.abs_nat z) (Q2R (q ^ z)) (pow k env v' p)).
      { intros v' A'. destruct (pow_approx n q v' e z p He Mp A' Nz Hz M Hs) as (u & -> & Au). now apply ST. }
      inversion V; subst; apply Go, Aw; constructor; assumption.
  - intros x q n _ IH Hs e v M On V. rewrite mean_paren in M. unfold mean_unit_rhs in IH.
    destruct (mean_x mean_unit_atom (mean_exp k) x) as [x'|]; [|discriminate M].
    assert (E : e = FParen x') by congruence. subst e. inversion V; subst.
    apply (IH Hs x' v eq_refl); [|assumption]. intros s w O. apply On. now constructor.
Qed.

(** ** From the source to the declarations *)
Inductive corr : xdef -> definition X ident magnitude -> Prop :=
| corr_base d : corr XBase (DefBase d)
| corr_expr x e : mean_unit_rhs k x = Some e -> corr (XExpr x) (DefExpr e)
| corr_scaled k i : corr (XScaled k i)
    (DefExpr (EBin (EVal (FVal (Concrete (from_f64 (f64_of_decimal 1 k))))) (FVal (Other i)) OMul)).

Lemma unit_source f (T : template k) t p a : mean_file k f = Some T ->
  In t (u_units T) -> chosen (ut_prefixes t) p -> chosen (ut_aliases t) a ->
  exists d, In (variant_name t p a, d) (file_defs f) /\ corr d (variant_definition t p a).
Proof.
  intros M Ht Hp Ha. unfold mean_file in M.
  destruct (collect (mean_stmt k) (sl_items f)) as [es|] eqn:Co; [|discriminate M].
  assert (Eu : u_units T = flat_map (fun e => match e with EntUnit _ u => [u] | _ => [] end) es)
    by (injection M as <-; reflexivity).
  rewrite Eu in Ht. clear M Eu. apply in_flat_map in Ht as (en & Hen & Ht).
  destruct en as [| | |u|]; try easy. destruct Ht as [->|[]].
  destruct (collect_in _ _ _ _ Co Hen) as (s & Hs & Ms).
  destruct s as [| |? ? [x|]|l i ann rhs|? ? ? x]; cbn [mean_stmt] in Ms; try discriminate Ms.
  { destruct (mean_dimension_rhs k x); discriminate Ms. }
  2: { destruct (mean_unit_rhs k x); discriminate Ms. }
  destruct (mean_unit k l i ann rhs) as [u|] eqn:Mu; [|discriminate Ms].
  assert (E : u = t) by congruence. subst u. clear Ms. unfold mean_unit in Mu.
  destruct (mean_unit_definition k (bases_of l) rhs) as [def|] eqn:D; [|discriminate Mu].
  destruct (at_most_one (symbols_of l)) as [sy|]; [|discriminate Mu].
  destruct (at_most_one (metrics_of l)) as [me|] eqn:Me; [|discriminate Mu].
  assert (Et : ut_name t = i /\ ut_aliases t = alias_names l /\ ut_definition t = def /\
     ut_prefixes t = match me with Some skip => si_without skip | None => [] end ++ explicit_prefixes l)
    by (injection Mu as <-; auto).
  destruct Et as (En & Ea & Ed & Ep). clear Mu.
  assert (Ep' : ut_prefixes t = prefixes_of l).
  { rewrite Ep. unfold prefixes_of. f_equal. destruct (metrics_of l) as [|m1 [|]]; cbn [at_most_one] in Me;
      try discriminate Me; injection Me as <-; cbn [flat_map]; rewrite ?app_nil_r; reflexivity. }
  assert (IN : forall d, In (variant_name t p a, d) (stmt_defs (SUnit l i ann rhs)) -> In (variant_name t p a, d) (file_defs f)).
  { intros d H. unfold file_defs. apply in_flat_map. eauto. }
  unfold variant_name, variant_definition in *. rewrite En, Ea, Ep' in *.
  destruct p as [p|].
  - exists (XScaled (si_power p) i). split; [|constructor]. apply IN. cbn [stmt_defs]. right.
    apply in_app_iff. right. apply in_flat_map. exists p. split; [exact Hp|].
    apply in_map_iff. exists (match a with Some a => a | None => i end). split; [reflexivity|].
    destruct a as [a|]; [right; exact Ha|now left].
  - destruct a as [a|].
    + exists (XScaled 0 i). split; [|constructor]. apply IN. cbn [stmt_defs]. right.
      apply in_app_iff. left. apply in_map_iff. exists a. split; [reflexivity|exact Ha].
    + exists (match rhs with Some x => XExpr x | None => XBase end). split; [apply IN; now left|].
      rewrite Ed. unfold mean_unit_definition in D. destruct (bases_of l) as [|b [|b2 bs]], rhs as [x|]; try discriminate D.
      * destruct (mean_unit_rhs k x) as [e|] eqn:Mx; [|discriminate D].
        replace def with (DefExpr (B := ident) (C := magnitude) e) by congruence. now constructor.
      * replace def with (DefBase (X := X) (C := magnitude) b) by congruence. constructor.
Qed.
Lemma constant_source f (T : template k) c : mean_file k f = Some T ->
  In c (u_constants T) -> exists x, In (ce_name c, XExpr x) (file_defs f) /\ mean_unit_rhs k x = Some (ce_rhs c).
Proof.
  intros M Hc. unfold mean_file in M.
  destruct (collect (mean_stmt k) (sl_items f)) as [es|] eqn:Co; [|discriminate M].
  assert (Eu : u_constants T = flat_map (fun e => match e with EntConstant _ c => [c] | _ => [] end) es)
    by (injection M as <-; reflexivity).
  rewrite Eu in Hc. clear M Eu. apply in_flat_map in Hc as (en & Hen & Hc).
  destruct en; try easy. destruct Hc as [->|[]].
  destruct (collect_in _ _ _ _ Co Hen) as (s & Hs & Ms).
  destruct s as [| |? ? [x|]|l i ann rhs|l i ann x]; cbn [mean_stmt] in Ms; try discriminate Ms.
  { destruct (mean_dimension_rhs k x); discriminate Ms. }
  { destruct (mean_unit k l i ann rhs); discriminate Ms. }
  destruct (mean_unit_rhs k x) as [e|] eqn:Mx; [|discriminate Ms].
  assert (E : ce_name c = i /\ ce_rhs c = e) by (injection Ms as <-; auto). destruct E as [-> ->].
  exists x. split; [|exact Mx]. unfold file_defs. apply in_flat_map. exists (SConstant l i ann x). split; [exact Hs|now left].
Qed.

Lemma approx_eq m q q' v : (q == q')%Q -> approx m (Q2R q) v -> approx m (Q2R q') v.
Proof. intros E. now rewrite (Qeq_eqR _ _ E). Qed.
Lemma approx_mono m n x v : (m <= n)%nat -> approx m x v -> approx n x v.
Proof. intros H [F N]. split; [exact F|]. now apply (near_mono m). Qed.

Lemma def_approx (Rn : ident -> f64 -> Prop) d def q n : corr d def -> rounds_def G C d q n -> small n ->
  (forall s w, match def with DefBase _ => False | DefExpr e => occurs s e end -> Rn s w -> approx (C s) (Q2R (G s)) w) ->
  forall v, match def with DefBase _ => v = f64_one | DefExpr e => ev_fac X env (pow k env) Rn e v end ->
  approx n (Q2R q) v.
Proof.
  intros Co Rd Sn On v V. destruct Co as [b|x e M|j i].
  - inversion Rd; subst. destruct one_R as [F E]. split; [exact F|]. rewrite E.
    replace (Q2R 1) with 1%R by (unfold Q2R; cbn; lra). apply near_0.
  - inversion Rd; subst. destruct (eval_approx Rn) as [Ex _]. exact (Ex x q n H0 Sn e v M On V).
  - assert (Oi : occurs i (EBin (EVal (FVal (Concrete (from_f64 (f64_of_decimal 1 j))))) (FVal (Other i)) OMul : expr (fac magnitude) X))
      by (apply occ_rhs; constructor).
    assert (Vi : exists w, Rn i w /\ v = stored env (f64_mul (stored env (f64_of_decimal 1 j)) w)).
    { inversion V as [|? ? v1 v2 V1 V2|]; subst. inversion V1 as [? ? V1'| |]; subst. inversion V1'; subst.
      inversion V2; subst. eexists. split; [eassumption|reflexivity]. }
    destruct Vi as (w & Rw & ->). specialize (On i w Oi Rw). clear V Oi.
    inversion Rd as [| |? Mi|? ? Mi Mk Mq]; subst.
    + assert (E1 : stored env (f64_of_decimal 1 0) = f64_one).
      { destruct one_R as [F E]. apply (stored_same 0 1); [unfold small; lia| |split; [exact F|]].
        - unfold moderate. replace (Q2R 1) with 1%R by (unfold Q2R; cbn; lra). rewrite Rabs_R1.
          change 1%R with (bpow radix2 0). split; apply bpow_le; lia.
        - change (f64_of_decimal 1 0) with f64_one. rewrite E. replace (Q2R 1) with 1%R by (unfold Q2R; cbn; lra). apply near_0. }
      rewrite E1. rewrite f64_one_mul.
      * rewrite (stored_same (C i) (G i) w Sn Mi On). exact On.
      * destruct On as [F _]. destruct w; try reflexivity; discriminate F.
    + assert (Ak : approx 1 (Q2R ((10 # 1) ^ j)) (f64_of_decimal 1 j)).
      { pose proof (lit_approx (SDec false 1 j) (f64_of_decimal 1 j) eq_refl) as L. cbn [lit_Q signed] in L.
        assert (E : (inject_Z (Z.of_N 1) * (10 # 1) ^ j == (10 # 1) ^ j)%Q) by apply Qmult_1_l.
        apply (approx_eq _ _ _ _ E), L. apply (moderate_eq _ _ (Qeq_sym _ _ E) Mk). }
      rewrite (stored_same 1 _ _ ltac:(unfold small; lia) Mk Ak).
      assert (A : approx (C i + 2) (Q2R ((10 # 1) ^ j * G i)) (f64_mul (f64_of_decimal 1 j) w)).
      { replace (C i + 2)%nat with (1 + C i + 1)%nat by lia. rewrite Q2R_mult.
        apply approx_mul; [unfold small in Sn; lia|exact Ak|exact On|]. rewrite <- Q2R_mult. now apply moderate_wide. }
      rewrite (stored_same _ _ _ Sn Mq A). exact A.
Qed.

Lemma name_eq {A B} (f : A -> B) l x y : NoDup (map f l) -> In x l -> In y l -> f x = f y -> x = y.
Proof.
  induction l as [|a l IH]; cbn [map]; intros N; [intros []|]. inversion N as [|? ? Na Nl]; subst.
  intros [<-|Hx] [<-|Hy] E; [reflexivity| | |now apply IH].
  - exfalso. apply Na. rewrite E. now apply in_map.
  - exfalso. apply Na. rewrite <- E. now apply in_map.
Qed.

Theorem factors_near f (T : template k) o :
  mean_file k f = Some T -> run_unit_system X env T = Some (o, []) -> budget G C f ->
  forall n v, fac_result X env o n v -> approx (C n) (Q2R (G n)) v.
Proof.
  intros M R [B _] n v V.
  destruct (accepted_all X (laws k) env _ o (generated_ok_expand _ T) R) as (W & _).
  destruct (unit_results _ (laws k) env _ o (generated_ok_expand _ T) R) as (_ & _ & U3).
  pose proof (constant_results _ (laws k) env _ o (generated_ok_expand _ T) R) as Cr.
  pose proof (C24_factor_equations k env lo T o Plat R) as Q.
  rewrite declared_expand in *.
  assert (Dx : forall n v, fac_result X env o n v -> exists x, In x (decls (declared T)) /\ decl_name x = n /\ ~ is_dimension _ x).
  { clear - U3 Cr. intros n v [(u & Hu & <- & _)|(c & Hc & <- & _)].
    - destruct (U3 u Hu) as (e & He & En). exists (DUnit e). split; [|split; [symmetry; exact En|]].
      + unfold decls. rewrite !in_app_iff, !in_map_iff. right. left. eauto.
      + cbn. auto.
    - destruct (proj1 (Cr (c_name c)) (ex_intro _ c (conj Hc eq_refl))) as (e & He & En).
      exists (DConstant e). split; [|split; [exact En|cbn; auto]].
      unfold decls. rewrite !in_app_iff, !in_map_iff. right. right. eauto. }
  pose proof (wf_names _ _ W) as Nn.
  assert (Gr : grounded (declared T) n).
  { destruct (Dx n v V) as (x & Hx & <- & _). exact (wf_grounded _ _ W x Hx). }
  revert v V. induction Gr as [x Hx Hm IH]. intros v V.
  destruct (Dx _ v V) as (y & Hy & Ey & Ny). apply (name_eq decl_name _ _ _ Nn Hy Hx) in Ey. subst y.
  destruct (Q x Hx Ny) as (_ & _ & Eq). specialize (Eq v V).
  destruct x as [d|u|c]; [destruct (Ny I)| |].
  - assert (Hu : In u (u_units (declared T))) by now apply (unit_decl X).
    apply declared_units in Hu as (t & Ht & p & a & Hp & Ha & ->).
    destruct (unit_source f T t p a M Ht Hp Ha) as (d & Hd & Co).
    destruct (B _ d Hd) as (q & m & Rd & Eg & Hm').
    change (decl_name (DUnit (variant t p a))) with (variant_name t p a) in *.
    apply (approx_mono m); [exact Hm'|]. apply (approx_eq _ q); [now apply Qeq_sym|].
    assert (Sm : small m) by (specialize (Few (variant_name t p a)); unfold small in *; lia).
    cbn [fac_equation ue_definition variant] in Eq. cbn [mentions ue_definition variant] in IH.
    refine (def_approx (fun n g => denotes_fac k env o n g) d (variant_definition t p a) q m Co Rd Sm _ v _).
    + intros s w O Rw. destruct (variant_definition t p a) as [b|e]; [destruct O|]. exact (IH s O w Rw).
    + destruct (variant_definition t p a) as [b|e]; exact Eq.
  - assert (Hc : In c (u_constants T)).
    { unfold decls in Hx. rewrite !in_app_iff, !in_map_iff in Hx.
      destruct Hx as [(z & E & _)|[(z & E & _)|(z & [= ->] & Hz)]]; [discriminate E|discriminate E|exact Hz]. }
    destruct (constant_source f T c M Hc) as (x & Hd & Mx).
    destruct (B _ _ Hd) as (q & m & Rd & Eg & Hm'). change (decl_name (DConstant c)) with (ce_name c) in *.
    apply (approx_mono m); [exact Hm'|]. apply (approx_eq _ q); [now apply Qeq_sym|].
    assert (Sm : small m) by (specialize (Few (ce_name c)); unfold small in *; lia).
    refine (def_approx (fun n g => denotes_fac k env o n g) _ (DefExpr (ce_rhs c)) q m (corr_expr x _ Mx) Rd Sm _ v Eq).
    intros s w O Rw. exact (IH s O w Rw).
Qed.
End Env.
