(** * Every definition of an accepted system holds as an equation, and only the results do *)
From Coq Require Import String List Bool ZArith QArith Qcanon Lia Permutation Sorted.
From Verif Require Import MachineInt Ratio F64 Magnitude MagnitudeFacts Exponent ExponentFacts SMap
  Expression DimensionMath DimensionMathFacts Types Snake Resolve ResolveLoop ResolveChecks
  SystemSpec ResolveFacts ResolveAccept.
Import ListNotations.
Local Open Scope list_scope.

Section Equations.
Context (X : exp_ops) (L : exp_laws X) (env : fenv).
Notation sys := (unresolved X (unit_entry X)).
Notation dm := (dimmag X).
Notation bd_ok := (bd_ok X L).
Notation vec_of := (vec_of X L).

Lemma exponents_map_mut {T T2} (f : T -> T2) :
  (forall e : expr T X, exponents (expr_map f e) = exponents e) /\
  (forall v : factor T X, fexponents (factor_map f v) = fexponents v).
Proof.
  apply expr_factor_ind; auto.
  intros l IHl r IHr op.
  change (exponents (expr_map f l) ++ fexponents (factor_map f r) = exponents l ++ fexponents r).
  now rewrite IHl, IHr.
Qed.

(** ** Evaluation and the specification's equations *)

Lemma ev_dim_mut {C} (g : C -> dm) (R : ident -> vec -> Prop) (lk : ident -> dm) :
  (forall c, dm_dims (g c) = bd_none X) ->
  (forall e : expr (fac C) X, (forall p, In p (exponents e) -> l_valid X L p) ->
     (forall n, occurs n e -> bd_ok (dm_dims (lk n)) /\ R n (vec_of (dm_dims (lk n)))) ->
     forall d, eval_with X env (look X lk) (expr_map (map_concrete g) e) = Some d ->
     bd_ok (dm_dims d) /\ ev_dim X L R e (vec_of (dm_dims d))) /\
  (forall v : factor (fac C) X, (forall p, In p (fexponents v) -> l_valid X L p) ->
     (forall n, foccurs n v -> bd_ok (dm_dims (lk n)) /\ R n (vec_of (dm_dims (lk n)))) ->
     forall d, feval_with X env (look X lk) (factor_map (map_concrete g) v) = Some d ->
     bd_ok (dm_dims d) /\ fev_dim X L R v (vec_of (dm_dims d))).
Proof.
  intros Hg. apply expr_factor_ind.
  - intros f IH HQ HR d H. destruct (IH HQ) with (d := d) as [O E]; auto.
    + intros n Hn. apply HR. now constructor.
    + split; auto. now constructor.
  - intros l IHl r IHr op HQ HR d H. cbn [exponents expr_map] in *. rewrite eval_bin in H.
    destruct (eval_with X env (look X lk) (expr_map (map_concrete g) l)) as [a|] eqn:Ea; [|discriminate].
    destruct (feval_with X env (look X lk) (factor_map (map_concrete g) r)) as [b|] eqn:Eb; [|discriminate].
    destruct (IHl) with (d := a) as [Oa Va]; auto.
    { intros p Hp. apply HQ. apply in_or_app. now left. }
    { intros n Hn. apply HR. now apply occ_lhs. }
    destruct (IHr) with (d := b) as [Ob Vb]; auto.
    { intros p Hp. apply HQ. apply in_or_app. now right. }
    { intros n Hn. apply HR. now apply occ_rhs. }
    destruct op; unfold dm_mul, dm_div in H.
    + destruct (bd_mul X (dm_dims a) (dm_dims b)) as [c|] eqn:E; [|discriminate].
      inversion H; subst; cbn [dm_dims]. destruct (bd_mul_spec X L _ _ _ Oa Ob E) as [O V].
      split; auto. exact (ed_mul X L R l r _ _ _ Va Vb V).
    + destruct (bd_div X (dm_dims a) (dm_dims b)) as [c|] eqn:E; [|discriminate].
      inversion H; subst; cbn [dm_dims]. destruct (bd_div_spec X L _ _ _ Oa Ob E) as [O V].
      split; auto. exact (ed_div X L R l r _ _ _ Va Vb V).
  - intros [c|n] HQ HR d H; cbn [feval_with factor_map map_concrete look] in H; inversion H; subst.
    + rewrite Hg. split; [apply bd_ok_none|]. constructor. intros b. rewrite vec_none. apply ZQc_0.
    + destruct (HR n) as [O V]; [constructor|]. split; auto. now constructor.
  - intros [c|n] e HQ HR d H; cbn [feval_with factor_map map_concrete look] in H; unfold dm_pow in H.
    + rewrite Hg in H. unfold bd_none, bd_pow in H. cbn [smap_opt] in H. inversion H; subst.
      cbn [dm_dims]. split; [apply bd_ok_none|]. constructor. intros b. rewrite vec_none. apply ZQc_0.
    + destruct (bd_pow X (dm_dims (lk n)) e) as [c|] eqn:E; [|discriminate].
      inversion H; subst; cbn [dm_dims]. destruct (HR n) as [O V]; [constructor|].
      destruct (bd_pow_spec X L _ _ _ O (HQ e (or_introl eq_refl)) E) as [O' V'].
      split; auto. exact (ed_name_pow X L R n e _ _ V V').
  - intros x IH HQ HR d H. destruct (IH HQ) with (d := d) as [O E]; auto.
    + intros n Hn. apply HR. now constructor.
    + split; auto. now constructor.
Qed.

Section Factors.
Context (powf : f64 -> X -> f64).
Hypothesis powf_law : forall m p, into_f64 env (e_float_pow X env m p) = powf (into_f64 env m) p.

Lemma ev_fac_mut (R : ident -> f64 -> Prop) (lk : ident -> dm) :
  (forall e : expr (fac magnitude) X,
     (forall n, occurs n e -> R n (into_f64 env (dm_mag (lk n)))) ->
     forall d, eval_with X env (look X lk) (expr_map (map_concrete (dm_of_magnitude X)) e) = Some d ->
     ev_fac X env powf R e (into_f64 env (dm_mag d))) /\
  (forall v : factor (fac magnitude) X,
     (forall n, foccurs n v -> R n (into_f64 env (dm_mag (lk n)))) ->
     forall d, feval_with X env (look X lk) (factor_map (map_concrete (dm_of_magnitude X)) v) = Some d ->
     fev_fac X env powf R v (into_f64 env (dm_mag d))).
Proof.
  apply expr_factor_ind.
  - intros f IH HR d H. constructor. apply IH; auto. intros n Hn. apply HR. now constructor.
  - intros l IHl r IHr op HR d H. cbn [expr_map] in *. rewrite eval_bin in H.
    destruct (eval_with X env (look X lk) (expr_map (map_concrete (dm_of_magnitude X)) l)) as [a|] eqn:Ea; [|discriminate].
    destruct (feval_with X env (look X lk) (factor_map (map_concrete (dm_of_magnitude X)) r)) as [b|] eqn:Eb; [|discriminate].
    assert (Va : ev_fac X env powf R l (into_f64 env (dm_mag a))).
    { apply IHl; auto. intros n Hn. apply HR. now apply occ_lhs. }
    assert (Vb : fev_fac X env powf R r (into_f64 env (dm_mag b))).
    { apply IHr; auto. intros n Hn. apply HR. now apply occ_rhs. }
    destruct op; unfold dm_mul, dm_div in H.
    + destruct (bd_mul X (dm_dims a) (dm_dims b)) as [c|] eqn:E; [|discriminate].
      assert (Ed : dm_mag d = mag_mul env (dm_mag a) (dm_mag b)) by (inversion H; reflexivity).
      rewrite Ed. exact (ef_mul X env powf R l r _ _ Va Vb).
    + destruct (bd_div X (dm_dims a) (dm_dims b)) as [c|] eqn:E; [|discriminate].
      assert (Ed : dm_mag d = mag_div env (dm_mag a) (dm_mag b)) by (inversion H; reflexivity).
      rewrite Ed. exact (ef_div X env powf R l r _ _ Va Vb).
  - intros [c|n] HR d H; cbn [feval_with factor_map map_concrete look] in H.
    + assert (Ed : dm_mag d = c) by (inversion H; reflexivity). rewrite Ed. constructor.
    + assert (Ed : d = lk n) by congruence. rewrite Ed. constructor. apply HR. constructor.
  - intros [c|n] e HR d H; cbn [feval_with factor_map map_concrete look] in H; unfold dm_pow in H.
    + destruct (bd_pow X (dm_dims (dm_of_magnitude X c)) e) as [q|] eqn:E; [|discriminate].
      assert (Ed : dm_mag d = e_float_pow X env c e) by (inversion H; reflexivity).
      rewrite Ed, powf_law. constructor.
    + destruct (bd_pow X (dm_dims (lk n)) e) as [q|] eqn:E; [|discriminate].
      assert (Ed : dm_mag d = e_float_pow X env (dm_mag (lk n)) e) by (inversion H; reflexivity).
      rewrite Ed, powf_law. constructor. apply HR. constructor.
  - intros x IH HR d H. constructor. apply IH; auto. intros n Hn. apply HR. now constructor.
Qed.
End Factors.

(** ** Every resolved name has valid exponents *)

Definition exponents_valid (S : sys) : Prop :=
  forall x p, In x (decls S) -> In p (decl_exponents x) -> l_valid X L p.

Lemma item_exponents x p :
  In p (exponents (it_expr (item_of X x))) -> In p (decl_exponents x).
Proof.
  destruct x as [d|u|c]; simpl.
  - destruct (de_rhs d) as [[]|e]; simpl; [easy|]. now rewrite (proj1 (exponents_map_mut _)).
  - destruct (ue_definition u) as [dim|e]; simpl; [easy|]. now rewrite (proj1 (exponents_map_mut _)).
  - now rewrite (proj1 (exponents_map_mut _)).
Qed.

Lemma iden_ok (S : sys) n d :
  exponents_valid S -> iden X env (items_of X S) n d -> bd_ok (dm_dims d).
Proof.
  intros V H. induction H as [i lk d Hi Hlk IH He].
  rewrite items_of_decls in Hi. apply in_map_iff in Hi as (x & <- & Hx).
  assert (Hm : forall a b c : bdims X, bd_ok a -> bd_ok b -> bd_mul X a b = Some c -> bd_ok c).
  { intros a b c Oa Ob E. exact (proj1 (bd_mul_spec X L a b c Oa Ob E)). }
  assert (Hd : forall a b c : bdims X, bd_ok a -> bd_ok b -> bd_div X a b = Some c -> bd_ok c).
  { intros a b c Oa Ob E. exact (proj1 (bd_div_spec X L a b c Oa Ob E)). }
  assert (Hp : forall (a : bdims X) p c, bd_ok a -> l_valid X L p -> bd_pow X a p = Some c -> bd_ok c).
  { intros a p c Oa Op E. exact (proj1 (bd_pow_spec X L a p c Oa Op E)). }
  apply (proj1 (eval_pred_mut X env bd_ok (l_valid X L) (look X lk) Hm Hd Hp)) with (e := it_expr (item_of X x)).
  - intros p Hpp. apply (V x); auto. now apply item_exponents.
  - intros [c|m] d' Hf E; simpl in E; inversion E; subst.
    + apply concrete_dims in Hf as [->|[k ->]]; [apply bd_ok_none|apply bd_ok_for_base].
    + apply IH. now apply others_vals.
  - exact He.
Qed.

(** ** Reading results *)

Lemma vec_is_iff (d : bdims X) v : vec_is X L d v <-> forall b, v b = vec_of d b.
Proof.
  unfold vec_is, DimensionMathFacts.vec_of.
  assert (E : forall b, match find (fun kv => String.eqb b (fst kv)) d with
                        | Some kv => l_val X L (snd kv) | None => 0%Qc end =
                        match sget b d with Some e => l_val X L e | None => ZQc 0 end).
  { intros b. induction d as [|[k e] d IH]; simpl; [now rewrite ZQc_0|].
    destruct (String.eqb b k); auto. }
  split; intros H b; rewrite H; [|symmetry]; apply E.
Qed.

(** The output gives a name the value [res] has for it, and nothing else. *)
Lemma dim_result_iff (S : sys) res ds n v :
  resolve_items X env (U4 X S) = Some (res, ds) ->
  dim_result X L (out_of X S res) n v <->
  exists r, sget n res = Some r /\ forall b, v b = vec_of (dm_dims (ri_dims r)) b.
Proof.
  intros H. pose proof (resolved_wf X env _ _ _ H) as W. unfold dim_result. split.
  - intros [(y & Hy & <- & Hv)|[(y & Hy & <- & Hv)|(y & Hy & <- & Hv)]]; pose proof (proj1 (vec_is_iff _ _) Hv) as Hv'; clear Hv; rename Hv' into Hv.
    + apply get_dimensions_In in Hy as (m & r & d & Hr & Et & ->); auto. simpl in *.
      destruct (entry_decl X env _ _ _ _ _ H Hr) as (x & Hx & Ex & Nx).
      rewrite Ex in Et. apply item_of_type_dim in Et. subst x. simpl in Nx. rewrite Nx. eauto.
    + apply get_units_In in Hy as (m & r & d & Hr & Et & ->); auto. simpl in *.
      destruct (entry_decl X env _ _ _ _ _ H Hr) as (x & Hx & Ex & Nx).
      rewrite Ex in Et. apply item_of_type_unit in Et. subst x. simpl in Nx. rewrite Nx. eauto.
    + apply get_constants_In in Hy as (m & r & d & Hr & Et & ->); auto. simpl in *.
      destruct (entry_decl X env _ _ _ _ _ H Hr) as (x & Hx & Ex & Nx).
      rewrite Ex in Et. apply item_of_type_const in Et. subst x. simpl in Nx. rewrite Nx. eauto.
  - intros (r & Hr & Hv). apply (proj2 (vec_is_iff _ _)) in Hv.
    destruct (entry_decl X env _ _ _ _ _ H Hr) as (x & Hx & Ex & Nx).
    destruct x as [d|u|c]; simpl in Nx.
    + left. exists {| d_name := de_name d; d_dims := dm_dims (ri_dims r) |}. simpl. repeat split; auto.
      apply get_dimensions_In; auto. exists n, r, d. rewrite Ex. auto.
    + right; left. eexists. split; [apply get_units_In; auto; exists n, r, u; rewrite Ex; simpl; auto|].
      simpl. auto.
    + right; right. eexists. split; [apply get_constants_In; auto; exists n, r, c; rewrite Ex; simpl; auto|].
      simpl. auto.
Qed.

Definition is_dimension (x : decl X) : Prop := match x with DDimension _ => True | _ => False end.

Lemma fac_result_iff (S : sys) res ds n f :
  resolve_items X env (U4 X S) = Some (res, ds) ->
  fac_result X env (out_of X S res) n f <->
  exists r x, sget n res = Some r /\ In x (decls S) /\ ri_item r = item_of X x /\
    ~ is_dimension x /\ into_f64 env (dm_mag (ri_dims r)) = f.
Proof.
  intros H. pose proof (resolved_wf X env _ _ _ H) as W. unfold fac_result. split.
  - intros [(y & Hy & <- & Hv)|(y & Hy & <- & Hv)].
    + apply get_units_In in Hy as (m & r & d & Hr & Et & ->); auto. simpl in *.
      destruct (entry_decl X env _ _ _ _ _ H Hr) as (x & Hx & Ex & Nx).
      pose proof Et as Et'. rewrite Ex in Et'. apply item_of_type_unit in Et'. subst x. simpl in Nx.
      rewrite Nx. exists r, (DUnit d). repeat split; auto.
    + apply get_constants_In in Hy as (m & r & d & Hr & Et & ->); auto. simpl in *.
      destruct (entry_decl X env _ _ _ _ _ H Hr) as (x & Hx & Ex & Nx).
      pose proof Et as Et'. rewrite Ex in Et'. apply item_of_type_const in Et'. subst x. simpl in Nx.
      rewrite Nx. exists r, (DConstant d). repeat split; auto.
  - intros (r & x & Hr & Hx & Ex & ND & Hf).
    destruct (resolved_entry X env _ _ _ _ _ H Hr) as (_ & Hn & _). rewrite Ex, ident_of_item in Hn.
    destruct x as [d|u|c]; simpl in Hn.
    + now destruct ND.
    + left. eexists. split; [apply get_units_In; auto; exists n, r, u; rewrite Ex; simpl; auto|].
      simpl. auto.
    + right. eexists. split; [apply get_constants_In; auto; exists n, r, c; rewrite Ex; simpl; auto|].
      simpl. auto.
Qed.

(** ** The equations *)

Lemma ev_dim_ext_mut {C} (R : ident -> vec -> Prop) :
  (forall n v w, R n v -> (forall b, v b = w b) -> R n w) ->
  (forall (e : expr (fac C) X) v w, ev_dim X L R e v -> (forall b, v b = w b) -> ev_dim X L R e w) /\
  (forall (f : factor (fac C) X) v w, fev_dim X L R f v -> (forall b, v b = w b) -> fev_dim X L R f w).
Proof.
  intros HR. apply expr_factor_ind.
  - intros f IH v w H E. inversion H; subst. constructor. eauto.
  - intros l IHl r IHr op v w H E. inversion H; subst.
    + eapply ed_mul; eauto. intros b. now rewrite <- E.
    + eapply ed_div; eauto. intros b. now rewrite <- E.
  - intros [c|n] v w H E; inversion H; subst; constructor; [intros b; now rewrite <- E|eauto].
  - intros [c|n] e v w H E; inversion H; subst.
    + constructor. intros b; now rewrite <- E.
    + eapply ed_name_pow; eauto. intros b. now rewrite <- E.
  - intros x IH v w H E. inversion H; subst. constructor. eauto.
Qed.

(** What acceptance gives us to work with. *)
Lemma accepted_all (S : sys) o :
  generated_ok X S -> resolve X env S = Some (o, []) ->
  well_formed S /\
  exists res d8, resolve_items X env (items_of X S) = Some (res, d8) /\
    resolve_items X env (U4 X S) = Some (res, d8) /\ o = out_of X S res /\
    forall x, In x (decls S) -> exists r, sget (decl_name x) res = Some r /\ ri_item r = item_of X x /\
      eval_with X env (look X (lk_of X res)) (it_expr (item_of X x)) = Some (ri_dims r) /\
      (forall n, mentions x n -> exists r', sget n res = Some r').
Proof.
  intros G R. pose proof (proj1 (accept_iff X L env S o [] G R) eq_refl) as [WF _]. split; auto.
  apply resolve_some in R as (res & d8 & Hres & -> & Hds). exists res, d8.
  assert (Du : snd (filter_undefined X (items_of X S)) = []).
  { apply undefined_nil. intros i n Hi Hn. rewrite items_of_decls in Hi.
    apply in_map_iff in Hi as (x & <- & Hx). rewrite names_of_items.
    apply (wf_defined _ _ WF x); auto. now apply mentions_item. }
  destruct (U_defined X S G Du) as (_ & _ & E4).
  split; [now rewrite <- E4|]. split; auto. split; auto.
  intros x Hx. pose proof (wf_grounded _ _ WF x Hx) as Hg.
  apply (resolved_names X env S res d8 _ G Hres) in Hg. apply sget_keys in Hg as [r Hr].
  exists r. split; auto.
  assert (Hi : In (item_of X x) (items_of X S)) by (rewrite items_of_decls; now apply in_map).
  rewrite E4 in Hres. rewrite <- ident_of_item in Hr.
  assert (N : NoDup (map it_ident (items_of X S))) by (rewrite names_of_items; apply (wf_names _ _ WF)).
  destruct (resolved_equation X env _ _ _ _ _ N Hres Hi Hr) as (E & Ev & Hm).
  repeat split; auto. intros n Hn. apply Hm. now apply mentions_item.
Qed.

Lemma R_dim_ext S res ds :
  resolve_items X env (U4 X S) = Some (res, ds) ->
  forall n v w, dim_result X L (out_of X S res) n v -> (forall b, v b = w b) ->
                dim_result X L (out_of X S res) n w.
Proof.
  intros H n v w Hv E. rewrite (dim_result_iff S res ds) in * by auto.
  destruct Hv as (r & Hr & Hv). exists r. split; auto. intros b. now rewrite <- E.
Qed.

Theorem dim_equations (S : sys) o :
  generated_ok X S -> exponents_valid S -> resolve X env S = Some (o, []) ->
  forall x, In x (decls S) ->
    (exists v, dim_result X L o (decl_name x) v) /\
    (forall v, dim_result X L o (decl_name x) v -> dim_equation X L (dim_result X L o) x v).
Proof.
  intros G V R. destruct (accepted_all S o G R) as (WF & res & d8 & Hall & H4 & -> & All).
  assert (OK : forall n r, sget n res = Some r -> bd_ok (dm_dims (ri_dims r))).
  { intros n r Hr. destruct (resolved_entry X env _ _ _ _ _ Hall Hr) as (_ & _ & D).
    eapply iden_ok; eauto. }
  assert (RD : forall n r, sget n res = Some r ->
             dim_result X L (out_of X S res) n (vec_of (dm_dims (ri_dims r)))).
  { intros n r Hr. apply (dim_result_iff S res d8); auto. exists r. auto. }
  intros x Hx. destruct (All x Hx) as (r & Hr & Er & Ev & Hm). split.
  - exists (vec_of (dm_dims (ri_dims r))). now apply RD.
  - intros v Hv. apply (dim_result_iff S res d8) in Hv as (r' & Hr' & Hv); auto.
    assert (r' = r) by congruence. subst r'.
    assert (HN : forall n, mentions x n -> bd_ok (dm_dims (lk_of X res n)) /\
              dim_result X L (out_of X S res) n (vec_of (dm_dims (lk_of X res n)))).
    { intros n Hn. destruct (Hm n Hn) as [rn Hrn]. unfold lk_of. rewrite Hrn. split; eauto. }
    assert (HE : forall {C} (g : C -> dm) (e : expr (fac C) X),
       (forall c, dm_dims (g c) = bd_none X) ->
       (forall p, In p (exponents e) -> In p (decl_exponents x)) ->
       (forall n, occurs n e -> mentions x n) ->
       eval_with X env (look X (lk_of X res)) (expr_map (map_concrete g) e) = Some (ri_dims r) ->
       ev_dim X L (dim_result X L (out_of X S res)) e v).
    { intros C g e Hg Hex Hoc He.
      eapply (proj1 (ev_dim_ext_mut _ (R_dim_ext S res d8 H4))); [|intros b; symmetry; apply Hv].
      apply (proj1 (ev_dim_mut g _ (lk_of X res) Hg)); auto.
      intros p Hp. apply (V x); auto. }
    destruct x as [d|u|c]; cbn [dim_equation].
    + cbn [item_of it_expr item_of_dimension mentions decl_exponents] in *.
      destruct (de_rhs d) as [[]|e] eqn:Ed.
      * cbn [eval_with feval_with look] in Ev. intros b. rewrite Hv.
        replace (ri_dims r) with (dm_of_dimensions X (bd_for_base X (base_dimension_of (de_name d))))
          by congruence.
        cbn [dm_dims dm_of_dimensions]. rewrite vec_for_base.
        destruct (String.eqb b _); [reflexivity|apply ZQc_0].
      * eapply HE; eauto. reflexivity.
    + cbn [item_of it_expr item_of_unit mentions decl_exponents] in *.
      destruct (ue_definition u) as [dim|e] eqn:Ed.
      * cbn [eval_with feval_with look] in Ev. destruct (HN dim eq_refl) as [_ Hd].
        eapply (R_dim_ext S res d8 H4); [exact Hd|]. intros b. rewrite Hv. congruence.
      * eapply HE; eauto. reflexivity.
    + cbn [item_of it_expr item_of_constant mentions decl_exponents] in *.
      eapply HE; eauto. reflexivity.
Qed.

(** Each name of an accepted system has one dimension. *)
Lemma dim_result_functional (S : sys) o ds n v w :
  resolve X env S = Some (o, ds) -> dim_result X L o n v -> dim_result X L o n w ->
  forall b, v b = w b.
Proof.
  intros R Hv Hw b. apply resolve_some in R as (res & d8 & Hres & -> & _).
  apply (dim_result_iff S res d8) in Hv as (r & Hr & Hv); auto.
  apply (dim_result_iff S res d8) in Hw as (r' & Hr' & Hw); auto.
  rewrite Hv, Hw. congruence.
Qed.

(** Units and constants mention no dimension (except base units). *)
Lemma fac_mention (S : sys) x y :
  well_formed S -> In x (decls S) -> In y (decls S) -> mentions x (decl_name y) ->
  decl_kind x = KUnit \/ decl_kind x = KConstant -> ~ is_dimension y.
Proof.
  intros WF Hx Hy Hm Hk Hd. pose proof (wf_kinds _ _ WF x y Hx Hy Hm) as M.
  destruct y; simpl in Hd; try easy. unfold may_mention in M. simpl in M.
  destruct Hk as [E|E]; rewrite E in M; now apply M.
Qed.

Theorem fac_equations (powf : f64 -> X -> f64) lo (S : sys) o :
  (forall m p, into_f64 env (e_float_pow X env m p) = powf (into_f64 env m) p) ->
  (-1074 <= lo <= -52)%Z -> powi_from lo (f_powi env) ->
  generated_ok X S -> resolve X env S = Some (o, []) ->
  forall x, In x (decls S) -> ~ is_dimension x ->
    (exists f, fac_result X env o (decl_name x) f) /\
    (forall f, fac_result X env o (decl_name x) f ->
               fac_equation X env powf (fac_result X env o) x f).
Proof.
  intros PL Hlo Hp G R. destruct (accepted_all S o G R) as (WF & res & d8 & Hall & H4 & -> & All).
  intros x Hx ND. destruct (All x Hx) as (r & Hr & Er & Ev & Hm). split.
  - eexists. apply (fac_result_iff S res d8); auto. exists r, x. eauto.
  - intros f Hf. apply (fac_result_iff S res d8) in Hf as (r' & x' & Hr' & _ & _ & _ & <-); auto.
    assert (r' = r) by congruence. subst r'.
    assert (HN : decl_kind x = KUnit \/ decl_kind x = KConstant ->
              forall n, mentions x n ->
              fac_result X env (out_of X S res) n (into_f64 env (dm_mag (lk_of X res n)))).
    { intros Hk n Hn. destruct (Hm n Hn) as [rn Hrn].
      destruct (entry_decl X env _ _ _ _ _ H4 Hrn) as (y & Hy & Ey & Ny).
      apply (fac_result_iff S res d8); auto. exists rn, y. unfold lk_of. rewrite Hrn.
      split; [reflexivity|]. split; [exact Hy|]. split; [exact Ey|]. split; [|reflexivity].
      subst n. exact (fac_mention S x y WF Hx Hy Hn Hk). }
    destruct x as [d|u|c]; cbn [fac_equation]; auto.
    + destruct (ue_definition u) as [dim|e] eqn:Ed.
      * destruct (wf_base _ _ WF u dim) as (d & Hd & Nd & Bd); [now apply unit_decl|exact Ed|].
        apply dimension_decl in Hd. destruct (All _ Hd) as (rd & Hrd & _ & Evd & _).
        cbn [item_of it_expr item_of_unit item_of_dimension decl_name] in *. rewrite Ed in Ev.
        rewrite Bd in Evd.
        cbn [eval_with feval_with look] in Ev, Evd.
        assert (E1 : ri_dims r = ri_dims rd).
        { unfold lk_of in Ev. rewrite <- Nd, Hrd in Ev. congruence. }
        assert (E2 : dm_mag (ri_dims r) = from_f64 f64_one).
        { rewrite E1. assert (E2 : dm_of_dimensions X (bd_for_base X (base_dimension_of (de_name d))) = ri_dims rd) by congruence.
          rewrite <- E2. reflexivity. }
        rewrite E2. apply (roundtrip_stable env lo); auto. apply one_stable. lia.
      * apply (proj1 (ev_fac_mut powf PL _ (lk_of X res))).
        { intros n Hn. apply HN; [left; cbn [decl_kind]; now rewrite Ed|]. cbn [mentions]. now rewrite Ed. }
        cbn [item_of it_expr item_of_unit] in Ev. rewrite Ed in Ev. exact Ev.
    + apply (proj1 (ev_fac_mut powf PL _ (lk_of X res))).
      { intros n Hn. apply HN; [now right|]. exact Hn. }
      exact Ev.
Qed.

Lemma fac_result_functional (S : sys) o ds n v w :
  resolve X env S = Some (o, ds) -> fac_result X env o n v -> fac_result X env o n w -> v = w.
Proof.
  intros R Hv Hw. apply resolve_some in R as (res & d8 & Hres & -> & _).
  apply (fac_result_iff S res d8) in Hv as (r & x & Hr & _ & _ & _ & Hv); auto.
  apply (fac_result_iff S res d8) in Hw as (r' & x' & Hr' & _ & _ & _ & Hw); auto.
  congruence.
Qed.

(** ** The equations have one solution *)

Lemma ev_dim_agree_mut {C} (R1 R2 : ident -> vec -> Prop) :
  (forall (e : expr (fac C) X), (forall n v w, occurs n e -> R1 n v -> R2 n w -> forall b, v b = w b) ->
     forall v w, ev_dim X L R1 e v -> ev_dim X L R2 e w -> forall b, v b = w b) /\
  (forall (f : factor (fac C) X), (forall n v w, foccurs n f -> R1 n v -> R2 n w -> forall b, v b = w b) ->
     forall v w, fev_dim X L R1 f v -> fev_dim X L R2 f w -> forall b, v b = w b).
Proof.
  apply expr_factor_ind.
  - intros f IH HR v w Hv Hw b. inversion Hv; inversion Hw; subst. apply IH; auto.
    intros n v0 w0 Hn. apply HR. now constructor.
  - intros l IHl r IHr op HR v w Hv Hw b.
    assert (HL : forall n v0 w0, occurs n l -> R1 n v0 -> R2 n w0 -> forall b0, v0 b0 = w0 b0)
      by (intros n v0 w0 Hn; apply HR; now apply occ_lhs).
    assert (HRR : forall n v0 w0, foccurs n r -> R1 n v0 -> R2 n w0 -> forall b0, v0 b0 = w0 b0)
      by (intros n v0 w0 Hn; apply HR; now apply occ_rhs).
    inversion Hv as [|l1 r1 a1 a2 a Ha1 Ha2 Ea|l1 r1 a1 a2 a Ha1 Ha2 Ea]; subst;
    inversion Hw as [|l2 r2 b1 b2 b' Hb1 Hb2 Eb|l2 r2 b1 b2 b' Hb1 Hb2 Eb]; subst;
    rewrite Ea, Eb, (IHl HL _ _ Ha1 Hb1), (IHr HRR _ _ Ha2 Hb2); reflexivity.
  - intros [c|n] HR v w Hv Hw b.
    + inversion Hv as [? ? E1| | | |]; inversion Hw as [? ? E2| | | |]; subst. now rewrite E1, E2.
    + inversion Hv; inversion Hw; subst. eapply HR; eauto. constructor.
  - intros [c|n] e HR v w Hv Hw b.
    + inversion Hv as [| |? ? ? E1| |]; inversion Hw as [| |? ? ? E2| |]; subst. now rewrite E1, E2.
    + inversion Hv as [| | |? ? v1 ? R1' E1|]; inversion Hw as [| | |? ? v2 ? R2' E2|]; subst.
      rewrite E1, E2. f_equal. eapply HR; eauto. constructor.
  - intros x IH HR v w Hv Hw b. inversion Hv; inversion Hw; subst. apply IH; auto.
    intros n v0 w0 Hn. apply HR. now constructor.
Qed.

(** Any assignment of dimensions satisfying all equations is the output's. *)
Theorem dim_unique (S : sys) o (V : ident -> vec) :
  generated_ok X S -> exponents_valid S -> resolve X env S = Some (o, []) ->
  (forall x, In x (decls S) -> dim_equation X L (fun n v => forall b, v b = V n b) x (V (decl_name x))) ->
  forall x, In x (decls S) -> dim_result X L o (decl_name x) (V (decl_name x)).
Proof.
  intros G VE R HV x Hx.
  destruct (accepted_all S o G R) as (WF & res & d8 & Hall & H4 & Eo & All).
  assert (K : forall n, grounded S n -> forall v, dim_result X L o n v -> forall b, V n b = v b).
  { intros n Hg. induction Hg as [y Hy Hm IH]. intros v Hv b.
    pose proof (proj2 (dim_equations S o G VE R y Hy) v Hv) as E2.
    pose proof (HV y Hy) as E1.
    assert (HR : forall n v w, mentions y n -> (forall b, v b = V n b) -> dim_result X L o n w ->
               forall b, v b = w b).
    { intros n v0 w0 Hn H1 H2 b0. rewrite H1. now apply IH. }
    destruct y as [d|u|c]; cbn [dim_equation mentions] in *.
    - destruct (de_rhs d) as [[]|e] eqn:Ed.
      + cbn [decl_name]. now rewrite E1, E2.
      + eapply (proj1 (ev_dim_agree_mut _ _) e HR); eauto.
    - destruct (ue_definition u) as [dim|e] eqn:Ed.
      + rewrite E1. now apply (IH dim).
      + eapply (proj1 (ev_dim_agree_mut _ _) e HR); eauto.
    - eapply (proj1 (ev_dim_agree_mut _ _) _ HR); eauto. }
  destruct (dim_equations S o G VE R x Hx) as [[v Hv] _].
  rewrite Eo in Hv |- *. eapply (R_dim_ext S res d8 H4); [exact Hv|]. intros b. symmetry.
  apply K; [now apply (wf_grounded _ _ WF)|now rewrite Eo].
Qed.

Lemma ev_fac_agree_mut powf (R1 R2 : ident -> f64 -> Prop) :
  (forall (e : expr (fac magnitude) X), (forall n v w, occurs n e -> R1 n v -> R2 n w -> v = w) ->
     forall v w, ev_fac X env powf R1 e v -> ev_fac X env powf R2 e w -> v = w) /\
  (forall (f : factor (fac magnitude) X), (forall n v w, foccurs n f -> R1 n v -> R2 n w -> v = w) ->
     forall v w, fev_fac X env powf R1 f v -> fev_fac X env powf R2 f w -> v = w).
Proof.
  apply expr_factor_ind.
  - intros f IH HR v w Hv Hw. inversion Hv; inversion Hw; subst. apply IH; auto.
    intros n v0 w0 Hn. apply HR. now constructor.
  - intros l IHl r IHr op HR v w Hv Hw.
    assert (HL : forall n v0 w0, occurs n l -> R1 n v0 -> R2 n w0 -> v0 = w0)
      by (intros n v0 w0 Hn; apply HR; now apply occ_lhs).
    assert (HRR : forall n v0 w0, foccurs n r -> R1 n v0 -> R2 n w0 -> v0 = w0)
      by (intros n v0 w0 Hn; apply HR; now apply occ_rhs).
    inversion Hv as [|l1 r1 a1 a2 Ha1 Ha2|l1 r1 a1 a2 Ha1 Ha2]; subst;
    inversion Hw as [|l2 r2 b1 b2 Hb1 Hb2|l2 r2 b1 b2 Hb1 Hb2]; subst;
    rewrite (IHl HL _ _ Ha1 Hb1), (IHr HRR _ _ Ha2 Hb2); reflexivity.
  - intros [c|n] HR v w Hv Hw; inversion Hv; inversion Hw; subst; auto. eapply HR; eauto. constructor.
  - intros [c|n] e HR v w Hv Hw; inversion Hv; inversion Hw; subst; auto.
    f_equal. eapply HR; eauto. constructor.
  - intros x IH HR v w Hv Hw. inversion Hv; inversion Hw; subst. apply IH; auto.
    intros n v0 w0 Hn. apply HR. now constructor.
Qed.

(** Any assignment of factors satisfying all equations is the output's. *)
Theorem fac_unique (powf : f64 -> X -> f64) lo (S : sys) o (F : ident -> f64) :
  (forall m p, into_f64 env (e_float_pow X env m p) = powf (into_f64 env m) p) ->
  (-1074 <= lo <= -52)%Z -> powi_from lo (f_powi env) ->
  generated_ok X S -> resolve X env S = Some (o, []) ->
  (forall x, In x (decls S) -> fac_equation X env powf (fun n v => v = F n) x (F (decl_name x))) ->
  forall x, In x (decls S) -> ~ is_dimension x -> fac_result X env o (decl_name x) (F (decl_name x)).
Proof.
  intros PL Hlo Hp G R HF x Hx ND.
  destruct (accepted_all S o G R) as (WF & res & d8 & Hall & H4 & Eo & All).
  assert (K : forall n, grounded S n -> forall f, fac_result X env o n f -> F n = f).
  { intros n Hg. induction Hg as [y Hy Hm IH]. intros f Hf.
    assert (NDy : ~ is_dimension y).
    { rewrite Eo in Hf. apply (fac_result_iff S res d8) in Hf as (r & y' & Hr & Hy' & Ey & N' & _); auto.
      destruct (All y Hy) as (r' & Hr' & Ey' & _). destruct y'; simpl in *; destruct y; simpl in *; try easy;
      assert (E : ri_item r = ri_item r') by congruence; rewrite Ey, Ey' in E; discriminate (f_equal it_type E). }
    pose proof (proj2 (fac_equations powf lo S o PL Hlo Hp G R y Hy NDy) f Hf) as E2.
    pose proof (HF y Hy) as E1.
    assert (HR : forall n v w, mentions y n -> v = F n -> fac_result X env o n w -> v = w).
    { intros n v0 w0 Hn H1 H2. rewrite H1. now apply IH. }
    destruct y as [d|u|c]; cbn [fac_equation mentions] in *.
    - now destruct NDy.
    - destruct (ue_definition u) as [dim|e] eqn:Ed.
      + rewrite E2. exact E1.
      + eapply (proj1 (ev_fac_agree_mut powf _ _) e HR); eauto.
    - eapply (proj1 (ev_fac_agree_mut powf _ _) _ HR); eauto. }
  destruct (fac_equations powf lo S o PL Hlo Hp G R x Hx ND) as [[f Hf] _].
  rewrite (K _ (wf_grounded _ _ WF x Hx) f Hf). exact Hf.
Qed.
End Equations.

(** The power law for the two builds. *)
Lemma pow_int_law m env x p :
  into_f64 env (e_float_pow (int_exp m) env x p) = pow_int env (into_f64 env x) p.
Proof. reflexivity. Qed.
Lemma pow_rat_law m env x p :
  into_f64 env (e_float_pow (rat_exp m) env x p) = pow_rat env (into_f64 env x) p.
Proof. reflexivity. Qed.
