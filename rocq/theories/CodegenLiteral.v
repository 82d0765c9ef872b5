(** * The dimension literals emitted for resolved dimensions, units and constants *)
From Coq Require Import String List Bool ZArith QArith Qcanon Lia.
From Verif Require Import MachineInt Ratio RatioFacts F64 Magnitude Exponent ExponentFacts SMap
  Expression DimensionMath DimensionMathFacts Types Snake Resolve ResolveLoop SystemSpec ResolveFacts
  ResolveAccept ResolveEquations Expansion CodegenDimension CodegenDimensionFacts Setting.
Import ListNotations.
Local Close Scope Q_scope.
Local Close Scope Qc_scope.
Local Open Scope list_scope.
Local Open Scope Z_scope.

Section Lit.
Context (X : exp_ops) (L : exp_laws X) (env : fenv).
Notation sys := (unresolved X (unit_entry X)).

(** Everything an accepted or rejected run computes keeps a predicate on fields. *)
Lemma iden_pred (P : bdims X -> Prop) (Q : X -> Prop) (S : sys) n d :
  (forall a b c, P a -> P b -> bd_mul X a b = Some c -> P c) ->
  (forall a b c, P a -> P b -> bd_div X a b = Some c -> P c) ->
  (forall a p c, P a -> Q p -> bd_pow X a p = Some c -> P c) ->
  P (bd_none X) ->
  (forall e, In e (u_dimensions S) -> is_base_dimension e = true ->
             P (bd_for_base X (base_dimension_of (de_name e)))) ->
  (forall x p, In x (decls S) -> In p (decl_exponents x) -> Q p) ->
  iden X env (items_of X S) n d -> P (dm_dims d).
Proof.
  intros Hm Hd Hp Hn Hb HQ H. induction H as [i lk d Hi Hlk IH He].
  rewrite items_of_decls in Hi. apply in_map_iff in Hi as (x & <- & Hx).
  apply (proj1 (eval_pred_mut X env P Q (look X lk) Hm Hd Hp)) with (e := it_expr (item_of X x)).
  - intros p Hpp. apply (HQ x); auto. now apply item_exponents.
  - intros [c|m] d' Hf E; simpl in E.
    + assert (Ec : d' = c) by congruence. subst d'.
      destruct x as [dd|u|k]; cbn [item_of it_expr item_of_dimension item_of_unit item_of_constant] in Hf.
      * destruct (de_rhs dd) as [[]|e] eqn:Er.
        -- destruct Hf as [Ef|[]].
           assert (Ec : c = dm_of_dimensions X (bd_for_base X (base_dimension_of (de_name dd)))) by congruence.
           rewrite Ec. apply Hb; [now apply dimension_decl|]. unfold is_base_dimension. now rewrite Er.
        -- rewrite (proj1 (vals_map_mut X _)) in Hf. apply in_map_iff in Hf as ([y|y] & Ey & _); [|discriminate].
           assert (Ec : c = dm_of_dimensions X (bd_none X)) by (cbn [map_concrete] in Ey; congruence).
           rewrite Ec. exact Hn.
      * destruct (ue_definition u) as [dim|e] eqn:Ed; [destruct Hf as [Ef|[]]; discriminate|].
        rewrite (proj1 (vals_map_mut X _)) in Hf. apply in_map_iff in Hf as ([y|y] & Ey & Hy); [|discriminate].
        assert (Ec : c = dm_of_magnitude X y) by (cbn [map_concrete] in Ey; congruence).
        rewrite Ec. exact Hn.
      * rewrite (proj1 (vals_map_mut X _)) in Hf. apply in_map_iff in Hf as ([y|y] & Ey & Hy); [|discriminate].
        assert (Ec : c = dm_of_magnitude X y) by (cbn [map_concrete] in Ey; congruence).
        rewrite Ec. exact Hn.
    + assert (Ec : d' = lk m) by congruence. rewrite Ec. apply IH. now apply others_vals.
  - exact He.
Qed.

(** Fields with names from [fs] and values satisfying [V]. *)
Definition within (fs : list string) (V : X -> Prop) (d : bdims X) : Prop :=
  wf d /\ forall f e, In (f, e) d -> In f fs /\ V e.

Lemma within_insert fs (V : X -> Prop) f e d :
  within fs V d -> In f fs -> V e -> within fs V (sinsert f e d).
Proof.
  intros [W H] Hf He. split; [now apply sinsert_wf|].
  intros g x Hx. apply sinsert_keys in Hx as [E|Hx]; [|auto]. injection E as -> ->. auto.
Qed.

Lemma within_mul fs (V : X -> Prop) a b c :
  (forall x y z, V x -> V y -> e_add X x y = Some z -> V z) ->
  within fs V a -> within fs V b -> bd_mul X a b = Some c -> within fs V c.
Proof.
  intros HV Ha [_ Hb] H. unfold bd_mul in H. revert a Ha H.
  induction b as [|[f e] b IH]; intros a Ha H; simpl in H.
  - injection H as <-. auto.
  - destruct (bd_mul_step X a (f, e)) as [a'|] eqn:E; [|discriminate].
    apply (IH (fun g x Hx => Hb g x (or_intror Hx)) a'); auto. unfold bd_mul_step in E. simpl in E.
    destruct (Hb f e (or_introl eq_refl)) as [Hf He].
    destruct (sget f a) as [v|] eqn:Ev.
    + destruct (e_add X v e) as [v'|] eqn:E'; [|discriminate]. injection E as <-.
      apply within_insert; auto. apply sget_In in Ev. apply (proj2 Ha) in Ev as [_ Ev]. eauto.
    + injection E as <-. now apply within_insert.
Qed.

Lemma within_map fs (V : X -> Prop) (g : X -> option X) a c :
  (forall x y, V x -> g x = Some y -> V y) ->
  within fs V a -> smap_opt g a = Some c -> within fs V c.
Proof.
  intros HV [W H] E. split; [eapply smap_opt_wf; eauto|].
  intros f e I. assert (Wc : wf c) by (eapply smap_opt_wf; eauto).
  apply In_sget in I; auto. pose proof (smap_opt_get g a c f E) as G.
  destruct (sget f a) as [x|] eqn:Ex; [|congruence]. rewrite G in I. apply sget_In in Ex. apply H in Ex as [Hf Hx].
  split; eauto.
Qed.

Lemma resolved_within (V Q : X -> Prop) (S : sys) o ds :
  (forall x y z, V x -> V y -> e_add X x y = Some z -> V z) ->
  (forall x y, V x -> e_neg X x = Some y -> V y) ->
  (forall x p y, V x -> Q p -> e_mul X x p = Some y -> V y) ->
  V (e_one X) ->
  (forall x p, In x (decls S) -> In p (decl_exponents x) -> Q p) ->
  resolve X env S = Some (o, ds) ->
  (forall y, In y (df_dimensions o) -> within (df_base_dimensions o) V (d_dims y)) /\
  (forall y, In y (df_units o) -> within (df_base_dimensions o) V (un_dims y)) /\
  (forall y, In y (df_constants o) -> within (df_base_dimensions o) V (c_dims y)).
Proof.
  intros Hadd Hneg Hmul H1 HQ R.
  apply resolve_some in R as (res & d8 & Hres & -> & _).
  pose proof (resolved_wf X env _ _ _ Hres) as W.
  set (fs := map (fun d => base_dimension_of (de_name d)) (filter is_base_dimension (u_dimensions S))).
  assert (K : forall n r, sget n res = Some r -> within fs V (dm_dims (ri_dims r))).
  { intros n r Hr. destruct (resolved_entry X env _ _ _ _ _ Hres Hr) as (_ & _ & De).
    apply (iden_incl X env _ (items_of X S)) in De; [|apply U4_sub].
    revert De. apply (iden_pred (within fs V) Q S).
    - intros a b c Ha Hb Hc. exact (within_mul fs V a b c Hadd Ha Hb Hc).
    - intros a b c Ha Hb Hc. unfold bd_div in Hc. destruct (bd_inv X b) as [i|] eqn:Ei; [|discriminate].
      apply (within_mul fs V a i c Hadd Ha); auto. exact (within_map fs V _ b i Hneg Hb Ei).
    - intros a p c Ha Hp Hc. unfold bd_pow in Hc. apply (within_map fs V (fun v => e_mul X v p) a c); auto. intros x y Hx. now apply Hmul.
    - split; [constructor|]. intros f e [].
    - intros e He Hb. unfold bd_for_base. apply within_insert; auto.
      + split; [constructor|]. intros ? ? [].
      + unfold fs. apply (in_map (fun d => base_dimension_of (de_name d))). apply filter_In. auto.
    - exact HQ. }
  simpl. fold fs. repeat apply conj; intros y Hy.
  - apply get_dimensions_In in Hy as (n & r & e' & Hr & _ & ->); auto. simpl. eauto.
  - apply get_units_In in Hy as (n & r & e' & Hr & _ & ->); auto. simpl. eauto.
  - apply get_constants_In in Hy as (n & r & e' & Hr & _ & ->); auto. simpl. eauto.
Qed.

(** The emitted struct expression is accepted by rustc and has the resolved exponents. *)
Lemma dim_expr_spec lit fields (dims : bdims X) :
  NoDup fields ->
  within fields (l_valid X L) dims ->
  (forall f e, In (f, e) dims -> lit e = Some e) ->
  exists d, dim_expr X lit fields dims = Some d /\ stands_for X fields L d (vec_of X L dims).
Proof.
  intros N [W Hin] Hl. unfold dim_expr.
  assert (E : mapM (fun kv => let? v := lit (snd kv) in Some (fst kv, v)) dims = Some dims).
  { apply mapM_Some_iff. clear W Hin. induction dims as [|[f e] ds IH]; constructor.
    - simpl. rewrite (Hl f e); [reflexivity|now left].
    - apply IH. intros g x Hx. apply (Hl g x). now right. }
  rewrite E. clear E.
  pose proof (wf_NoDup _ W) as Nd. unfold skeys in Nd.
  assert (Hsub : incl (map fst dims) fields).
  { intros f Hf. apply in_map_iff in Hf as ([g e] & <- & I). apply Hin in I. tauto. }
  assert (C1 : nodupb (map fst dims) = true) by now apply nodupb_iff.
  assert (C2 : forallb (fun f => existsb (String.eqb f) fields) (map fst dims) = true).
  { apply forallb_forall. intros f Hf. apply existsb_eqb. now apply Hsub. }
  assert (Fin : forall base : option (dimval X),
    (base = Some (map (fun f => (f, e_zero X)) fields) \/ (base = None /\ incl fields (map fst dims))) ->
    exists d, struct_expr X fields dims base = Some d /\ stands_for X fields L d (vec_of X L dims)).
  { intros base Hb. unfold struct_expr. rewrite C1, C2. simpl.
    set (g := fun f => match sget f dims with Some v => Some v
                       | None => match base with Some b => sget f b | None => None end end).
    assert (Eg : mapM (fun f => match sget f dims with Some v => Some (f, v)
                        | None => match base with Some b => let? v := sget f b in Some (f, v) | None => None end end) fields
                 = mapM (fun f => let? r := g f in Some (f, r)) fields).
    { clear. induction fields as [|f fs IH]; simpl; auto. rewrite IH. unfold g.
      destruct (sget f dims); auto. destruct base; auto. }
    rewrite Eg. clear Eg.
    assert (Gf : forall f, In f fields -> exists v, g f = Some v /\ l_valid X L v /\ l_val X L v = vec_of X L dims f).
    { intros f Hf. unfold g, vec_of. destruct (sget f dims) as [v|] eqn:Ev.
      - exists v. split; auto. split; auto. apply sget_In in Ev. apply Hin in Ev. tauto.
      - destruct Hb as [->|[_ Hb]].
        + exists (e_zero X). split; [|apply (l_zero X L)].
          assert (Nz : NoDup (map fst (map (fun f => (f, e_zero X)) fields))) by now rewrite map_map, map_id.
          apply (sget_nodup _ f (e_zero X) Nz). apply in_map_iff. eauto.
        + exfalso. apply Hb in Hf. apply sget_None in Ev. auto. }
    destruct (proj2 (mapM_defined (fun f => let? r := g f in Some (f, r)) fields)) as [d Hd].
    { intros f Hf. destruct (Gf f Hf) as (v & -> & _). eauto. }
    exists d. split; auto. apply mapM_shape in Hd as [Sh Ed]; auto.
    apply stands_for_intro; auto. intros f e He. apply Ed in He as [Hf He].
    destruct (Gf f Hf) as (v & Ev & Hv). rewrite He in Ev. injection Ev as ->. auto. }
  destruct (Nat.ltb_spec (length dims) (length fields)) as [Hlt|Hge].
  - rewrite dim_none_eq by auto. apply Fin. auto.
  - apply Fin. right. split; auto.
    apply (NoDup_length_incl Nd); auto. now rewrite map_length.
Qed.
End Lit.

(** ** Exponents that are [i64] values *)

(** What the Rust types guarantee: an [i64], or a [Ratio] of two [i64]. *)
Definition i64_exponent (k : mode) : ops k -> Prop :=
  match k with
  | IntegerExponents => fun e => in_i64 e = true
  | RationalExponents => fun r => in_i64 (num r) = true /\ in_i64 (denom r) = true
  end.

Definition i64_exponents (k : mode) (T : unresolved (ops k) (unit_template (ops k))) : Prop :=
  forall x p, In x (decls (expand_templates T)) -> In p (decl_exponents x) -> i64_exponent k p.

Lemma rnew_canonical m r :
  canonical r -> in_i64 (num r) = true -> in_i64 (denom r) = true ->
  rnew m (num r) (denom r) = Some r.
Proof.
  intros [Hd Hg] Hn Hd'. apply in_i64_iff in Hn, Hd'.
  assert (G : gcd m (num r) (denom r) = Some 1).
  { destruct (Z.eq_dec (num r) (- 2 ^ 63)) as [E|E].
    - assert (Er : i64_rem (num r) (denom r) = Some (Z.rem (num r) (denom r))).
      { unfold i64_rem. destruct (Z.eqb_spec (denom r) 0); [lia|].
        replace (in_i64 (Z.quot (num r) (denom r))) with true; auto.
        symmetry. apply in_i64_iff. pose proof (quot_abs_le (num r) (denom r) n).
        pose proof (Z.quot_opp_l (2 ^ 63) (denom r) n) as Ho. rewrite <- E in Ho.
        pose proof (Z.quot_pos (2 ^ 63) (denom r) ltac:(lia) ltac:(lia)). lia. }
      pose proof (rem_abs (num r) (denom r) ltac:(lia)) as Ha.
      pose proof (Z.mod_pos_bound (Z.abs (num r)) (Z.abs (denom r)) ltac:(lia)).
      assert (Hb : Z.abs (Z.rem (num r) (denom r)) < 2 ^ 63) by lia.
      destruct (gcd_loop_enough 63 (denom r) (Z.rem (num r) (denom r))) as [g Hgl];
        [lia|exact Hb|exact Hb|].
      apply (gcd_loop_more _ 199) in Hgl; [|lia].
      unfold gcd. change 200%nat with (S 199).
      assert (Es : forall f a b, gcd_loop (S f) a b =
        if b =? 0 then Some a else let? q := i64_rem a b in gcd_loop f b q) by reflexivity.
      rewrite Es.
      destruct (Z.eqb_spec (denom r) 0); [lia|]. rewrite Er, Hgl.
      pose proof (gcd_loop_sound _ _ _ _ Hgl) as Hs. rewrite gcd_rem, Hg in Hs by auto.
      unfold i64_abs. rewrite Hs. reflexivity.
    - rewrite gcd_def by lia. now rewrite Hg. }
  unfold rnew. rewrite G. unfold i64_div. simpl. rewrite !Z.quot_1_r.
  replace (in_i64 (num r)) with true by (symmetry; apply in_i64_iff; lia).
  replace (in_i64 (denom r)) with true by (symmetry; apply in_i64_iff; lia).
  now destruct r.
Qed.

Lemma rnew_range m n d r : rnew m n d = Some r -> in_i64 (num r) = true /\ in_i64 (denom r) = true.
Proof.
  unfold rnew. destruct (gcd m n d) as [g|]; [|discriminate].
  destruct (i64_div n g) as [n'|] eqn:E1; [|discriminate].
  destruct (i64_div d g) as [d'|] eqn:E2; [|discriminate].
  intros H. injection H as <-. apply i64_div_Some in E1, E2. simpl. tauto.
Qed.

Lemma exponent_range k (x y : ops k) p r :
  i64_exponent k x -> i64_exponent k y ->
  (e_add (ops k) x y = Some r -> i64_exponent k r) /\
  (e_neg (ops k) x = Some r -> i64_exponent k r) /\
  (e_mul (ops k) x p = Some r -> i64_exponent k r).
Proof.
  destruct k; simpl; intros Hx Hy.
  - repeat split; apply fit_range.
  - split; [|split]; intros H.
    + unfold radd in H. repeat match type of H with (let? _ := ?e in _) = _ => destruct e; [|discriminate H] end.
      eapply rnew_range; eauto.
    + unfold rneg in H. destruct (i64_neg Checked (num x)) as [z|] eqn:E; [|discriminate].
      injection H as <-. simpl. split; [eapply fit_range; eauto|tauto].
    + unfold rmul in H. repeat match type of H with (let? _ := ?e in _) = _ => destruct e; [|discriminate H] end.
      eapply rnew_range; eauto.
Qed.

(** The literal of an exponent in the generated code. *)
Definition lit (k : mode) : ops k -> option (ops k) :=
  match k with IntegerExponents => lit_int | RationalExponents => lit_rat Checked end.

Lemma lit_id k e : l_valid _ (laws k) e -> i64_exponent k e -> lit k e = Some e.
Proof.
  destruct k; simpl; [auto|]. intros C [H1 H2]. now apply rnew_canonical.
Qed.

(** For every resolved item of an accepted system. *)
Lemma resolved_literal k env (T : unresolved (ops k) (unit_template (ops k))) o ds d :
  literals_ok k T -> i64_exponents k T -> run_unit_system (ops k) env T = Some (o, ds) ->
  NoDup (df_base_dimensions o) ->
  (exists y, In y (df_dimensions o) /\ d_dims y = d) \/
  (exists y, In y (df_units o) /\ un_dims y = d) \/
  (exists y, In y (df_constants o) /\ c_dims y = d) ->
  exists v, dim_expr (ops k) (lit k) (df_base_dimensions o) d = Some v /\
    stands_for (ops k) (df_base_dimensions o) (laws k) v (vec_of (ops k) (laws k) d).
Proof.
  intros [_ Hv] Hi R N Hd.
  set (V := fun e : ops k => l_valid _ (laws k) e /\ i64_exponent k e).
  assert (Hw : within (ops k) (df_base_dimensions o) V d).
  { destruct (resolved_within (ops k) env V (l_valid _ (laws k)) (expand_templates T) o ds) as (A & B & C).
    - intros x y z [X1 X2] [Y1 Y2] E. split; [apply (l_add _ (laws k)) in E; tauto|].
      exact (proj1 (exponent_range k x y x z X2 Y2) E).
    - intros x z [X1 X2] E. split; [apply (l_neg _ (laws k)) in E; tauto|].
      exact (proj1 (proj2 (exponent_range k x x x z X2 X2)) E).
    - intros x p z [X1 X2] Hp E. split; [apply (l_mul _ (laws k)) in E; tauto|].
      exact (proj2 (proj2 (exponent_range k x x p z X2 X2)) E).
    - split; [apply (l_one _ (laws k))|]. destruct k; simpl; auto.
    - exact Hv.
    - exact R.
    - destruct Hd as [(y & Hy & <-)|[(y & Hy & <-)|(y & Hy & <-)]]; auto. }
  destruct Hw as [W Hw]. apply (dim_expr_spec (ops k) (laws k)); auto.
  - split; auto. intros f e I. destruct (Hw f e I) as [Hf [He _]]. auto.
  - intros f e I. destruct (Hw f e I) as [Hf [He Hr]]. now apply lit_id.
Qed.
