(** * When a dimension annotation is accepted *)
From Coq Require Import String List Bool ZArith QArith Qcanon Lia.
From Verif Require Import MachineInt Ratio F64 Magnitude Exponent ExponentFacts SMap Snake Expression DimensionMath DimensionMathFacts Types
  ExpansionSpec Resolve ResolveLoop ResolveChecks SystemSpec ResolveFacts ResolveEquations ResolveAccept Expansion Setting SystemFacts RemovalFacts.
Import ListNotations.
Close Scope Q_scope. Close Scope Qc_scope.
Local Open Scope list_scope.

(** ** Specification: the base dimensions a name is built from
    Those met when the definition is unfolded, whether or not they cancel: [Length / Length] is built
    from [Length]. *)
Inductive built_from {X} (S : unresolved X (unit_entry X)) : ident -> string -> Prop :=
| built_base d : In d (u_dimensions S) -> de_rhs d = DefBase tt ->
    built_from S (de_name d) (base_dimension_of (de_name d))
| built_step x n b : In x (decls S) -> mentions x n -> built_from S n b -> built_from S (decl_name x) b.

Section Keys.
Context (X : exp_ops) (env : fenv).

Lemma insert_keys (b : string) (v : X) m c : In c (skeys (sinsert b v m)) <-> c = b \/ In c (skeys m).
Proof.
  rewrite !sget_keys. destruct (string_dec c b) as [->|N].
  - split; [auto|]. intros _. exists v. apply sget_insert_eq.
  - rewrite sget_insert_neq by auto. split; [auto|]. intros [->|H]; [congruence|exact H].
Qed.
Lemma mul_entries_keys l : forall f c, bd_mul_entries X f l = Some c -> forall b, In b (skeys c) <-> In b (skeys f) \/ In b (map fst l).
Proof.
  induction l as [|[g v] l IH]; cbn [bd_mul_entries map fst]; intros f c E b.
  - assert (c = f) by congruence. subst c. cbn [In]. tauto.
  - unfold bd_mul_step in E. cbn [fst snd] in E. destruct (sget g f) as [w|] eqn:G.
    + destruct (e_add X w v) as [w'|]; [|discriminate E]. cbn in E. rewrite (IH _ _ E b), insert_keys. cbn [In].
      assert (In g (skeys f)) by (apply sget_keys; eauto).
      split; [intros [[->|?]|?]|intros [?|[<-|?]]]; auto.
    + cbn in E. rewrite (IH _ _ E b), insert_keys. cbn [In]. split; [intros [[->|?]|?]|intros [?|[<-|?]]]; auto.
Qed.
Lemma mul_keys a c d : bd_mul X a c = Some d -> forall b, In b (skeys d) <-> In b (skeys a) \/ In b (skeys c).
Proof. exact (mul_entries_keys c a d). Qed.

(** Nothing recorded is ever dropped, nothing else is recorded. *)
Lemma eval_keys lk :
  (forall (e : expr (fac (dimmag X)) X) v, eval_with X env (look X lk) e = Some v -> forall b, In b (skeys (dm_dims v)) <->
     (exists c, In (Concrete c) (expr_vals e) /\ In b (skeys (dm_dims c))) \/ (exists n, In n (others e) /\ In b (skeys (dm_dims (lk n))))).
Proof.
  assert (K : forall (e : expr (fac (dimmag X)) X) v, eval_with X env (look X lk) e = Some v -> forall b, In b (skeys (dm_dims v)) <->
     exists f, In f (expr_vals e) /\ match f with Concrete c => In b (skeys (dm_dims c)) | Other n => In b (skeys (dm_dims (lk n))) end).
  { assert (V : forall t v b, look X lk t = Some v -> (In b (skeys (dm_dims v)) <->
        match t with Concrete c => In b (skeys (dm_dims c)) | Other n => In b (skeys (dm_dims (lk n))) end)).
    { intros [c|n] v b E; cbn [look] in E; assert (Ev : v = _) by (symmetry; injection E; intros Z; exact Z); now rewrite Ev. }
    pose (P := fun (l : list (fac (dimmag X))) (b : string) => exists f, In f l /\
      match f with Concrete c => In b (skeys (dm_dims c)) | Other n => In b (skeys (dm_dims (lk n))) end).
    assert (A : forall l m b, P (l ++ m) b <-> P l b \/ P m b).
    { intros l m b. unfold P. split.
      - intros (f & Hf & H). apply in_app_iff in Hf as [Hf|Hf]; [left|right]; eauto.
      - intros [(f & Hf & H)|(f & Hf & H)]; exists f; rewrite in_app_iff; auto. }
    assert (O : forall t b, P [t] b <-> match t with Concrete c => In b (skeys (dm_dims c)) | Other n => In b (skeys (dm_dims (lk n))) end).
    { intros t b. unfold P. split; [intros (f & [<-|[]] & H); exact H|intros H; exists t; split; [now left|exact H]]. }
    change (forall (e : expr (fac (dimmag X)) X) v, eval_with X env (look X lk) e = Some v -> forall b, In b (skeys (dm_dims v)) <-> P (expr_vals e) b).
    apply (expr_ind2 _ _ (fun e => forall v, eval_with X env (look X lk) e = Some v -> forall b, In b (skeys (dm_dims v)) <-> P (expr_vals e) b)
      (fun e => forall v, feval_with X env (look X lk) e = Some v -> forall b, In b (skeys (dm_dims v)) <-> P (factor_vals e) b)).
    - intros f IH v E. exact (IH v E).
    - intros l IHl f IHf op v E b. cbn [expr_vals]. rewrite A.
      change (eval_with X env (look X lk) (EBin l f op)) with
        (let? a := eval_with X env (look X lk) l in let? c := feval_with X env (look X lk) f in
         match op with OMul => dm_mul X env a c | ODiv => dm_div X env a c end) in E.
      destruct (eval_with X env (look X lk) l) as [a|]; [|discriminate E].
      destruct (feval_with X env (look X lk) f) as [c|]; [|discriminate E].
      rewrite <- (IHl a eq_refl b), <- (IHf c eq_refl b). destruct op.
      + unfold dm_mul in E. destruct (bd_mul X (dm_dims a) (dm_dims c)) as [d|] eqn:D; [|discriminate E].
        assert (Ev : dm_dims v = d) by (now injection E as <-). rewrite Ev. exact (mul_keys _ _ _ D b).
      + unfold dm_div in E. destruct (bd_div X (dm_dims a) (dm_dims c)) as [d|] eqn:D; [|discriminate E].
        assert (Ev : dm_dims v = d) by (now injection E as <-). rewrite Ev. unfold bd_div in D.
        destruct (bd_inv X (dm_dims c)) as [i|] eqn:I; [|discriminate D]. rewrite (mul_keys _ _ _ D b).
        unfold bd_inv in I. now rewrite (smap_opt_keys _ _ _ I).
    - intros t v E b. cbn [factor_vals]. rewrite O. now apply V.
    - intros t e v E b. cbn [factor_vals]. rewrite O.
      change (feval_with X env (look X lk) (FPow t e)) with (let? a := look X lk t in dm_pow X env a e) in E.
      destruct (look X lk t) as [a|] eqn:Lt; [|discriminate E]. rewrite <- (V t a b Lt).
      unfold dm_pow in E. destruct (bd_pow X (dm_dims a) e) as [d|] eqn:D; [|discriminate E].
      assert (Ev : dm_dims v = d) by (now injection E as <-). rewrite Ev. unfold bd_pow in D. now rewrite (smap_opt_keys _ _ _ D).
    - intros y IH v E. exact (IH v E). }
  intros e v E b. rewrite (K e v E b). split.
  - intros ([c|n] & Hf & H); [left; eauto|right]. exists n. split; [now apply others_vals|exact H].
  - intros [(c & Hc & H)|(n & Hn & H)]; [exists (Concrete c); auto|exists (Other n)]. split; [now apply others_vals|exact H].
Qed.

(** What the constants of a declaration record. *)
Lemma decl_keys (x : decl X) b :
  (exists c, In (Concrete c) (expr_vals (it_expr (item_of X x))) /\ In b (skeys (dm_dims c))) <->
  exists d, x = DDimension d /\ de_rhs d = DefBase tt /\ b = base_dimension_of (de_name d).
Proof.
  assert (N : forall C (e : expr (fac C) X) (g : C -> dimmag X), (forall c, dm_dims (g c) = bd_none X) ->
     ~ exists c, In (Concrete c) (expr_vals (expr_map (map_concrete g) e)) /\ In b (skeys (dm_dims c))).
  { intros C e g Hg (c & Hc & Hb). rewrite (proj1 (vals_map_mut X _)) in Hc. apply in_map_iff in Hc as ([y|y] & E & _); cbn [map_concrete] in E; [|discriminate E].
    assert (Ec : g y = c) by (injection E; auto). rewrite <- Ec, Hg in Hb. destruct Hb. }
  destruct x as [d|u|c]; cbn [item_of item_of_dimension item_of_unit item_of_constant it_expr].
  - destruct (de_rhs d) as [[]|e] eqn:R.
    + split.
      * intros (c & [Hc|[]] & Hb). exists d. split; [reflexivity|]. split; [exact R|].
        set (m := dm_of_dimensions X _) in Hc. assert (Ec : m = c) by (injection Hc; auto). rewrite <- Ec in Hb. unfold m in Hb. cbn in Hb.
        now destruct Hb as [<-|[]].
      * intros (d' & Ed & _ & ->). assert (d' = d) by congruence. subst d'. eexists. split; [now left|]. cbn. now left.
    + split; [intros H; exact (match N _ e (fun _ => dm_of_dimensions X (bd_none X)) (fun _ => eq_refl) H with end)|intros (d' & Ed & R' & _)]. assert (d' = d) by congruence. congruence.
  - split; [|intros (d' & Ed & _); discriminate Ed]. destruct (ue_definition u) as [i|e].
    + intros (c & [Hc|[]] & _). discriminate Hc.
    + intros H. exact (match N _ e (dm_of_magnitude X) (fun _ => eq_refl) H with end).
  - split; [|intros (d' & Ed & _); discriminate Ed]. intros H. exact (match N _ (ce_rhs c) (dm_of_magnitude X) (fun _ => eq_refl) H with end).
Qed.
End Keys.

Section Annotations.
Context (X : exp_ops) (L : exp_laws X) (env : fenv).
Notation sys := (unresolved X (unit_entry X)).
Context (S : sys) (o : defs X) (ds : list diag).
Hypothesis G : generated_ok X S.
Hypothesis V : exponents_valid X L S.
Hypothesis R : resolve X env S = Some (o, ds).

Lemma recorded_items : well_formed S -> exists res d8, resolve_items X env (U4 X S) = Some (res, d8) /\ o = out_of X S res /\ wf res /\
  (forall n r, sget n res = Some r -> exists x, In x (decls S) /\ ri_item r = item_of X x /\ decl_name x = n) /\
  forall x, In x (decls S) -> exists r, sget (decl_name x) res = Some r /\ ri_item r = item_of X x /\ bd_ok X L (dm_dims (ri_dims r)) /\
    forall b, In b (skeys (dm_dims (ri_dims r))) <-> built_from S (decl_name x) b.
Proof.
  intros W. destruct (well_formed_all X env S o ds G W R) as (res & d8 & Hres & -> & Al). exists res, d8. split; [exact Hres|]. split; [reflexivity|].
  split; [exact (resolved_wf X env _ _ _ Hres)|]. split; [intros n r Hr; exact (entry_decl X env S res d8 n r Hres Hr)|].
  assert (K : forall n, grounded S n -> forall b, In b (skeys (dm_dims (lk_of X res n))) <-> built_from S n b).
  { intros n Gr. induction Gr as [x Hx Hm IH]. intros b. destruct (Al x Hx) as (r & Er & Ir & Ev).
    unfold lk_of at 1. rewrite Er. rewrite (eval_keys X env (lk_of X res) _ _ Ev b), decl_keys. split.
    - intros [(d & -> & Rd & ->)|(n & Hn & Hb)].
      + apply (built_base S d); [|exact Rd]. unfold decls in Hx. rewrite !in_app_iff, !in_map_iff in Hx.
        destruct Hx as [(z & E & Hz)|[(z & E & _)|(z & E & _)]]; [|discriminate E|discriminate E]. now assert (z = d) by congruence; subst z.
      + apply mentions_item in Hn. apply (built_step S x n b Hx Hn). now apply IH.
    - intros B. inversion B as [d Hd Rd E1 E2|y n c Hy My Bn E1 E2]; subst.
      + left. exists d. assert (x = DDimension d); [|auto]. symmetry. apply (same_decl X S); auto; [apply (wf_names _ _ W)|].
        unfold decls. rewrite !in_app_iff, !in_map_iff. left. eauto.
      + assert (y = x) by (apply (same_decl X S); auto; apply (wf_names _ _ W)). subst y. right. exists n.
        split; [now apply mentions_item|]. now apply IH. }
  intros x Hx. destruct (Al x Hx) as (r & Er & Ir & _). exists r. split; [exact Er|]. split; [exact Ir|]. split.
  - destruct (resolved_entry X env _ _ _ _ _ Hres Er) as (_ & _ & De).
    apply (iden_incl X env _ (items_of X S)) in De; [|apply U4_sub]. eapply iden_ok; eauto.
  - intros b. rewrite <- (K _ (wf_grounded _ _ W x Hx) b). unfold lk_of. now rewrite Er.
Qed.

Lemma recorded : well_formed S -> exists res, o = out_of X S res /\ wf res /\
  (forall n r, sget n res = Some r -> exists x, In x (decls S) /\ ri_item r = item_of X x /\ decl_name x = n) /\
  forall x, In x (decls S) -> exists r, sget (decl_name x) res = Some r /\ ri_item r = item_of X x /\ bd_ok X L (dm_dims (ri_dims r)) /\
    forall b, In b (skeys (dm_dims (ri_dims r))) <-> built_from S (decl_name x) b.
Proof. intros W. destruct (recorded_items W) as (res & d8 & _ & H). exists res. exact H. Qed.

(** What is known about the result for one name. *)
Lemma result_one res n r x v : wf res -> o = out_of X S res ->
  (forall n r, sget n res = Some r -> exists x, In x (decls S) /\ ri_item r = item_of X x /\ decl_name x = n) ->
  sget n res = Some r -> ri_item r = item_of X x -> decl_name x = n ->
  (dim_result X L o n v <-> forall b, v b = vec_of X L (dm_dims (ri_dims r)) b).
Proof.
  intros W -> En Hr Ir Nx. rewrite <- vec_is_iff. unfold dim_result. cbn [out_of df_dimensions df_units df_constants]. split.
  - assert (U : forall n' r', sget n' res = Some r' -> it_ident (ri_item r') = n -> r' = r).
    { intros n' r' H' I'. destruct (En n' r' H') as (y & _ & Iy & Ny). rewrite Iy, ident_of_item in I'. congruence. }
    intros [(d & Hd & Nd & Vd)|[(d & Hd & Nd & Vd)|(d & Hd & Nd & Vd)]].
    + apply (get_dimensions_In X _ _ W) in Hd as (n' & r' & d' & H' & T' & ->). cbn in *. rewrite <- (U n' r' H'); [exact Vd|].
      unfold it_ident. now rewrite T'.
    + apply (get_units_In X _ _ W) in Hd as (n' & r' & d' & H' & T' & ->). cbn in *. rewrite <- (U n' r' H'); [exact Vd|].
      unfold it_ident. now rewrite T'.
    + apply (get_constants_In X _ _ W) in Hd as (n' & r' & d' & H' & T' & ->). cbn in *. rewrite <- (U n' r' H'); [exact Vd|].
      unfold it_ident. now rewrite T'.
  - intros Vd. destruct x as [e|e|e].
    + left. eexists. split; [apply (get_dimensions_In X _ _ W); exists n, r, e; split; [exact Hr|]; split; [now rewrite Ir|reflexivity]|].
      split; [exact Nx|exact Vd].
    + right. left. eexists. split; [apply (get_units_In X _ _ W); exists n, r, e; split; [exact Hr|]; split; [now rewrite Ir|reflexivity]|].
      split; [exact Nx|exact Vd].
    + right. right. eexists. split; [apply (get_constants_In X _ _ W); exists n, r, e; split; [exact Hr|]; split; [now rewrite Ir|reflexivity]|].
      split; [exact Nx|exact Vd].
Qed.

Definition annotation_fits (x : decl X) (a : ident) : Prop :=
  (exists d, In d (u_dimensions S) /\ de_name d = a) /\
  forall b, built_from S a b -> built_from S (decl_name x) b /\
    forall v w, dim_result X L o a v -> dim_result X L o (decl_name x) w -> w b = v b.

Lemma annotation_exactly x a : well_formed S -> In x (decls S) -> annotation x = Some a ->
  (annotation_accepted o x <-> annotation_fits x a).
Proof.
  intros W Hx Ha. destruct (recorded W) as (res & Eo & Wr & En & Al). destruct (Al x Hx) as (r & Er & Ir & Or & Kr).
  assert (Fx : forall dx, fields_of o x dx <-> dx = dm_dims (ri_dims r)).
  { intros dx. rewrite Eo. split.
    - assert (U : forall n' r', sget n' res = Some r' -> it_ident (ri_item r') = decl_name x -> r' = r).
      { intros n' r' H' I'. destruct (En n' r' H') as (y & _ & Iy & Ny). rewrite Iy, ident_of_item in I'. congruence. }
      destruct x as [e|e|e]; cbn [fields_of out_of df_dimensions df_units df_constants decl_name] in *; intros (y & Hy & Ny & <-).
      + apply (get_dimensions_In X _ _ Wr) in Hy as (n' & r' & d' & H' & T' & ->). cbn in *. rewrite <- (U n' r' H'); [reflexivity|].
        unfold it_ident. now rewrite T'.
      + apply (get_units_In X _ _ Wr) in Hy as (n' & r' & d' & H' & T' & ->). cbn in *. rewrite <- (U n' r' H'); [reflexivity|].
        unfold it_ident. now rewrite T'.
      + apply (get_constants_In X _ _ Wr) in Hy as (n' & r' & d' & H' & T' & ->). cbn in *. rewrite <- (U n' r' H'); [reflexivity|].
        unfold it_ident. now rewrite T'.
    - intros ->. destruct x as [e|e|e]; cbn [fields_of out_of df_dimensions df_units df_constants decl_name] in *.
      + eexists. split; [apply (get_dimensions_In X _ _ Wr); exists (de_name e), r, e; split; [exact Er|]; split; [now rewrite Ir|reflexivity]|]. auto.
      + eexists. split; [apply (get_units_In X _ _ Wr); exists (ue_name e), r, e; split; [exact Er|]; split; [now rewrite Ir|reflexivity]|]. auto.
      + eexists. split; [apply (get_constants_In X _ _ Wr); exists (ce_name e), r, e; split; [exact Er|]; split; [now rewrite Ir|reflexivity]|]. auto. }
  pose proof (result_one res (decl_name x) r x) as Rx.
  split.
  - intros A. destruct (A a Ha) as (D & dx & HD & ND & Hf & Sub). apply Fx in Hf. subst dx.
    rewrite Eo in HD. cbn [out_of df_dimensions] in HD. apply (get_dimensions_In X _ _ Wr) in HD as (n & ra & d & Hra & Ta & ->).
    destruct (En n ra Hra) as (y & Hy & Iy & Ny). rewrite Iy in Ta. destruct y as [z|z|z]; try discriminate Ta.
    assert (z = d) by (cbn in Ta; congruence). subst z. cbn [decl_name d_name d_dims] in *. subst n. subst a.
    destruct (Al (DDimension d) Hy) as (ra' & Era & Ira & Ora & Kra). cbn [decl_name] in *. assert (ra' = ra) by congruence. subst ra'.
    split.
    + exists d. split; [|reflexivity]. unfold decls in Hy. rewrite !in_app_iff, !in_map_iff in Hy.
      destruct Hy as [(z & E & Hz)|[(z & E & _)|(z & E & _)]]; [|discriminate E|discriminate E]. now assert (z = d) by congruence; subst z.
    + intros b B. apply Kra, sget_keys in B as (e & Ee). pose proof (Sub b e (sget_In _ _ _ Ee)) as Ex.
      apply (In_sget _ _ _ (proj1 Or)) in Ex. split; [apply Kr, sget_keys; eauto|]. intros v w Hv Hw.
      rewrite (proj1 (result_one res (de_name d) ra (DDimension d) v Wr Eo En Hra Iy eq_refl) Hv b).
      rewrite (proj1 (Rx w Wr Eo En Er Ir eq_refl) Hw b). unfold vec_of. now rewrite Ee, Ex.
  - intros [(d & Hd & Nd) F] a' Ha'. assert (a' = a) by congruence. subst a'. subst a.
    assert (Hdd : In (DDimension d) (decls S)) by (unfold decls; rewrite !in_app_iff, !in_map_iff; left; eauto).
    destruct (Al (DDimension d) Hdd) as (ra & Era & Ira & Ora & Kra). cbn [decl_name] in *.
    exists {| d_name := de_name d; d_dims := dm_dims (ri_dims ra) |}, (dm_dims (ri_dims r)).
    split; [rewrite Eo; cbn [out_of df_dimensions]; apply (get_dimensions_In X _ _ Wr); exists (de_name d), ra, d; split; [exact Era|]; split; [now rewrite Ira|reflexivity]|].
    split; [reflexivity|]. split; [now apply Fx|]. cbn [d_dims]. intros b e He. apply (In_sget _ _ _ (proj1 Ora)) in He.
    assert (B : built_from S (de_name d) b) by (apply Kra, sget_keys; eauto).
    destruct (F b B) as [Bx Eq]. apply Kr, sget_keys in Bx as (e' & Ee').
    specialize (Eq (vec_of X L (dm_dims (ri_dims ra))) (vec_of X L (dm_dims (ri_dims r)))
      (proj2 (result_one res (de_name d) ra (DDimension d) _ Wr Eo En Era Ira eq_refl) (fun _ => eq_refl))
      (proj2 (Rx _ Wr Eo En Er Ir eq_refl) (fun _ => eq_refl))).
    unfold vec_of in Eq. rewrite He, Ee' in Eq. apply sget_In. rewrite Ee'. f_equal. apply (l_inj X L); [exact (bd_ok_get X L _ _ _ Or Ee')|exact (bd_ok_get X L _ _ _ Ora He)|exact Eq].
Qed.

Lemma not_built_zero x b v : well_formed S -> In x (decls S) -> ~ built_from S (decl_name x) b -> dim_result X L o (decl_name x) v -> v b = 0%Qc.
Proof.
  intros W Hx B Hv. destruct (recorded W) as (res & Eo & Wr & En & Al). destruct (Al x Hx) as (r & Er & Ir & Or & Kr).
  rewrite (proj1 (result_one res (decl_name x) r x v Wr Eo En Er Ir eq_refl) Hv b). unfold vec_of.
  destruct (sget b (dm_dims (ri_dims r))) as [e|] eqn:E; [|apply ZQc_0]. destruct B. apply Kr, sget_keys. eauto.
Qed.
End Annotations.
