(** * Running the macro with two kinds of exponents

    [phi] maps the exponents of one build to those of another and respects the operations of the
    resolver.  Then a run of the resolver with the first kind that does not panic is matched by a
    run with the second kind on the same file: the same diagnostics, names, symbols and flags, and
    dimensions that correspond under [phi]; [M] relates the factors. *)
From Coq Require Import String List Bool ZArith Lia.
From Verif Require Import MachineInt Ratio F64 Magnitude Exponent SMap Expression DimensionMath Types Snake Resolve.
Import ListNotations.
Local Open Scope list_scope.

Lemma ev_bin Z e lk l r op : eval_with Z e lk (EBin l r op) =
  let? a := eval_with Z e lk l in let? b := feval_with Z e lk r in
  match op with OMul => dm_mul Z e a b | ODiv => dm_div Z e a b end.
Proof. reflexivity. Qed.
Lemma ev_pow Z e lk t p : feval_with Z e lk (FPow t p) = let? a := lk t in dm_pow Z e a p.
Proof. reflexivity. Qed.

Section Sim.
Context (X Y : exp_ops) (phi : X -> Y) (env env' : fenv) (M : magnitude -> magnitude -> Prop)
  (V P : X -> Prop).
Record simulates : Prop := {
  s_one : phi (e_one X) = e_one Y;
  s_one_V : V (e_one X);
  s_P : forall e, P e -> V e;
  s_add : forall a b c, V a -> V b -> e_add X a b = Some c -> e_add Y (phi a) (phi b) = Some (phi c) /\ V c;
  s_neg : forall a c, V a -> e_neg X a = Some c -> e_neg Y (phi a) = Some (phi c) /\ V c;
  s_mul : forall a b c, V a -> V b -> e_mul X a b = Some c -> e_mul Y (phi a) (phi b) = Some (phi c) /\ V c;
  s_eqb : forall a b, e_eqb Y (phi a) (phi b) = e_eqb X a b;
  s_refl : forall m, M m m;
  s_mag_mul : forall a a' b b', M a a' -> M b b' -> M (mag_mul env a b) (mag_mul env' a' b');
  s_mag_div : forall a a' b b', M a a' -> M b b' -> M (mag_div env a b) (mag_div env' a' b');
  s_pow : forall a a' e, P e -> M a a' -> M (e_float_pow X env a e) (e_float_pow Y env' a' (phi e)) }.

(** ** The same file with the other exponents *)
Fixpoint mx {T1 T2} (g : T1 -> T2) (x : expr T1 X) : expr T2 Y :=
  match x with
  | EVal v => EVal (mf g v)
  | EBin l r op => EBin (mx g l) (mf g r) op
  end
with mf {T1 T2} (g : T1 -> T2) (v : factor T1 X) : factor T2 Y :=
  match v with
  | FVal t => FVal (g t)
  | FPow t e => FPow (g t) (phi e)
  | FParen x => FParen (mx g x)
  end.
Definition mdef {B C} (d : definition X B C) : definition Y B C :=
  match d with DefBase b => DefBase b | DefExpr e => DefExpr (mx (fun t => t) e) end.
Definition mdim (d : dimension_entry X) : dimension_entry Y := {| de_name := de_name d; de_rhs := mdef (de_rhs d) |}.
Definition mconst (c : constant_entry X) : constant_entry Y :=
  {| ce_name := ce_name c; ce_rhs := mx (fun t => t) (ce_rhs c); ce_annotation := ce_annotation c |}.
Definition mtempl (t : unit_template X) : unit_template Y :=
  {| ut_name := ut_name t; ut_symbol := ut_symbol t; ut_aliases := ut_aliases t; ut_prefixes := ut_prefixes t;
     ut_annotation := ut_annotation t; ut_definition := mdef (ut_definition t) |}.
Definition munit (u : unit_entry X) : unit_entry Y :=
  {| ue_name := ue_name u; ue_symbol := ue_symbol u; ue_annotation := ue_annotation u;
     ue_definition := mdef (ue_definition u); ue_autogenerated_from := ue_autogenerated_from u |}.
Definition msys {U V} (g : U -> V) (s : unresolved X U) : unresolved Y V :=
  {| u_dimension_types := u_dimension_types s; u_quantity_types := u_quantity_types s;
     u_dimensions := map mdim (u_dimensions s); u_units := map g (u_units s); u_constants := map mconst (u_constants s) |}.

(** ** Dimensions *)
Definition mb (d : bdims X) : bdims Y := map (fun kv => (fst kv, phi (snd kv))) d.
Definition mdm (d : dimmag X) : dimmag Y := mkDM (mb (dm_dims d)) (dm_mag d).
Definition valid_dims (d : bdims X) : Prop := Forall (fun kv => V (snd kv)) d.
Definition dmrel (d : dimmag X) (d' : dimmag Y) : Prop :=
  dm_dims d' = mb (dm_dims d) /\ M (dm_mag d) (dm_mag d') /\ valid_dims (dm_dims d).

(** ** Results *)
Record same_output (o : defs X) (o' : defs Y) : Prop := {
  so_dimension_type : df_dimension_type o' = df_dimension_type o;
  so_quantity_type : df_quantity_type o' = df_quantity_type o;
  so_base : df_base_dimensions o' = df_base_dimensions o;
  so_dimensions : Forall2 (fun d d' => d_name d' = d_name d /\ d_dims d' = mb (d_dims d)) (df_dimensions o) (df_dimensions o');
  so_units : Forall2 (fun u u' => un_name u' = un_name u /\ un_dims u' = mb (un_dims u) /\ un_symbol u' = un_symbol u /\
                        un_is_base u' = un_is_base u /\ M (un_mag u) (un_mag u')) (df_units o) (df_units o');
  so_constants : Forall2 (fun c c' => c_name c' = c_name c /\ c_dims c' = mb (c_dims c) /\ M (c_mag c) (c_mag c'))
                   (df_constants o) (df_constants o') }.

Hypothesis H : simulates.

Lemma sget_mb n d : sget n (mb d) = option_map phi (sget n d).
Proof. induction d as [|[k v] d IH]; cbn [mb map sget fst snd]; [reflexivity|]. destruct (String.eqb n k); auto. Qed.
Lemma sinsert_mb n v d : sinsert n (phi v) (mb d) = mb (sinsert n v d).
Proof.
  induction d as [|[k w] d IH]; cbn [mb map sinsert fst snd]; [reflexivity|].
  destruct (String.compare n k); try reflexivity. cbn [map fst snd]. f_equal. exact IH.
Qed.
Lemma sget_valid n d v : valid_dims d -> sget n d = Some v -> V v.
Proof.
  induction 1 as [|[k w] d Vw _ IH]; cbn [sget]; [discriminate|]. destruct (String.eqb n k); [|exact IH].
  intros E. injection E as <-. exact Vw.
Qed.
Lemma sinsert_valid n v d : V v -> valid_dims d -> valid_dims (sinsert n v d).
Proof.
  intros Hv D. induction D as [|[k w] d Vw D IH]; cbn [sinsert].
  - constructor; [exact Hv|constructor].
  - destruct (String.compare n k).
    + constructor; auto.
    + constructor; [exact Hv|constructor; auto].
    + constructor; auto.
Qed.
Lemma mul_mb : forall b a c, valid_dims a -> valid_dims b -> bd_mul_entries X a b = Some c ->
  bd_mul_entries Y (mb a) (mb b) = Some (mb c) /\ valid_dims c.
Proof.
  induction b as [|[k v] b IH]; intros a c Va Vb; cbn [bd_mul_entries mb map fst snd].
  - intros E. injection E as <-. auto.
  - inversion Vb as [|? ? Vv Vb']; subst. cbn [snd] in Vv.
    unfold bd_mul_step. cbn [fst snd]. rewrite sget_mb. destruct (sget k a) as [w|] eqn:G; cbn [option_map].
    + destruct (e_add X w v) as [z|] eqn:E; [|discriminate].
      destruct (s_add H w v z (sget_valid _ _ _ Va G) Vv E) as [E' Vz]. rewrite E', sinsert_mb.
      apply IH; auto using sinsert_valid.
    + rewrite sinsert_mb. apply IH; auto using sinsert_valid.
Qed.
Lemma opt_mb (f : X -> option X) (g : Y -> option Y) : (forall a c, V a -> f a = Some c -> g (phi a) = Some (phi c) /\ V c) ->
  forall d c, valid_dims d -> smap_opt f d = Some c -> smap_opt g (mb d) = Some (mb c) /\ valid_dims c.
Proof.
  intros Hf. induction d as [|[k v] d IH]; intros c Vd; cbn [smap_opt mb map fst snd].
  - intros E. injection E as <-. auto.
  - inversion Vd as [|? ? Vv Vd']; subst. cbn [snd] in Vv.
    destruct (f v) as [w|] eqn:E; [|discriminate]. destruct (Hf _ _ Vv E) as [-> Vw].
    destruct (smap_opt f d) as [r|]; [|discriminate]. intros Ec. injection Ec as <-.
    change (map (fun kv => (fst kv, phi (snd kv))) d) with (mb d). destruct (IH r Vd' eq_refl) as [-> Vr].
    split; [reflexivity|constructor; auto].
Qed.
Lemma eq_mb a b : bd_eq Y (mb a) (mb b) = bd_eq X a b.
Proof.
  unfold bd_eq. induction a as [|[k v] a IH]; cbn [mb map forallb fst snd]; [reflexivity|].
  rewrite sget_mb. destruct (sget k b); cbn [option_map]; [rewrite (s_eqb H)|]; f_equal; exact IH.
Qed.

Lemma dm_mul_rel a a' b b' c : dmrel a a' -> dmrel b b' -> dm_mul X env a b = Some c ->
  exists c', dm_mul Y env' a' b' = Some c' /\ dmrel c c'.
Proof.
  intros (Da & Ma & Va) (Db & Mb & Vb). unfold dm_mul. rewrite Da, Db.
  destruct (bd_mul X (dm_dims a) (dm_dims b)) as [d|] eqn:E; [|discriminate]. intros Ec.
  unfold bd_mul in *. destruct (mul_mb _ _ _ Va Vb E) as [-> Vd]. eexists. split; [reflexivity|].
  assert (Hc : c = mkDM d (mag_mul env (dm_mag a) (dm_mag b))) by congruence. subst c.
  split; [reflexivity|]. cbn [dm_mag dm_dims]. split; [now apply (s_mag_mul H)|exact Vd].
Qed.
Lemma dm_div_rel a a' b b' c : dmrel a a' -> dmrel b b' -> dm_div X env a b = Some c ->
  exists c', dm_div Y env' a' b' = Some c' /\ dmrel c c'.
Proof.
  intros (Da & Ma & Va) (Db & Mb & Vb). unfold dm_div, bd_div. rewrite Da, Db. unfold bd_inv.
  destruct (smap_opt (e_neg X) (dm_dims b)) as [i|] eqn:Ei; [|discriminate].
  destruct (opt_mb _ _ (s_neg H) _ _ Vb Ei) as [-> Vi]. unfold bd_mul.
  destruct (bd_mul_entries X (dm_dims a) i) as [d|] eqn:E; [|discriminate]. intros Ec.
  destruct (mul_mb _ _ _ Va Vi E) as [-> Vd]. eexists. split; [reflexivity|].
  assert (Hc : c = mkDM d (mag_div env (dm_mag a) (dm_mag b))) by congruence. subst c.
  split; [reflexivity|]. cbn [dm_mag dm_dims]. split; [now apply (s_mag_div H)|exact Vd].
Qed.
Lemma dm_pow_rel a a' e c : P e -> dmrel a a' -> dm_pow X env a e = Some c ->
  exists c', dm_pow Y env' a' (phi e) = Some c' /\ dmrel c c'.
Proof.
  intros Pe (Da & Ma & Va). unfold dm_pow, bd_pow. rewrite Da.
  destruct (smap_opt (fun v => e_mul X v e) (dm_dims a)) as [d|] eqn:E; [|discriminate]. intros Ec.
  destruct (opt_mb (fun v => e_mul X v e) (fun v => e_mul Y v (phi e))
    (fun a c Ha => s_mul H a e c Ha (s_P H e Pe)) _ _ Va E) as [-> Vd].
  eexists. split; [reflexivity|].
  assert (Hc : c = mkDM d (e_float_pow X env (dm_mag a) e)) by congruence. subst c.
  split; [reflexivity|]. cbn [dm_mag dm_dims]. split; [now apply (s_pow H)|exact Vd].
Qed.

(** ** Expressions *)
Definition mfac {C C'} (g : C -> C') (x : fac C) : fac C' := map_concrete g x.
Lemma mx_map_mut {T1 T2 T3 T4} (g : T1 -> T2) (h : T2 -> T4) (h' : T1 -> T3) (g' : T3 -> T4) : (forall t, h (g t) = g' (h' t)) ->
  (forall x, expr_map h (mx g x) = mx g' (expr_map h' x)) /\ (forall v, factor_map h (mf g v) = mf g' (factor_map h' v)).
Proof.
  intros E. apply expr_factor_ind.
  - intros f IH. cbn [expr_map mx]. now rewrite IH.
  - intros l IHl r IHr op. cbn [expr_map mx]. now rewrite IHl, IHr.
  - intros t. cbn [factor_map mf]. now rewrite E.
  - intros t e. cbn [factor_map mf]. now rewrite E.
  - intros x IH. cbn [factor_map mf]. now rewrite IH.
Qed.
Lemma vals_mx_mut {T1 T2} (g : T1 -> T2) :
  (forall x, expr_vals (mx g x) = map g (expr_vals x)) /\ (forall v, factor_vals (mf g v) = map g (factor_vals v)).
Proof.
  apply expr_factor_ind.
  - intros f IH. exact IH.
  - intros l IHl r IHr op. cbn [expr_vals mx]. now rewrite IHl, IHr, map_app.
  - reflexivity.
  - reflexivity.
  - intros x IH. exact IH.
Qed.
(** Every exponent satisfies [P] and every value [Q]. *)
Fixpoint allowed {T} (Q : T -> Prop) (x : expr T X) : Prop :=
  match x with EVal v => fallowed Q v | EBin l r _ => allowed Q l /\ fallowed Q r end
with fallowed {T} (Q : T -> Prop) (v : factor T X) : Prop :=
  match v with FVal t => Q t | FPow t e => Q t /\ P e | FParen x => allowed Q x end.
Definition any {T} (t : T) : Prop := True.
Lemma allowed_map_mut {T T2} (g : T -> T2) (Q : T2 -> Prop) : (forall t, Q (g t)) ->
  (forall x : expr T X, allowed any x -> allowed Q (expr_map g x)) /\
  (forall v : factor T X, fallowed any v -> fallowed Q (factor_map g v)).
Proof.
  intros K. apply expr_factor_ind; cbn [expr_map factor_map allowed fallowed].
  - auto.
  - intros l IHl r IHr op [A B]. split; auto.
  - auto.
  - intros t e [_ Pe]. split; auto.
  - auto.
Qed.
Definition fok (f : fac (dimmag X)) : Prop := match f with Concrete c => valid_dims (dm_dims c) | Other _ => True end.

Definition lrel (lk : fac (dimmag X) -> option (dimmag X)) (lk' : fac (dimmag Y) -> option (dimmag Y)) : Prop :=
  forall f d, fok f -> lk f = Some d -> exists d', lk' (map_concrete mdm f) = Some d' /\ dmrel d d'.
Lemma eval_rel_mut lk lk' : lrel lk lk' ->
  (forall x, allowed fok x -> forall d, eval_with X env lk x = Some d ->
     exists d', eval_with Y env' lk' (mx (map_concrete mdm) x) = Some d' /\ dmrel d d') /\
  (forall v, fallowed fok v -> forall d, feval_with X env lk v = Some d ->
     exists d', feval_with Y env' lk' (mf (map_concrete mdm) v) = Some d' /\ dmrel d d').
Proof.
  intros L. apply expr_factor_ind.
  - intros f IH A d. exact (IH A d).
  - intros l IHl r IHr op [Al Ar] d.
    change (mx (map_concrete mdm) (EBin l r op)) with (EBin (mx (map_concrete mdm) l) (mf (map_concrete mdm) r) op).
    rewrite !ev_bin. destruct (eval_with X env lk l) as [a|]; [|discriminate]. destruct (feval_with X env lk r) as [b|]; [|discriminate].
    destruct (IHl Al a eq_refl) as (a' & -> & Ra). destruct (IHr Ar b eq_refl) as (b' & -> & Rb).
    destruct op; intros E; [exact (dm_mul_rel _ _ _ _ _ Ra Rb E)|exact (dm_div_rel _ _ _ _ _ Ra Rb E)].
  - intros t Ht d E. exact (L t d Ht E).
  - intros t e [Ht Pe] d. change (mf (map_concrete mdm) (FPow t e)) with (FPow (map_concrete mdm t) (phi e)).
    rewrite !ev_pow. destruct (lk t) as [a|] eqn:Et; [|discriminate]. destruct (L t a Ht Et) as (a' & -> & Ra).
    intros E. exact (dm_pow_rel _ _ _ _ Pe Ra E).
  - intros x IH A d. exact (IH A d).
Qed.

(** ** Items *)
Definition mtype (t : item_type X) : item_type Y :=
  match t with ItDimension d => ItDimension (mdim d) | ItUnit u => ItUnit (munit u) | ItConstant c => ItConstant (mconst c) end.
Definition mitem (i : item X) : item Y := {| it_expr := mx (map_concrete mdm) (it_expr i); it_type := mtype (it_type i) |}.

Lemma item_ident i : it_ident (mitem i) = it_ident i.
Proof. unfold it_ident. cbn [mitem it_type]. now destruct (it_type i). Qed.
Lemma item_kind i : it_kind (mitem i) = it_kind i.
Proof.
  unfold it_kind. cbn [mitem it_type]. destruct (it_type i) as [|u|]; try reflexivity. cbn [mtype munit ue_definition].
  now destruct (ue_definition u).
Qed.
Lemma item_annotation i : it_annotation (mitem i) = it_annotation i.
Proof. unfold it_annotation. cbn [mitem it_type]. now destruct (it_type i). Qed.
Lemma item_dimension d : item_of_dimension Y (mdim d) = mitem (item_of_dimension X d).
Proof.
  unfold item_of_dimension, mitem. cbn [mdim de_rhs de_name it_type it_expr]. f_equal.
  destruct (de_rhs d) as [b|e]; cbn [mdef].
  - cbn [mx mf map_concrete]. unfold mdm, dm_of_dimensions. cbn [dm_dims dm_mag]. unfold bd_for_base.
    rewrite <- (s_one H). reflexivity.
  - apply (mx_map_mut (fun t => t)). intros [c'|n]; reflexivity.
Qed.
Lemma item_unit u : item_of_unit Y (munit u) = mitem (item_of_unit X u).
Proof.
  unfold item_of_unit, mitem. cbn [munit ue_definition it_type it_expr]. f_equal.
  destruct (ue_definition u) as [b|e]; cbn [mdef].
  - reflexivity.
  - apply (mx_map_mut (fun t => t)). intros [c'|n]; reflexivity.
Qed.
Lemma item_constant c : item_of_constant Y (mconst c) = mitem (item_of_constant X c).
Proof.
  unfold item_of_constant, mitem. cbn [mconst ce_rhs it_type it_expr]. f_equal.
  apply (mx_map_mut (fun t => t)). intros [c'|n]; reflexivity.
Qed.
Lemma items s : items_of Y (msys munit s) = map mitem (items_of X s).
Proof.
  unfold items_of. cbn [msys u_dimensions u_units u_constants]. rewrite !map_app, !map_map.
  f_equal; [|f_equal]; apply map_ext; [apply item_dimension|apply item_unit|apply item_constant].
Qed.
Lemma others_mx {C C'} (g : C -> C') (x : expr (fac C) X) : others (mx (map_concrete g) x) = others x.
Proof.
  unfold others. rewrite (proj1 (vals_mx_mut (map_concrete g))). generalize (expr_vals x) as l.
  induction l as [|[c|n] l IH]; cbn [map flat_map map_concrete]; [reflexivity|exact IH|now rewrite IH].
Qed.

Lemma filter_map {A B} (f : A -> B) (p : B -> bool) (q : A -> bool) l : (forall a, p (f a) = q a) ->
  filter p (map f l) = map f (filter q l).
Proof. intros E. induction l as [|a l IH]; cbn [map filter]; [reflexivity|]. rewrite E, IH. now destruct (q a). Qed.
Lemma flat_map_map {A B C} (f : A -> B) (g : B -> list C) l : flat_map g (map f l) = flat_map (fun a => g (f a)) l.
Proof. induction l as [|a l IH]; cbn [map flat_map]; [reflexivity|]. now rewrite IH. Qed.
Lemma fold_left_map {A B S} (f : A -> B) (g : S -> B -> S) (h : S -> A -> S) l : (forall s a, g s (f a) = h s a) ->
  forall s, fold_left g (map f l) s = fold_left h l s.
Proof. intros E. induction l as [|a l IH]; intros s; cbn [map fold_left]; [reflexivity|]. now rewrite E, IH. Qed.
Lemma idents l : map it_ident (map mitem l) = map it_ident l.
Proof. rewrite map_map. apply map_ext. exact item_ident. Qed.
Lemma filter_auto l : filter_autogenerated_invalid Y (map mitem l) = map mitem (filter_autogenerated_invalid X l).
Proof.
  unfold filter_autogenerated_invalid. rewrite idents. apply filter_map. intros i. cbn [mitem it_type].
  now destruct (it_type i).
Qed.
Lemma undefined_item ds i : first_undefined Y ds (mitem i) = first_undefined X ds i.
Proof. unfold first_undefined. cbn [mitem it_expr]. now rewrite others_mx. Qed.
Lemma filter_undef l : filter_undefined Y (map mitem l) =
  (map mitem (fst (filter_undefined X l)), snd (filter_undefined X l)).
Proof.
  unfold filter_undefined. rewrite idents. cbn [fst snd]. f_equal.
  - apply filter_map. intros i. now rewrite undefined_item.
  - rewrite flat_map_map. apply flat_map_ext. intros i. now rewrite undefined_item.
Qed.
Lemma filter_multi l : filter_multiply_defined Y (map mitem l) = filter_multiply_defined X l.
Proof.
  unfold filter_multiply_defined, count_definitions.
  rewrite (fold_left_map mitem _ (fun m i => assoc_update (it_ident i) (fun o => match o with Some n => S n | None => 1 end) m))
    by (intros s a; now rewrite item_ident).
  apply flat_map_ext. intros e. destruct (Nat.ltb 1 (snd e)); [|reflexivity]. do 2 f_equal.
  rewrite (filter_map mitem _ (fun i => String.eqb (it_ident i) (fst e))) by (intros a; now rewrite item_ident).
  apply idents.
Qed.
Lemma check_kinds l : check_kinds_in_definitions Y (map mitem l) = check_kinds_in_definitions X l.
Proof.
  unfold check_kinds_in_definitions, kinds_of.
  rewrite (fold_left_map mitem _ (fun m i => sinsert (it_ident i) (it_kind i) m))
    by (intros s a; now rewrite item_ident, item_kind).
  rewrite flat_map_map. apply flat_map_ext. intros i. rewrite item_ident, item_kind.
  replace (others (it_expr (mitem i))) with (others (it_expr i)) by (cbn [mitem it_expr]; now rewrite others_mx).
  reflexivity.
Qed.

(** ** The loop *)
Definition rirel (r : resolved_item X) (r' : resolved_item Y) : Prop :=
  ri_item r' = mitem (ri_item r) /\ dmrel (ri_dims r) (ri_dims r').
Definition rrel (res : resolved_map X) (res' : resolved_map Y) : Prop :=
  Forall2 (fun a b => fst a = fst b /\ rirel (snd a) (snd b)) res res'.
Lemma sget_rel n res res' : rrel res res' ->
  match sget n res, sget n res' with Some r, Some r' => rirel r r' | None, None => True | _, _ => False end.
Proof.
  induction 1 as [|[a r] [b r'] res res' [E Rr] _ IH]; cbn [sget]; [exact I|].
  cbn [fst snd] in *. subst b. destruct (String.eqb n a); auto.
Qed.
Lemma smem_rel n res res' : rrel res res' -> smem n res' = smem n res.
Proof. intros R. pose proof (sget_rel n _ _ R) as S. unfold smem. destruct (sget n res), (sget n res'); tauto. Qed.
Lemma sinsert_rel n r r' res res' : rirel r r' -> rrel res res' -> rrel (sinsert n r res) (sinsert n r' res').
Proof.
  intros Rr R. induction R as [|[a s] [b s'] res res' [E Rs] R IH]; cbn [sinsert].
  - constructor; [|constructor]. auto.
  - cbn [fst snd] in *. subst b. destruct (String.compare n a).
    + constructor; auto.
    + constructor; [auto|constructor; auto].
    + constructor; auto.
Qed.
Lemma resolvable_rel res res' i : rrel res res' -> is_resolvable Y res' (mitem i) = is_resolvable X res i.
Proof.
  intros R. unfold is_resolvable. cbn [mitem it_expr]. rewrite (proj1 (vals_mx_mut (map_concrete mdm))).
  generalize (expr_vals (it_expr i)) as l. induction l as [|[c|n] l IH]; cbn [map forallb map_concrete]; [reflexivity|exact IH|].
  now rewrite IH, (smem_rel n _ _ R).
Qed.
Lemma take_first_rel (p : item X -> bool) (q : item Y -> bool) l : (forall i, q (mitem i) = p i) ->
  take_first Y q (map mitem l) = option_map (fun ir => (mitem (fst ir), map mitem (snd ir))) (take_first X p l).
Proof.
  intros E. induction l as [|i l IH]; cbn [map take_first]; [reflexivity|]. rewrite E. destruct (p i); [reflexivity|].
  rewrite IH. now destruct (take_first X p l) as [[j r]|].
Qed.
Lemma take_first_in (p : item X -> bool) : forall l i r, take_first X p l = Some (i, r) -> In i l /\ incl r l.
Proof.
  induction l as [|j l IH]; cbn [take_first]; [discriminate|]. intros i r. destruct (p j).
  - intros E. injection E as <- <-. split; [now left|]. intros x Hx. now right.
  - destruct (take_first X p l) as [[k s]|]; [|discriminate]. intros E. injection E as <- <-.
    destruct (IH k s eq_refl) as [I1 I2]. split; [now right|]. intros x [<-|Hx]; [now left|right; auto].
Qed.
Lemma lookup_rel res res' : rrel res res' -> lrel (lookup_factor X res) (lookup_factor Y res').
Proof.
  intros R [c|n] d Hf; cbn [lookup_factor map_concrete].
  - intros E. assert (c = d) by congruence. subst d. eexists. split; [reflexivity|]. split; [reflexivity|]. split; [apply (s_refl H)|exact Hf].
  - pose proof (sget_rel n _ _ R) as S. destruct (sget n res) as [r|], (sget n res') as [r'|]; cbn [option_map]; try contradiction; try discriminate.
    intros E. assert (ri_dims r = d) by congruence. subst d. eexists. split; [reflexivity|]. exact (proj2 S).
Qed.
Lemma loop_rel : forall fuel l res res' r ds, rrel res res' -> Forall (fun i => allowed fok (it_expr i)) l ->
  resolve_loop X env fuel l res = Some (r, ds) ->
  exists r', resolve_loop Y env' fuel (map mitem l) res' = Some (r', ds) /\ rrel r r'.
Proof.
  induction fuel as [|fuel IH]; intros l res res' r ds R A; destruct l as [|i l]; cbn [resolve_loop map].
  - intros E. injection E as <- <-. eauto.
  - change (mitem i :: map mitem l) with (map mitem (i :: l)).
    rewrite (take_first_rel (is_resolvable X res)) by (intros; now apply resolvable_rel).
    destruct (take_first X (is_resolvable X res) (i :: l)) as [[j rest]|]; cbn [option_map]; [discriminate|].
    intros E. injection E as <- <-. exists res'. split; [|exact R]. cbn [map]. rewrite map_map, item_ident. do 3 f_equal.
    apply map_ext. intros x. now rewrite item_ident.
  - intros E. injection E as <- <-. eauto.
  - change (mitem i :: map mitem l) with (map mitem (i :: l)).
    rewrite (take_first_rel (is_resolvable X res)) by (intros; now apply resolvable_rel).
    destruct (take_first X (is_resolvable X res) (i :: l)) as [[j rest]|] eqn:T; cbn [option_map fst snd].
    + destruct (take_first_in _ _ _ _ T) as [Ij Ir]. rewrite Forall_forall in A.
      unfold resolve_dimensions. destruct (eval_with X env (lookup_factor X res) (it_expr j)) as [d|] eqn:E; [|discriminate].
      destruct (proj1 (eval_rel_mut _ _ (lookup_rel _ _ R)) (it_expr j) (A j Ij) d E) as (d' & E' & Rd).
      cbn [mitem it_expr]. rewrite E'. intros E2. rewrite item_ident.
      refine (IH rest _ _ r ds _ _ E2); [|rewrite Forall_forall; auto].
      apply sinsert_rel; [|exact R]. split; [reflexivity|exact Rd].
    + intros E. injection E as <- <-. exists res'. split; [|exact R]. cbn [map]. rewrite map_map, item_ident. do 3 f_equal.
      apply map_ext. intros x. now rewrite item_ident.
Qed.

(** ** The checks before and after *)
Lemma mdef_base {B C} (d : definition X B C) : match mdef d with DefBase _ => true | DefExpr _ => false end =
  match d with DefBase _ => true | DefExpr _ => false end.
Proof. now destruct d. Qed.
Lemma base_dims ds us : get_base_dimensions (map mdim ds) (map munit us) = get_base_dimensions ds us.
Proof.
  unfold get_base_dimensions.
  rewrite (filter_map mdim is_base_dimension is_base_dimension) by (intros a; apply mdef_base). f_equal.
  - now rewrite map_map.
  - unfold check_invalid_base_units, initial_counter.
    rewrite (fold_left_map mdim _ (fun m d => assoc_update (de_name d) (fun _ => 0) m)) by reflexivity.
    rewrite (fold_left_map munit _ check_base_unit); [reflexivity|]. intros [c d] u. unfold check_base_unit.
    cbn [munit ue_autogenerated_from ue_definition ue_name]. destruct (ue_autogenerated_from u); [reflexivity|].
    now destruct (ue_definition u).
Qed.
Lemma symbols us : check_multiply_defined_symbols (map munit us) = check_multiply_defined_symbols us.
Proof. unfold check_multiply_defined_symbols. now rewrite (fold_left_map munit _ add_symbol) by reflexivity. Qed.

Lemma values_rel res res' : rrel res res' -> Forall2 rirel (svalues res) (svalues res').
Proof. induction 1 as [|? ? ? ? [_ Hr]]; cbn [svalues map]; constructor; auto. Qed.
Lemma annotation_rel res res' r r' : rrel res res' -> rirel r r' -> check_annotation Y res' r' = check_annotation X res r.
Proof.
  intros R (E & Ed & Em & _). unfold check_annotation. rewrite E, item_annotation. destruct (it_annotation (ri_item r)) as [a|]; [|reflexivity].
  pose proof (sget_rel a _ _ R) as S. destruct (sget a res) as [s|], (sget a res') as [s'|]; try contradiction; [|reflexivity].
  destruct S as (Es & Sd & _). rewrite Es, item_kind, Sd, Ed, eq_mb. reflexivity.
Qed.
Lemma annotations_rel res res' : rrel res res' -> check_type_annotations Y res' = check_type_annotations X res.
Proof.
  intros R. unfold check_type_annotations. pose proof (values_rel _ _ R) as Vr. induction Vr as [|r r' l l' Hr _ IH]; cbn [flat_map]; [reflexivity|].
  now rewrite IH, (annotation_rel _ _ _ _ R Hr).
Qed.
Lemma no_symbol_rel us us' :
  Forall2 (fun u u' => un_name u' = un_name u /\ un_dims u' = mb (un_dims u) /\ un_symbol u' = un_symbol u /\
                        un_is_base u' = un_is_base u /\ M (un_mag u) (un_mag u')) us us' ->
  check_for_base_units_without_symbol Y us' = check_for_base_units_without_symbol X us.
Proof.
  unfold check_for_base_units_without_symbol. induction 1 as [|u u' l l' (En & _ & Es & Eb & _) _ IH]; cbn [flat_map]; [reflexivity|].
  now rewrite En, Es, Eb, IH.
Qed.

Definition file_allowed (s : unresolved X (unit_entry X)) : Prop :=
  Forall (fun d => match de_rhs d with DefBase _ => True | DefExpr e => allowed any e end) (u_dimensions s) /\
  Forall (fun u => match ue_definition u with DefBase _ => True | DefExpr e => allowed any e end) (u_units s) /\
  Forall (fun c => allowed any (ce_rhs c)) (u_constants s).
Lemma items_allowed s : file_allowed s -> Forall (fun i => allowed fok (it_expr i)) (items_of X s).
Proof.
  intros (A & B & C). unfold items_of. rewrite !Forall_app, !Forall_map. repeat split.
  - revert A. apply Forall_impl. intros d. unfold item_of_dimension. cbn [it_expr]. destruct (de_rhs d).
    + intros _. cbn [allowed fallowed fok dm_of_dimensions dm_dims]. constructor; [exact (s_one_V H)|constructor].
    + apply allowed_map_mut. intros [c|n]; cbn [map_concrete fok]; [constructor|exact I].
  - revert B. apply Forall_impl. intros d. unfold item_of_unit. cbn [it_expr]. destruct (ue_definition d).
    + intros _. exact I.
    + apply allowed_map_mut. intros [c|n]; cbn [map_concrete fok]; [constructor|exact I].
  - revert C. apply Forall_impl. intros d. unfold item_of_constant. cbn [it_expr].
    apply allowed_map_mut. intros [c|n]; cbn [map_concrete fok]; [constructor|exact I].
Qed.

Theorem resolve_sim s o ds : file_allowed s -> resolve X env s = Some (o, ds) ->
  exists o', resolve Y env' (msys munit s) = Some (o', ds) /\ same_output o o'.
Proof.
  intros A. apply items_allowed in A. unfold resolve. cbn [msys u_quantity_types u_dimension_types u_dimensions u_units].
  rewrite base_dims, symbols.
  destruct (get_single_ident (u_quantity_types s) "quantity type" "Quantity") as [q d1].
  destruct (get_single_ident (u_dimension_types s) "dimension type" "Dimension") as [dt d2].
  destruct (get_base_dimensions (u_dimensions s) (u_units s)) as [b d3].
  change (items_of Y {| u_dimension_types := u_dimension_types s; u_quantity_types := u_quantity_types s;
     u_dimensions := map mdim (u_dimensions s); u_units := map munit (u_units s); u_constants := map mconst (u_constants s) |})
    with (items_of Y (msys munit s)).
  rewrite items, filter_undef. destruct (filter_undefined X (items_of X s)) as [l d5] eqn:F. cbn [fst snd].
  rewrite !filter_auto, filter_multi, check_kinds. unfold resolve_items. rewrite map_length.
  set (l3 := filter_autogenerated_invalid X (filter_autogenerated_invalid X (filter_autogenerated_invalid X l))).
  destruct (resolve_loop X env (length l3) l3 []) as [[res d8]|] eqn:E; [|discriminate].
  assert (A3 : Forall (fun i => allowed fok (it_expr i)) l3).
  { rewrite Forall_forall in *. intros i Hi. apply A. unfold l3, filter_autogenerated_invalid in Hi.
    do 3 (apply filter_In in Hi as [Hi _]). assert (El : l = fst (filter_undefined X (items_of X s))) by now rewrite F.
    rewrite El in Hi. unfold filter_undefined in Hi. cbn [fst] in Hi. now apply filter_In in Hi as [Hi _]. }
  destruct (loop_rel _ _ [] [] _ _ (Forall2_nil _) A3 E) as (res' & -> & R).
  assert (U : Forall2 (fun u u' => un_name u' = un_name u /\ un_dims u' = mb (un_dims u) /\ un_symbol u' = un_symbol u /\
                        un_is_base u' = un_is_base u /\ M (un_mag u) (un_mag u')) (get_units X res) (get_units Y res')).
  { unfold get_units. pose proof (values_rel _ _ R) as Vr. induction Vr as [|r r' v v' (Er & Ed & Em & _) _ IH]; cbn [flat_map]; [constructor|].
    rewrite Er. cbn [mitem it_type]. destruct (it_type (ri_item r)) as [d|u|c]; cbn [mtype app]; auto.
    constructor; [|exact IH]. cbn [un_name un_dims un_symbol un_is_base un_mag munit ue_name ue_symbol ue_definition].
    rewrite mdef_base. auto. }
  intros Eo. injection Eo as <- <-. eexists. split.
  { rewrite (annotations_rel _ _ R), (no_symbol_rel _ _ U). reflexivity. }
  constructor; cbn [df_dimension_type df_quantity_type df_base_dimensions df_dimensions df_units df_constants]; auto.
  - unfold get_dimensions. pose proof (values_rel _ _ R) as Vr. clear - Vr. induction Vr as [|r r' v v' (Er & Ed & Em & _) _ IH]; cbn [flat_map]; [constructor|].
    rewrite Er. cbn [mitem it_type]. destruct (it_type (ri_item r)) as [d|u|c]; cbn [mtype app]; auto.
  - unfold get_constants. pose proof (values_rel _ _ R) as Vr. clear - Vr. induction Vr as [|r r' v v' (Er & Ed & Em & _) _ IH]; cbn [flat_map]; [constructor|].
    rewrite Er. cbn [mitem it_type]. destruct (it_type (ri_item r)) as [d|u|c]; cbn [mtype app]; auto.
Qed.

(** ** Templates *)
Lemma expand_m t : expand (mtempl t) = map munit (expand t).
Proof.
  unfold expand. cbn [mtempl ut_prefixes ut_aliases]. generalize (map Some (ut_prefixes t) ++ [None]) as ps.
  generalize (map Some (ut_aliases t) ++ [None]) as l.
  intros l ps. induction ps as [|p ps IH]; cbn [flat_map]; [reflexivity|]. rewrite IH, (map_app munit), (map_map _ munit). f_equal.
  apply map_ext. intros a. unfold expand_one, munit.
  cbn [ue_name ue_symbol ue_annotation ue_definition ue_autogenerated_from mtempl ut_annotation ut_name]. f_equal.
  unfold get_definition. cbn [mtempl ut_definition ut_name]. now destruct p, a.
Qed.
Lemma expand_sys s : expand_templates (msys mtempl s) = msys munit (expand_templates s).
Proof.
  unfold expand_templates, msys. cbn [u_dimension_types u_quantity_types u_dimensions u_units u_constants]. f_equal.
  rewrite flat_map_map. induction (u_units s) as [|t l IH]; cbn [flat_map]; [reflexivity|]. now rewrite map_app, expand_m, IH.
Qed.
Definition templates_allowed (s : unresolved X (unit_template X)) : Prop :=
  Forall (fun d => match de_rhs d with DefBase _ => True | DefExpr e => allowed any e end) (u_dimensions s) /\
  Forall (fun t => match ut_definition t with DefBase _ => True | DefExpr e => allowed any e end) (u_units s) /\
  Forall (fun c => allowed any (ce_rhs c)) (u_constants s).
Lemma expand_allowed s : templates_allowed s -> file_allowed (expand_templates s).
Proof.
  intros (A & B & C). split; [exact A|]. split; [|exact C]. cbn [expand_templates u_units].
  rewrite Forall_forall in *. intros u Hu. apply in_flat_map in Hu as (t & Ht & Hu). specialize (B t Ht).
  unfold expand in Hu. apply in_flat_map in Hu as (p & _ & Hu). apply in_map_iff in Hu as (a & <- & _).
  cbn [expand_one ue_definition]. unfold get_definition. destruct a, p; cbn [allowed fallowed]; unfold any; auto.
Qed.
Theorem run_sim s o ds : templates_allowed s -> run_unit_system X env s = Some (o, ds) ->
  exists o', run_unit_system Y env' (msys mtempl s) = Some (o', ds) /\ same_output o o'.
Proof.
  intros A R. unfold run_unit_system in *. rewrite expand_sys. apply resolve_sim; auto using expand_allowed.
Qed.
End Sim.
