(** * What the macro reports, and all dimensions, do not depend on the platform

    The factors of units are computed with the power functions of the machine that runs the
    compiler ([fenv]).  Diagnostics and dimensions are not affected. *)
From Coq Require Import String List Bool ZArith.
From Verif Require Import MachineInt Ratio F64 Magnitude Exponent SMap Expression DimensionMath
  Types Snake Resolve ResolveLoop ResolveChecks SystemSpec ResolveFacts.
Import ListNotations.
Local Open Scope list_scope.

Section Platform.
Context (X : exp_ops) (env1 env2 : fenv).
Notation dm := (dimmag X).

(** Everything of a resolved item but its factor. *)
Definition er (r : resolved_item X) : item X * bdims X := (ri_item r, dm_dims (ri_dims r)).
Definition agree (a b : resolved_map X) : Prop :=
  map (fun kv => (fst kv, er (snd kv))) a = map (fun kv => (fst kv, er (snd kv))) b.

Lemma agree_get a b n : agree a b -> option_map er (sget n a) = option_map er (sget n b).
Proof.
  unfold agree. revert b. induction a as [|[k v] a IH]; intros [|[k' v'] b] H; try discriminate; auto.
  cbn [map fst snd] in H. injection H as -> H1 H2 Hr. assert (Hv : er v = er v') by (unfold er; congruence). cbn [sget].
  destruct (String.eqb n k'); [cbn; now rewrite Hv|]. now apply IH.
Qed.
Lemma agree_mem a b n : agree a b -> smem n a = smem n b.
Proof.
  intros H. apply (agree_get a b n) in H. unfold smem. destruct (sget n a), (sget n b); easy.
Qed.
Lemma agree_insert a b n u v : agree a b -> er u = er v -> agree (sinsert n u a) (sinsert n v b).
Proof.
  unfold agree. revert b. induction a as [|[k w] a IH]; intros [|[k' w'] b] H E; try discriminate.
  - cbn. now rewrite E.
  - cbn [map fst snd] in H. injection H as -> H1 H2 Hr. assert (Hv : er w = er w') by (unfold er; congruence). cbn [sinsert].
    destruct (String.compare n k'); cbn [map fst snd]; rewrite ?E, ?Hv, ?Hr; auto.
    f_equal. now apply IH.
Qed.
Lemma agree_values a b : agree a b -> map er (svalues a) = map er (svalues b).
Proof.
  unfold agree, svalues. intros H. apply (f_equal (map snd)) in H. now rewrite !map_map in *.
Qed.

Definition same_dims (a b : option dm) : Prop := option_map dm_dims a = option_map dm_dims b.

Lemma eval_same lk1 lk2 : (forall f, same_dims (lk1 f) (lk2 f)) ->
  (forall e : expr (fac dm) X, same_dims (eval_with X env1 lk1 e) (eval_with X env2 lk2 e)) /\
  (forall v : factor (fac dm) X, same_dims (feval_with X env1 lk1 v) (feval_with X env2 lk2 v)).
Proof.
  intros H. apply expr_factor_ind.
  - intros f IH. exact IH.
  - intros l IHl r IHr op. rewrite !eval_bin. unfold same_dims in *.
    destruct (eval_with X env1 lk1 l) as [a|], (eval_with X env2 lk2 l) as [a'|]; try discriminate; [|reflexivity].
    destruct (feval_with X env1 lk1 r) as [b|], (feval_with X env2 lk2 r) as [b'|]; try discriminate; [|reflexivity].
    injection IHl as Ea. injection IHr as Eb. unfold dm_mul, dm_div. rewrite Ea, Eb.
    destruct op; [destruct (bd_mul X _ _)|destruct (bd_div X _ _)]; reflexivity.
  - intros t. apply H.
  - intros t e. cbn [feval_with]. specialize (H t). unfold same_dims in *.
    destruct (lk1 t) as [a|], (lk2 t) as [a'|]; try discriminate; [|reflexivity].
    injection H as E. unfold dm_pow. rewrite E. destruct (bd_pow X _ _); reflexivity.
  - intros x IH. exact IH.
Qed.
Lemma lookup_same a b f : agree a b -> same_dims (lookup_factor X a f) (lookup_factor X b f).
Proof.
  intros H. destruct f as [c|n]; [reflexivity|]. unfold same_dims. cbn.
  apply (agree_get a b n) in H. unfold er in H.
  destruct (sget n a), (sget n b); try discriminate; [|reflexivity]. cbn in *. congruence.
Qed.
Lemma resolvable_same a b i : agree a b -> is_resolvable X a i = is_resolvable X b i.
Proof.
  intros H. unfold is_resolvable. induction (expr_vals (it_expr i)) as [|v l IH]; [reflexivity|].
  cbn. rewrite IH. f_equal. destruct v; [reflexivity|]. now apply agree_mem.
Qed.
Lemma take_first_ext p q (l : list (item X)) : (forall i, p i = q i) -> take_first X p l = take_first X q l.
Proof. intros H. induction l as [|i l IH]; [reflexivity|]. cbn. now rewrite H, IH. Qed.

Lemma loop_same n : forall U a b, agree a b ->
  match resolve_loop X env1 n U a, resolve_loop X env2 n U b with
  | Some (r, d), Some (r', d') => agree r r' /\ d = d'
  | None, None => True
  | _, _ => False
  end.
Proof.
  induction n as [|n IH]; intros [|i U] a b H; cbn [resolve_loop]; auto;
    rewrite (take_first_ext _ _ (i :: U) (fun i => resolvable_same a b i H));
    destruct (take_first X (is_resolvable X b) (i :: U)) as [[j rest]|]; auto.
  pose proof (proj1 (eval_same _ _ (fun f => lookup_same a b f H)) (it_expr j)) as E.
  unfold resolve_dimensions. unfold same_dims in E.
  destruct (eval_with X env1 (lookup_factor X a) (it_expr j)) as [d|],
           (eval_with X env2 (lookup_factor X b) (it_expr j)) as [d'|]; try discriminate; [|exact I].
  cbv beta iota. apply IH. apply agree_insert; [exact H|]. unfold er. cbn. injection E as ->. reflexivity.
Qed.

Lemma flat_map_er {B} (f g : resolved_item X -> list B) a b :
  (forall u v, er u = er v -> f u = g v) -> map er a = map er b -> flat_map f a = flat_map g b.
Proof.
  intros H. revert b. induction a as [|u a IH]; intros [|v b] E; try discriminate; [reflexivity|].
  cbn in *. injection E as E1 E2 E3. rewrite (IH b E3). f_equal. apply H. unfold er. congruence.
Qed.

(** The parts of a generated unit or constant that are not its factor. *)
Definition unit_shape (u : unit_def X) := (un_name u, un_dims u, un_symbol u, un_is_base u).
Definition constant_shape (c : constant X) := (c_name c, c_dims c).

Lemma map_flat_map {A B C} (f : A -> list B) (g : B -> C) l :
  map g (flat_map f l) = flat_map (fun x => map g (f x)) l.
Proof. induction l as [|x l IH]; [reflexivity|]. cbn. now rewrite map_app, IH. Qed.

Theorem platform_independent (T : unresolved X (unit_template X)) :
  match run_unit_system X env1 T, run_unit_system X env2 T with
  | Some (o1, ds1), Some (o2, ds2) =>
      ds1 = ds2 /\ df_dimensions o1 = df_dimensions o2 /\
      map unit_shape (df_units o1) = map unit_shape (df_units o2) /\
      map constant_shape (df_constants o1) = map constant_shape (df_constants o2) /\
      df_base_dimensions o1 = df_base_dimensions o2 /\
      df_quantity_type o1 = df_quantity_type o2 /\ df_dimension_type o1 = df_dimension_type o2
  | None, None => True
  | _, _ => False
  end.
Proof.
  unfold run_unit_system. rewrite !resolve_unfold. unfold resolve_items.
  set (U := U4 X (expand_templates T)).
  pose proof (loop_same (Datatypes.length U) U [] [] eq_refl) as L.
  destruct (resolve_loop X env1 _ U []) as [[r d]|], (resolve_loop X env2 _ U []) as [[r' d']|];
    try contradiction; [|exact I].
  destruct L as [A ->]. pose proof (agree_values _ _ A) as V.
  assert (EU : map unit_shape (get_units X r) = map unit_shape (get_units X r')).
  { unfold get_units. rewrite !map_flat_map. apply flat_map_er; [|exact V].
    intros u v E. unfold er in E. injection E as E1 E2. rewrite E1. destruct (it_type (ri_item v)); try reflexivity.
    cbn. unfold unit_shape. cbn. now rewrite E2. }
  cbn [df_dimensions df_units df_constants df_base_dimensions df_quantity_type df_dimension_type].
  split; [|split; [|split; [|split]]]; auto.
  - f_equal. f_equal. f_equal.
    + unfold check_type_annotations. apply flat_map_er; [|exact V].
      intros u v E. unfold er in E. injection E as E1 E2. unfold check_annotation. rewrite E1.
      destruct (it_annotation (ri_item v)) as [n|]; [|reflexivity].
      pose proof (agree_get r r' n A) as G. unfold er in G.
      destruct (sget n r) as [p|], (sget n r') as [q|]; try discriminate; [|reflexivity].
      cbn in G. injection G as G1 G2. rewrite G1, G2, E2. reflexivity.
    + unfold check_for_base_units_without_symbol.
      revert EU. generalize (get_units X r) (get_units X r'). intros l. induction l as [|u l IH]; intros [|v l'] E; try discriminate; [reflexivity|].
      cbn [map] in E. injection E as E1 E2 E3 E4 E5. cbn [flat_map]. rewrite (IH l' E5).
      f_equal. now rewrite E1, E3, E4.
  - unfold get_dimensions. apply flat_map_er; [|exact V].
    intros u v E. unfold er in E. injection E as E1 E2. rewrite E1, E2. reflexivity.
  - unfold get_constants. rewrite !map_flat_map. apply flat_map_er; [|exact V].
    intros u v E. unfold er in E. injection E as E1 E2. rewrite E1. destruct (it_type (ri_item v)); try reflexivity.
    cbn. unfold constant_shape. cbn. now rewrite E2.
Qed.
End Platform.
