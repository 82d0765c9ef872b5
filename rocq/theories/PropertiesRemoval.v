(** * Removing statements: C78 *)
From Coq Require Import String List Bool ZArith QArith Qcanon Lia Permutation.
From Verif Require Import MachineInt Ratio F64 Magnitude Exponent ExponentFacts SMap Expression DimensionMath Types PrefixSpec ExpansionSpec
  Resolve ResolveLoop ResolveChecks SystemSpec ResolveFacts ResolveEquations Expansion Setting SystemFacts
  ExampleSystems Parse Grammar ParseFacts ParsedSystems Accuracy PropertiesParse PropertiesSystem PropertiesExact ExactFacts
  ExtensionFacts PropertiesExtension RemovalFacts.
Import ListNotations.
Close Scope Q_scope. Close Scope Qc_scope.
Local Open Scope string_scope.
Local Open Scope list_scope.

Lemma collect_perm {A B} (g : A -> option B) l l' : Permutation l l' -> forall m, collect g l = Some m ->
  exists m', collect g l' = Some m' /\ Permutation m m'.
Proof.
  induction 1 as [|x l l' P IH|x y l|l l' l'' P IH P' IH']; intros m; cbn [collect].
  - intros E. injection E as <-. eauto.
  - destruct (g x) as [b|]; [|discriminate]. destruct (collect g l) as [bs|]; [|discriminate]. intros E.
    assert (m = b :: bs) by congruence. subst m. destruct (IH bs eq_refl) as (m' & -> & P'). eauto.
  - destruct (g y) as [b|]; [|discriminate]. destruct (g x) as [c|]; [|discriminate].
    destruct (collect g l) as [bs|]; [|discriminate]. intros E.
    assert (m = b :: c :: bs) by congruence. subst m. eexists. split; [reflexivity|apply perm_swap].
  - intros E. destruct (IH m E) as (m1 & E1 & P1). destruct (IH' m1 E1) as (m2 & E2 & P2).
    exists m2. split; [exact E2|]. now transitivity m1.
Qed.
Lemma collect_app {A B} (g : A -> option B) a b m : collect g (a ++ b) = Some m ->
  exists ma mb, collect g a = Some ma /\ collect g b = Some mb /\ m = ma ++ mb.
Proof.
  revert m. induction a as [|x a IH]; intros m; cbn [app collect]; [intros E; exists [], m; auto|].
  destruct (g x) as [y|]; [|discriminate]. destruct (collect g (a ++ b)) as [bs|]; [|discriminate]. intros E.
  destruct (IH bs eq_refl) as (ma & mb & -> & -> & ->). exists (y :: ma), mb. split; [reflexivity|]. split; [reflexivity|].
  assert (m = y :: ma ++ mb) by congruence. now subst.
Qed.

(** Take any of the statements of an accepted text, in any order.  They are accepted exactly if they are
    self-contained: nothing they refer to is missing.  What they declare is then the same as before: the
    dimensions, units and constants are exactly those of the whole system that are declared by the
    remaining statements, with the same exponents, factors, symbols and base flags (equal records). *)
Theorem C78_removing_statements : forall k env f1 f2 removed T2 o2,
  wf_file f1 -> wf_file f2 -> Permutation (sl_items f1 ++ removed) (sl_items f2) ->
  parse_system k (print_file f2) = Some T2 -> run_unit_system (ops k) env T2 = Some (o2, []) ->
  exists T1, parse_system k (print_file f1) = Some T1 /\
  ((exists o1, run_unit_system (ops k) env T1 = Some (o1, [])) <-> self_contained (declared T1)) /\
  forall o1, run_unit_system (ops k) env T1 = Some (o1, []) ->
    (forall y, In y (df_dimensions o1) <-> In y (df_dimensions o2) /\ In (d_name y) (map decl_name (decls (declared T1)))) /\
    (forall y, In y (df_units o1) <-> In y (df_units o2) /\ In (un_name y) (map decl_name (decls (declared T1)))) /\
    (forall y, In y (df_constants o1) <-> In y (df_constants o2) /\ In (c_name y) (map decl_name (decls (declared T1)))).
Proof.
  intros k env f1 f2 removed T2 o2 W1 W2 Perm E2 R2. pose proof E2 as E2'. rewrite parse_print in E2 by assumption.
  unfold mean_file in E2. destruct (collect (mean_stmt k) (sl_items f2)) as [es2|] eqn:C2; [|discriminate E2].
  destruct (collect_perm _ _ _ (Permutation_sym Perm) _ C2) as (es & C & Pe).
  destruct (collect_app _ _ _ _ C) as (es1 & esr & C1 & Cr & ->).
  assert (E1 : exists T1, mean_file k f1 = Some T1) by (unfold mean_file; rewrite C1; eauto).
  destruct E1 as [T1 E1]. exists T1. split; [now rewrite parse_print by assumption|].
  assert (E1' : parse_system k (print_file f1) = Some T1) by now rewrite parse_print by assumption.
  unfold mean_file in E1. rewrite C1 in E1.
  assert (K : forall A (g : entry k -> list A), Permutation (flat_map g es1 ++ flat_map g esr) (flat_map g es2)).
  { intros A g. rewrite <- flat_map_app. apply Permutation_flat_map. now apply Permutation_sym. }
  assert (S : exists q d ds us cs,
    Permutation (u_quantity_types T1 ++ q) (u_quantity_types T2) /\ Permutation (u_dimension_types T1 ++ d) (u_dimension_types T2) /\
    Permutation (u_dimensions T1 ++ ds) (u_dimensions T2) /\ Permutation (u_units T1 ++ us) (u_units T2) /\
    Permutation (u_constants T1 ++ cs) (u_constants T2)).
  { injection E1 as <-. injection E2 as <-. cbn [u_quantity_types u_dimension_types u_dimensions u_units u_constants].
    do 5 eexists. repeat split; apply K. }
  destruct S as (q & d & dims & us & cs & Pq & Pd & Pdim & Pu & Pc).
  set (S1 := declared T1) in *. set (S2 := declared T2).
  assert (G1 : generated_ok (ops k) S1) by (unfold S1; rewrite <- declared_expand; apply generated_ok_expand).
  assert (G2 : generated_ok (ops k) S2) by (unfold S2; rewrite <- declared_expand; apply generated_ok_expand).
  unfold run_unit_system in R2. rewrite declared_expand in R2. fold S2 in R2.
  assert (RR : forall o1, run_unit_system (ops k) env T1 = Some (o1, []) <-> resolve (ops k) env S1 = Some (o1, [])).
  { intros o1. unfold run_unit_system. rewrite declared_expand. reflexivity. }
  assert (PD : exists more, Permutation (decls S1 ++ more) (decls S2)).
  { unfold decls, S1, S2. cbn [declared u_dimensions u_units u_constants].
    set (v := fun t => flat_map _ _).
    exists (map DDimension dims ++ map DUnit (flat_map v us) ++ map DConstant cs).
    rewrite <- Pdim, <- Pc, <- Pu. rewrite flat_map_app, !map_app.
    generalize (map DDimension (u_dimensions T1)), (map DDimension dims), (map DUnit (flat_map v (u_units T1))),
      (map DUnit (flat_map v us)), (map DConstant (u_constants T1)), (map DConstant cs). intros a a' b b' c c'.
    rewrite <- !app_assoc. apply Permutation_app_head.
    rewrite (app_assoc b c). rewrite Permutation_app_swap_app. apply Permutation_app_head.
    rewrite <- app_assoc. apply Permutation_app_head. apply Permutation_app_swap_app. }
  destruct PD as [more PD].
  assert (Sub : incl (decls S1) (decls S2)).
  { intros x Hx. apply (Permutation_in _ PD). apply in_or_app. now left. }
  destruct (accepted_all (ops k) (laws k) env S2 o2 G2 R2) as (WF2 & _).
  assert (N1 : NoDup (map decl_name (decls S1))).
  { pose proof (wf_names _ _ WF2) as N. apply (Permutation_NoDup (Permutation_map decl_name (Permutation_sym PD))) in N.
    rewrite map_app in N. clear -N. induction (map decl_name (decls S1)) as [|x l IH]; [constructor|].
    inversion N; subst. constructor; [|auto]. intros H. apply H1. apply in_or_app. now left. }
  assert (Q1 : (length (u_quantity_types S1) <= 1)%nat).
  { destruct (wf_quantity _ _ WF2) as [x Hx]. cbn [S2 declared u_quantity_types] in Hx. apply Permutation_length in Pq.
    rewrite Hx, app_length in Pq. cbn in Pq. cbn [S1 declared u_quantity_types]. lia. }
  assert (D1 : (length (u_dimension_types S1) <= 1)%nat).
  { destruct (wf_dimension _ _ WF2) as [x Hx]. cbn [S2 declared u_dimension_types] in Hx. apply Permutation_length in Pd.
    rewrite Hx, app_length in Pd. cbn in Pd. cbn [S1 declared u_dimension_types]. lia. }
  split.
  - split.
    + intros [o1 R1]. apply RR in R1. exact (part_contained (ops k) (laws k) env S1 G1 o1 R1).
    + intros H. destruct (part_accepted (ops k) (laws k) env S1 S2 o2 G1 G2 R2 Sub N1 Q1 D1 H) as [o1 R1].
      exists o1. now apply RR.
  - intros o1 R1. pose proof R1 as R1'. apply RR in R1.
    destruct (part_all (ops k) (laws k) env S1 S2 o2 G1 G2 R2 Sub o1 R1) as (A & B & C').
    destruct (extend_all (ops k) (laws k) env S1 S2 o1 o2 G1 G2 R1 R2 Sub) as (A' & B' & C'').
    destruct (accepted_all (ops k) (laws k) env S1 o1 G1 R1) as (_ & res & d8 & _ & H & -> & _).
    pose proof (resolved_wf (ops k) env _ _ _ H) as Wr.
    assert (Nm : forall n r, sget n res = Some r -> exists x, In x (decls S1) /\ ri_item r = item_of (ops k) x /\ decl_name x = n)
      by (intros n r Hr; exact (entry_decl (ops k) env _ _ _ _ _ H Hr)).
    split; [|split]; intros y; (split; [|intros [? ?]; auto]); intros Hy; (split; [auto|]).
    + cbn [out_of df_dimensions] in Hy. apply (get_dimensions_In (ops k) _ _ Wr) in Hy as (n & r & e & Hr & Ht & ->).
      destruct (Nm n r Hr) as (x & Hx & Ix & Nx). rewrite Ix in Ht. apply item_of_type_dim in Ht. subst x.
      apply in_map_iff. eexists. split; [|exact Hx]. reflexivity.
    + cbn [out_of df_units] in Hy. apply (get_units_In (ops k) _ _ Wr) in Hy as (n & r & e & Hr & Ht & ->).
      destruct (Nm n r Hr) as (x & Hx & Ix & Nx). rewrite Ix in Ht. apply item_of_type_unit in Ht. subst x.
      apply in_map_iff. eexists. split; [|exact Hx]. reflexivity.
    + cbn [out_of df_constants] in Hy. apply (get_constants_In (ops k) _ _ Wr) in Hy as (n & r & e & Hr & Ht & ->).
      destruct (Nm n r Hr) as (x & Hx & Ix & Nx). rewrite Ix in Ht. apply item_of_type_const in Ht. subst x.
      apply in_map_iff. eexists. split; [|exact Hx]. reflexivity.
Qed.
Print Assumptions C78_removing_statements.

(** The file [larger_file] is accepted.  Without [y] and [Area] it still is; without [x] it is not,
    because [y] refers to it. *)
Lemma larger_wf : wf_file larger_file.
Proof.
  split; [easy|]. cbn [sl_items larger_file scaled_file]. unfold wf_stmt, wf_ident.
  repeat (first [apply accept_name; reflexivity | apply Forall_nil | constructor | discriminate | reflexivity]).
Qed.
Definition without_x : slist stmt := {| sl_trailing := false; sl_items := firstn 6 (sl_items larger_file) |}.
Definition unit_x : stmt := last (sl_items larger_file) (SQuantityType [] "Q").
Example C78_applies : exists T2 o2 T1 o1 T1',
  parse_system IntegerExponents (print_file larger_file) = Some T2 /\ run_unit_system (ops IntegerExponents) env0 T2 = Some (o2, []) /\
  Permutation (sl_items (scaled_file (SInt false 2) (SInt false 3)) ++ firstn 2 (sl_items larger_file)) (sl_items larger_file) /\
  parse_system IntegerExponents (print_file (scaled_file (SInt false 2) (SInt false 3))) = Some T1 /\
  run_unit_system (ops IntegerExponents) env0 T1 = Some (o1, []) /\ self_contained (declared T1) /\
  Permutation (sl_items without_x ++ [unit_x]) (sl_items larger_file) /\ wf_file without_x /\
  parse_system IntegerExponents (print_file without_x) = Some T1' /\ ~ self_contained (declared T1').
Proof.
  destruct (accepted_file_ok larger_file ltac:(vm_compute; reflexivity)) as (T2 & o2 & E2 & R2).
  destruct (accepted_file_ok (scaled_file (SInt false 2) (SInt false 3)) ltac:(vm_compute; reflexivity)) as (T1 & o1 & E1 & R1).
  assert (P1 : Permutation (sl_items (scaled_file (SInt false 2) (SInt false 3)) ++ firstn 2 (sl_items larger_file)) (sl_items larger_file)).
  { cbn [larger_file sl_items firstn]. apply (Permutation_app_comm _ [_; _]). }
  assert (P2 : Permutation (sl_items without_x ++ [unit_x]) (sl_items larger_file)) by apply Permutation_refl.
  assert (W : wf_file without_x).
  { split; [easy|]. destruct larger_wf as [_ F]. rewrite Forall_forall in F |- *. intros s Hs. apply F.
    cbn [without_x sl_items] in Hs. rewrite <- (firstn_skipn 6 (sl_items larger_file)). apply in_or_app. now left. }
  destruct (C78_removing_statements IntegerExponents env0 _ larger_file _ T2 o2 (scaled_wf _ _) larger_wf P1 E2 R2)
    as (T & E & [Acc _] & _).
  assert (T = T1) by congruence. subst T.
  destruct (C78_removing_statements IntegerExponents env0 without_x larger_file _ T2 o2 W larger_wf P2 E2 R2)
    as (T1' & E' & [_ Acc'] & _).
  exists T2, o2, T1, o1, T1'. repeat (split; [first [assumption|now apply Acc; exists o1]|]).
  intros C. destruct (Acc' C) as [o' R'].
  assert (F : accepted_file without_x = false) by (vm_compute; reflexivity).
  unfold accepted_file in F. rewrite E', R' in F. discriminate F.
Qed.
