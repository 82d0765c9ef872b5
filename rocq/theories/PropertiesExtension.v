(** * Adding statements: C75 *)
From Coq Require Import String List Bool ZArith QArith Qcanon Lia.
From Verif Require Import MachineInt Ratio F64 Magnitude Exponent ExponentFacts SMap Expression DimensionMath Types PrefixSpec ExpansionSpec
  Resolve ResolveLoop ResolveChecks SystemSpec ResolveFacts ResolveEquations Expansion Setting SystemFacts
  ExampleSystems Parse Grammar ParseFacts ParsedSystems Accuracy PropertiesParse PropertiesSystem PropertiesExact ExactFacts ExtensionFacts.
Import ListNotations.
Close Scope Q_scope. Close Scope Qc_scope.
Local Open Scope string_scope.
Local Open Scope list_scope.

(** Statements may be added anywhere: if both texts are accepted, every dimension, unit and constant of
    the smaller system is one of the larger system, with the same exponents, factor, symbol and base
    flag (equal records). *)
Theorem C75_adding_statements : forall k env f1 f2 T1 T2 o1 o2,
  wf_file f1 -> wf_file f2 -> incl (sl_items f1) (sl_items f2) ->
  parse_system k (print_file f1) = Some T1 -> parse_system k (print_file f2) = Some T2 ->
  run_unit_system (ops k) env T1 = Some (o1, []) -> run_unit_system (ops k) env T2 = Some (o2, []) ->
  incl (df_dimensions o1) (df_dimensions o2) /\ incl (df_units o1) (df_units o2) /\
  incl (df_constants o1) (df_constants o2).
Proof.
  intros k env f1 f2 T1 T2 o1 o2 W1 W2 Sub E1 E2 R1 R2. rewrite parse_print in E1, E2 by assumption.
  apply (extend_all (ops k) (laws k) env (expand_templates T1) (expand_templates T2));
    auto using generated_ok_expand. rewrite !declared_expand.
  unfold mean_file in E1, E2.
  destruct (collect (mean_stmt k) (sl_items f1)) as [es1|] eqn:C1; [|discriminate E1].
  destruct (collect (mean_stmt k) (sl_items f2)) as [es2|] eqn:C2; [|discriminate E2].
  assert (I : incl es1 es2).
  { intros en Hen. destruct (collect_in _ _ _ _ C1 Hen) as (s & Hs & Ms).
    destruct (collect_all _ _ _ _ C2 (Sub s Hs)) as (en' & Hen' & Ms'). congruence. }
  assert (K : forall A (g : entry k -> list A), incl (flat_map g es1) (flat_map g es2)).
  { intros A g a Ha. apply in_flat_map in Ha as (en & Hen & Ha). apply in_flat_map. eauto. }
  assert (D : incl (u_dimensions T1) (u_dimensions T2)) by (injection E1 as <-; injection E2 as <-; apply K).
  assert (U : incl (u_units T1) (u_units T2)) by (injection E1 as <-; injection E2 as <-; apply K).
  assert (C : incl (u_constants T1) (u_constants T2)) by (injection E1 as <-; injection E2 as <-; apply K).
  unfold decls. intros x Hx. rewrite !in_app_iff, !in_map_iff in *.
  destruct Hx as [(y & <- & Hy)|[(y & <- & Hy)|(y & <- & Hy)]].
  - left. exists y. split; [reflexivity|]. now apply D.
  - right. left. exists y. split; [reflexivity|]. apply declared_units in Hy as (t & Ht & V). apply declared_units. eauto.
  - right. right. exists y. split; [reflexivity|]. now apply C.
Qed.
Print Assumptions C75_adding_statements.

(** [scaled_file 2 3] with [unit y = x * x;] and [dimension Area = Length * Length;] put in front. *)
Definition larger_file : slist stmt := {| sl_trailing := false; sl_items :=
  SUnit [] "y" None (Some (SxBin (SxOne (SfVal (AtIdent "x"))) ByStar (SfVal (AtIdent "x"))))
  :: SDimension [] "Area" (Some (SxBin (SxOne (SfVal (AtIdent "Length"))) ByStar (SfVal (AtIdent "Length"))))
  :: sl_items (scaled_file (SInt false 2) (SInt false 3)) |}.
Definition accepted_file (f : slist stmt) : bool :=
  match parse_system IntegerExponents (print_file f) with
  | Some T => match run_unit_system (ops IntegerExponents) env0 T with Some (o, []) => true | _ => false end
  | None => false
  end.
Lemma accepted_file_ok f : accepted_file f = true -> exists T o,
  parse_system IntegerExponents (print_file f) = Some T /\ run_unit_system (ops IntegerExponents) env0 T = Some (o, []).
Proof.
  unfold accepted_file. destruct (parse_system IntegerExponents (print_file f)) as [T|]; [|discriminate].
  destruct (run_unit_system (ops IntegerExponents) env0 T) as [[o [|]]|] eqn:R; try discriminate. eauto.
Qed.
Example C75_applies : exists f1 f2 T1 T2 o1 o2,
  wf_file f1 /\ wf_file f2 /\ incl (sl_items f1) (sl_items f2) /\
  parse_system IntegerExponents (print_file f1) = Some T1 /\ parse_system IntegerExponents (print_file f2) = Some T2 /\
  run_unit_system (ops IntegerExponents) env0 T1 = Some (o1, []) /\ run_unit_system (ops IntegerExponents) env0 T2 = Some (o2, []) /\
  ~ incl (sl_items f2) (sl_items f1).
Proof.
  destruct (accepted_file_ok (scaled_file (SInt false 2) (SInt false 3)) ltac:(vm_compute; reflexivity)) as (T1 & o1 & E1 & R1).
  destruct (accepted_file_ok larger_file ltac:(vm_compute; reflexivity)) as (T2 & o2 & E2 & R2).
  exists (scaled_file (SInt false 2) (SInt false 3)), larger_file, T1, T2, o1, o2. repeat split; auto; try easy.
  - apply scaled_wf.
  - cbn [sl_items larger_file scaled_file]. unfold wf_stmt, wf_ident.
    repeat (first [apply accept_name; reflexivity | apply Forall_nil | constructor | discriminate | reflexivity]).
  - unfold larger_file. cbn [sl_items]. now apply incl_tl, incl_tl, incl_refl.
  - intros H. specialize (H _ (or_introl eq_refl)). cbn [In sl_items scaled_file] in H.
    repeat (destruct H as [H|H]; [discriminate H|]). exact H.
Qed.
