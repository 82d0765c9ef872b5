(** * What a name means depends on what is said about it: C83 *)
From Coq Require Import String List Bool ZArith Lia.
From Verif Require Import MachineInt Ratio F64 Magnitude Exponent ExponentFacts SMap Expression DimensionMath Types PrefixSpec ExpansionSpec
  Resolve ResolveLoop ResolveChecks SystemSpec Expansion Setting SystemFacts ExampleSystems Parse Grammar ParseFacts ParsedSystems
  Accuracy PropertiesParse PropertiesSystem ExactFacts PropertiesExact PropertiesExtension PropertiesIndependence LocalSpec LocalFacts.
Import ListNotations.
Local Open Scope string_scope.
Local Open Scope list_scope.

(** Take two accepted files and a set [N] of names about which both files say the same, closed under
    reference.  Then these names come out the same: same dimension, and for units and constants the same
    factor.  Anything else in the two files may differ: other statements, their order, all symbols, the
    dimension annotations, and which attribute a prefixed name or an alias comes from. *)
Theorem C83_local : forall k env f1 f2 T1 T2 o1 o2 (N : ident -> Prop),
  wf_file f1 -> wf_file f2 ->
  parse_system k (print_file f1) = Some T1 -> parse_system k (print_file f2) = Some T2 ->
  run_unit_system (ops k) env T1 = Some (o1, []) -> run_unit_system (ops k) env T2 = Some (o2, []) ->
  (forall n, N n -> exists d, In (n, d) (says f1) /\ In (n, d) (says f2) /\ forall s, refers s d -> N s) ->
  forall n, N n ->
    (exists l m, comes_out o1 n l m) /\ forall l m, comes_out o1 n l m <-> comes_out o2 n l m.
Proof.
  intros k env f1 f2 T1 T2 o1 o2 N W1 W2 E1 E2 R1 R2 Cl n Hn. rewrite parse_print in E1, E2 by assumption.
  destruct (local_all k env f1 f2 T1 T2 o1 o2 E1 E2 R1 R2 N Cl n Hn) as (l & m & C1 & C2).
  split; [eauto|]. intros l' m'. split; intros C'.
  - destruct (comes_out_one k env T1 o1 n l m l' m' R1 C1 C') as [<- <-]. exact C2.
  - destruct (comes_out_one k env T2 o2 n l m l' m' R2 C2 C') as [<- <-]. exact C1.
Qed.
Print Assumptions C83_local.

(** Two accepted files that say the same things have the same dimensions, units and constants. *)
Theorem C83_same_definitions : forall k env f1 f2 T1 T2 o1 o2,
  wf_file f1 -> wf_file f2 ->
  parse_system k (print_file f1) = Some T1 -> parse_system k (print_file f2) = Some T2 ->
  run_unit_system (ops k) env T1 = Some (o1, []) -> run_unit_system (ops k) env T2 = Some (o2, []) ->
  (forall n d, In (n, d) (says f1) <-> In (n, d) (says f2)) ->
  forall n l m, comes_out o1 n l m <-> comes_out o2 n l m.
Proof.
  intros k env f1 f2 T1 T2 o1 o2 W1 W2 E1 E2 R1 R2 Same n l m.
  assert (Cl : forall n, (exists d, In (n, d) (says f1)) ->
    exists d, In (n, d) (says f1) /\ In (n, d) (says f2) /\ forall s, refers s d -> exists d', In (s, d') (says f1)).
  { intros n' (d & Hd). exists d. split; [exact Hd|]. split; [now apply Same|]. intros s Hs.
    rewrite parse_print in E1 by assumption. exact (said_closed k env f1 T1 o1 n' d s E1 R1 Hd Hs). }
  pose proof (fun n H => proj2 (C83_local k env f1 f2 T1 T2 o1 o2 _ W1 W2 E1 E2 R1 R2 Cl n H)) as K.
  rewrite parse_print in E1, E2 by assumption. split; intros C.
  - apply K; [|exact C]. exact (comes_out_said k env f1 T1 o1 n l m E1 R1 C).
  - apply K; [|exact C]. destruct (comes_out_said k env f2 T2 o2 n l m E2 R2 C) as (d & Hd). exists d. now apply Same.
Qed.
Print Assumptions C83_same_definitions.

(** Only names the file says something about come out, and with each name everything it refers to. *)
Theorem C83_only_said : forall k env f T o n l m,
  wf_file f -> parse_system k (print_file f) = Some T -> run_unit_system (ops k) env T = Some (o, []) ->
  comes_out o n l m -> exists d, In (n, d) (says f) /\ forall s, refers s d -> exists l' m', comes_out o s l' m'.
Proof.
  intros k env f T o n l m W E R C. pose proof E as E0. rewrite parse_print in E by assumption.
  destruct (comes_out_said k env f T o n l m E R C) as (d & Hd). exists d. split; [exact Hd|]. intros s Hs.
  assert (Cl : forall n, (exists d, In (n, d) (says f)) ->
    exists d, In (n, d) (says f) /\ In (n, d) (says f) /\ forall s, refers s d -> exists d', In (s, d') (says f)).
  { intros n' (d' & Hd'). exists d'. split; [exact Hd'|]. split; [exact Hd'|]. intros s' Hs'.
    exact (said_closed k env f T o n' d' s' E R Hd' Hs'). }
  exact (proj1 (C83_local k env f f T T o o _ W W E0 E0 R R Cl s (said_closed k env f T o n d s E R Hd Hs))).
Qed.
Print Assumptions C83_only_said.

(** ** Two such files
    The second has other symbols, no annotation on [acre], another order, and a second base dimension. *)
Definition acre_rhs : sx := SxBin (SxBin (SxOne (SfVal (AtLit (SDec false 404686 (-2))))) ByStar (SfVal (AtIdent "meter"))) ByStar (SfVal (AtIdent "meter")).
Definition area_rhs : sx := SxBin (SxOne (SfVal (AtIdent "Length"))) ByStar (SfVal (AtIdent "Length")).
Definition field_file : slist stmt := {| sl_trailing := true; sl_items :=
  [SQuantityType [] "Quantity"; SDimensionType [] "Dimension"; SDimension [] "Length" None;
   SDimension [] "Area" (Some area_rhs);
   SUnit [USymbol "m"; UBase "Length"; UPrefix {| sl_trailing := false; sl_items := [Kilo] |}] "meter" None None;
   SUnit [USymbol "ac"] "acre" (Some "Area") (Some acre_rhs)] |}.
Definition other_file : slist stmt := {| sl_trailing := false; sl_items :=
  [SUnit [] "acre" None (Some acre_rhs); SDimension [] "Time" None; SUnit [UBase "Time"; USymbol "s"] "second" None None;
   SUnit [UPrefix {| sl_trailing := false; sl_items := [Centi; Kilo] |}; UBase "Length"; USymbol "mt"] "meter" None None;
   SDimensionType [] "Dimension"; SDimension [] "Length" None; SQuantityType [] "Quantity"] |}.
Definition common (n : ident) : Prop := In n ["Length"; "meter"; "kilometer"; "acre"].
Example C83_applies : exists T1 T2 o1 o2,
  wf_file field_file /\ wf_file other_file /\
  parse_system IntegerExponents (print_file field_file) = Some T1 /\ parse_system IntegerExponents (print_file other_file) = Some T2 /\
  run_unit_system (ops IntegerExponents) env0 T1 = Some (o1, []) /\ run_unit_system (ops IntegerExponents) env0 T2 = Some (o2, []) /\
  (forall n, common n -> exists d, In (n, d) (says field_file) /\ In (n, d) (says other_file) /\ forall s, refers s d -> common s) /\
  common "acre".
Proof.
  destruct (accepted_file_ok field_file ltac:(vm_compute; reflexivity)) as (T1 & o1 & E1 & R1).
  destruct (accepted_file_ok other_file ltac:(vm_compute; reflexivity)) as (T2 & o2 & E2 & R2).
  exists T1, T2, o1, o2. split; [|split; [|split; [exact E1|split; [exact E2|split; [exact R1|split; [exact R2|split]]]]]].
  - split; [easy|]. cbn [sl_items field_file]. unfold wf_stmt, wf_ident.
    repeat (first [apply accept_name; reflexivity | apply Forall_nil | constructor | discriminate | reflexivity]).
  - split; [easy|]. cbn [sl_items other_file]. unfold wf_stmt, wf_ident.
    repeat (first [apply accept_name; reflexivity | apply Forall_nil | constructor | discriminate | reflexivity]).
  - intros n Hn. unfold common in *. cbn [In] in Hn. destruct Hn as [<-|[<-|[<-|[<-|[]]]]].
    + exists BaseDimension. split; [vm_compute; tauto|]. split; [vm_compute; tauto|]. intros s [].
    + exists (BaseUnitOf "Length"). split; [vm_compute; tauto|]. split; [vm_compute; tauto|]. intros s ->. now left.
    + exists (PowerOfTen 3 "meter"). split; [vm_compute; tauto|]. split; [vm_compute; tauto|]. intros s ->. right. now left.
    + exists (ValueIs acre_rhs). split; [vm_compute; tauto|]. split; [vm_compute; tauto|]. intros s Hs. cbn [refers] in Hs.
      inversion Hs as [|? ? ? H|? ? ? H]; subst; [|inversion H; subst; right; now left].
      inversion H as [|? ? ? H'|? ? ? H']; subst; [|inversion H'; subst; right; now left].
      inversion H' as [? H''| |]; subst. inversion H''.
  - vm_compute. tauto.
Qed.
