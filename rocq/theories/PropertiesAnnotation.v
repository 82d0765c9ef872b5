(** * When a dimension annotation is accepted: the exact condition for C31 and C32 *)
From Coq Require Import String List Bool ZArith QArith Qcanon Lia.
From Verif Require Import MachineInt Ratio F64 Magnitude Exponent ExponentFacts SMap Snake Expression DimensionMath Types
  ExpansionSpec Resolve SystemSpec ResolveFacts ResolveEquations ResolveAccept Expansion Setting SystemFacts ExampleSystems PropertiesSystem
  AnnotationFacts.
Import ListNotations.
Close Scope Q_scope. Close Scope Qc_scope.
Local Open Scope string_scope.
Local Open Scope list_scope.

(** A system is accepted exactly if it is well formed and, for every annotation [x: a], [a] is one of its
    dimensions and every base dimension met when the definition of [a] is unfolded ([built_from]) is also
    met when the definition of [x] is unfolded, with the same exponent in the end. *)
Theorem C31_C32_exactly : forall k env (T : template k) o ds,
  run_unit_system (ops k) env T = Some (o, ds) -> literals_ok k T ->
  ds = [] <->
  well_formed (declared T) /\
  forall x a, In x (decls (declared T)) -> annotation x = Some a ->
    (exists d, In d (u_dimensions T) /\ de_name d = a) /\
    forall b, built_from (declared T) a b -> built_from (declared T) (decl_name x) b /\
      forall v w, denotes_dim k o a v -> denotes_dim k o (decl_name x) w -> w b = v b.
Proof.
  intros k env T o ds H [_ Hv]. rewrite (C27_accepted_iff_well_formed k env T o ds H).
  pose proof (generated_ok_expand _ T) as Gn. unfold run_unit_system in H. rewrite <- !declared_expand in *.
  split; intros [W A]; (split; [exact W|]).
  - intros x a Hx Ha. apply (annotation_exactly _ (laws k) env _ o ds Gn Hv H x a W Hx Ha). now apply A.
  - intros x Hx. destruct (annotation x) as [a|] eqn:Ha; [|intros a' Ha'; congruence].
    apply (annotation_exactly _ (laws k) env _ o ds Gn Hv H x a W Hx Ha). exact (A x a Hx Ha).
Qed.
Print Assumptions C31_C32_exactly.

(** So an accepted annotation is true if it is built from all the base dimensions its unit is built from
    (C31 fails only for a base dimension of the unit that does not occur in the annotation) ... *)
Theorem C31_built_partial : forall k env (T : template k) o x a,
  run_unit_system (ops k) env T = Some (o, []) -> literals_ok k T ->
  In x (decls (declared T)) -> annotation x = Some a ->
  (forall b, built_from (declared T) (decl_name x) b -> built_from (declared T) a b) ->
  forall v w, denotes_dim k o a v -> denotes_dim k o (decl_name x) w -> forall b, w b = v b.
Proof.
  intros k env T o x a H Lt Hx Ha Sub v w Hv Hw b.
  destruct (proj1 (C31_C32_exactly k env T o [] H Lt) eq_refl) as [W A]. destruct (A x a Hx Ha) as [(d & Hd & <-) B].
  assert (Dec : built_from (declared T) (de_name d) b \/ ~ built_from (declared T) (de_name d) b).
  { destruct Lt as [_ V]. rewrite <- !declared_expand in *.
    assert (Hd' : In (DDimension d) (decls (expand_templates T))).
    { rewrite declared_expand. unfold decls. rewrite !in_app_iff, !in_map_iff. left. exists d. auto. }
    unfold run_unit_system in H.
    destruct (recorded _ (laws k) env _ o [] (generated_ok_expand _ T) V H W) as (res & _ & _ & _ & Al).
    destruct (Al _ Hd') as (r & _ & _ & _ & K). cbn [decl_name] in K. rewrite <- K.
    destruct (in_dec string_dec b (skeys (dm_dims (ri_dims r)))); auto. }
  destruct Dec as [B1|B1]; [now apply (proj2 (B b B1))|].
  pose proof Lt as [_ V]. unfold run_unit_system in H. rewrite <- !declared_expand in *.
  rewrite (not_built_zero _ (laws k) env _ o [] (generated_ok_expand _ T) V H x b w W Hx (fun C => B1 (Sub b C)) Hw).
  assert (Hd' : In (DDimension d) (decls (expand_templates T))).
  { rewrite declared_expand. unfold decls. rewrite !in_app_iff, !in_map_iff. left. exists d. auto. }
  symmetry. exact (not_built_zero _ (laws k) env _ o [] (generated_ok_expand _ T) V H (DDimension d) b v W Hd' B1 Hv).
Qed.
Print Assumptions C31_built_partial.

(** ... and true annotations built from nothing else than their units are all accepted (C32 fails only
    for a base dimension that cancels in the annotation and does not occur in the unit). *)
Theorem C32_built_partial : forall k env (T : template k) o ds,
  run_unit_system (ops k) env T = Some (o, ds) -> literals_ok k T -> well_formed (declared T) ->
  (forall x a, In x (decls (declared T)) -> annotation x = Some a ->
    (exists d, In d (u_dimensions T) /\ de_name d = a) /\
    (forall b, built_from (declared T) a b -> built_from (declared T) (decl_name x) b) /\
    forall v w, denotes_dim k o a v -> denotes_dim k o (decl_name x) w -> forall b, w b = v b) ->
  ds = [].
Proof.
  intros k env T o ds H Lt W A. apply (C31_C32_exactly k env T o ds H Lt). split; [exact W|].
  intros x a Hx Ha. destruct (A x a Hx Ha) as (E & B & D). split; [exact E|]. intros b Bb. split; [auto|].
  intros v w Hv Hw. now apply D.
Qed.
Print Assumptions C32_built_partial.

(** ** [unit hour: Time = 3600 second] of the example system *)
Lemma built_inv {X} (S : unresolved X (unit_entry X)) x b : NoDup (map decl_name (decls S)) -> In x (decls S) -> built_from S (decl_name x) b ->
  (exists d, x = DDimension d /\ de_rhs d = DefBase tt /\ b = base_dimension_of (de_name d)) \/ exists n, mentions x n /\ built_from S n b.
Proof.
  intros N Hx B. inversion B as [d Hd Rd E1 E2|y n c Hy My Bn E1 E2]; subst.
  - left. exists d. assert (DDimension d = x); [|auto]. apply (RemovalFacts.same_decl X S); auto.
    unfold decls. rewrite !in_app_iff, !in_map_iff. left. eauto.
  - right. exists n. assert (y = x) by (apply (RemovalFacts.same_decl X S); auto). subst y. auto.
Qed.
Example C31_C32_apply : forall k, exists o x,
  run_unit_system (ops k) env0 (example k) = Some (o, []) /\ literals_ok k (example k) /\ well_formed (declared (example k)) /\
  In x (decls (declared (example k))) /\ decl_name x = "hour" /\ annotation x = Some "Time" /\
  (forall b, built_from (declared (example k)) (decl_name x) b <-> b = "time") /\
  (forall b, built_from (declared (example k)) "Time" b <-> b = "time").
Proof.
  intros k. destruct (example_ok k) as (o & H & Lt & _). exists o, (DUnit (variant (hour k) None None)).
  pose proof (proj1 (C27_accepted_iff_well_formed k env0 _ o [] H) eq_refl) as [W _].
  assert (Hh : In (DUnit (variant (hour k) None None)) (decls (declared (example k)))).
  { unfold decls. rewrite !in_app_iff, !in_map_iff. right. left. eexists. split; [reflexivity|]. apply declared_units.
    exists (hour k). split; [right; right; now left|]. exists None, None. now repeat split. }
  assert (Hs : In (DUnit (variant (second k) None None)) (decls (declared (example k)))).
  { unfold decls. rewrite !in_app_iff, !in_map_iff. right. left. eexists. split; [reflexivity|]. apply declared_units.
    exists (second k). split; [right; now left|]. exists None, None. now repeat split. }
  assert (Hd : In {| de_name := "Time"; de_rhs := DefBase tt |} (u_dimensions (declared (example k)))) by (right; now left).
  assert (Hd' : In (DDimension {| de_name := "Time"; de_rhs := DefBase tt |}) (decls (declared (example k)))).
  { unfold decls. rewrite !in_app_iff, !in_map_iff. left. eauto. }
  assert (BT : built_from (declared (example k)) "Time" "time") by exact (built_base _ _ Hd eq_refl).
  assert (BT' : forall b, built_from (declared (example k)) "Time" b -> b = "time").
  { intros b B. apply (built_inv _ _ b (wf_names _ _ W) Hd') in B as [(d & E & _ & ->)|(n & [] & _)].
    injection E as <-. reflexivity. }
  split; [exact H|]. split; [exact Lt|]. split; [exact W|]. split; [exact Hh|]. split; [reflexivity|]. split; [reflexivity|]. split.
  - intros b. split.
    + intros B. apply (built_inv _ _ b (wf_names _ _ W) Hh) in B as [(d & E & _)|(n & M & B)]; [discriminate E|].
      assert (n = "second").
      { cbn [mentions ue_definition variant variant_definition hour ut_definition] in M. unfold num in M. set (c := from_f64 _) in M. clearbody c.
        inversion M as [|? ? ? M1|? ? ? M1]; subst; [inversion M1 as [? M2| |]; subst; inversion M2|inversion M1; reflexivity]. }
      subst n. apply (built_inv _ _ b (wf_names _ _ W) Hs) in B as [(d & E & _)|(n & -> & B)]; [discriminate E|]. now apply BT'.
    + intros ->. apply (built_step _ _ "second" _ Hh).
      * cbn [mentions ue_definition variant variant_definition hour ut_definition]. apply occ_rhs. constructor.
      * apply (built_step _ _ "Time" _ Hs); [reflexivity|exact BT].
  - intros b. split; [apply BT'|intros ->; exact BT].
Qed.
