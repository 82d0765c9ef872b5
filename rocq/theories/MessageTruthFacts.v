(** * What is true of a system when an error is reported: chains of definitions *)
From Coq Require Import String List Bool ZArith Lia Classical_Prop.
From Verif Require Import MachineInt Ratio F64 Magnitude Exponent ExponentFacts SMap Expression DimensionMath DimensionMathFacts
  Types Resolve ResolveLoop ResolveChecks SystemSpec ResolveFacts ResolveReports.
Import ListNotations.
Local Open Scope list_scope.

Section Chains.
Context {X : exp_ops}.

(** A definition of [n] mentions [m]. *)
Definition defined_by (S : unresolved X (unit_entry X)) (n m : ident) : Prop :=
  exists x, In x (decls S) /\ decl_name x = n /\ mentions x m.
(** Unfolding definitions leads from [n] to [m]. *)
Inductive leads_to (S : unresolved X (unit_entry X)) : ident -> ident -> Prop :=
| leads_here n : leads_to S n n
| leads_on n m l : defined_by S n m -> leads_to S m l -> leads_to S n l.
(** [n] is defined recursively, or in terms of a recursive definition. *)
Definition recursive (S : unresolved X (unit_entry X)) (n : ident) : Prop :=
  exists m m', leads_to S n m /\ defined_by S m m' /\ leads_to S m' m.
(** [n] is defined, possibly through other definitions, in terms of a name that is not defined. *)
Definition leads_to_undefined (S : unresolved X (unit_entry X)) (n : ident) : Prop :=
  exists m, leads_to S n m /\ ~ In m (map decl_name (decls S)).

Lemma leads_trans S a b c : leads_to S a b -> leads_to S b c -> leads_to S a c.
Proof. induction 1 as [|a m b H _ IH]; [auto|]. intros Hc. exact (leads_on S a m c H (IH Hc)). Qed.

(** A set of names each of which has a definition mentioning a name of the set contains a cycle. *)
Lemma cycle_in (S : unresolved X (unit_entry X)) (P : ident -> Prop) :
  (forall n, P n -> In n (map decl_name (decls S)) /\ exists m, defined_by S n m /\ P m) -> forall n, P n -> recursive S n.
Proof.
  intros H.
  assert (G : forall fuel visited n, (length (map (@decl_name X) (decls S)) <= length visited + fuel)%nat -> NoDup visited ->
    incl visited (map decl_name (decls S)) -> (forall v, In v visited -> exists v', defined_by S v v' /\ leads_to S v' n) ->
    P n -> recursive S n).
  { induction fuel as [|fuel IH]; intros visited n Hl Nd Hi Hv Pn; destruct (H n Pn) as [Dn (m & Hm & Pm)].
    - destruct (in_dec String.string_dec n visited) as [Hin|Hin].
      { destruct (Hv n Hin) as (v' & H1 & H2). exists n, v'. split; [constructor|]. auto. }
      exfalso. assert (L : (length (n :: visited) <= length (map (@decl_name X) (decls S)))%nat).
      { apply NoDup_incl_length; [now constructor|]. intros a [<-|Ha]; auto. }
      cbn [length] in L. lia.
    - destruct (in_dec String.string_dec n visited) as [Hin|Hin].
      { destruct (Hv n Hin) as (v' & H1 & H2). exists n, v'. split; [constructor|]. auto. }
      assert (R : recursive S m).
      { apply (IH (n :: visited) m); [cbn [length]; lia|now constructor|intros a [<-|Ha]; auto| |exact Pm].
        intros v [<-|Hv']; [exists m; split; [exact Hm|constructor]|]. destruct (Hv v Hv') as (v' & H1 & H2).
        exists v'. split; [exact H1|]. apply (leads_trans S v' n m H2). exact (leads_on S n m m Hm (leads_here S m)). }
      destruct R as (c & c' & R1 & R2 & R3). exists c, c'. split; [exact (leads_on S n m c Hm R1)|auto]. }
  intros n Pn. apply (G (length (map (@decl_name X) (decls S))) [] n); auto; try (now constructor); try (intros v []). 
Qed.

(** With every name defined, unfolding never leads to an undefined name. *)
Lemma defined_leads (S : unresolved X (unit_entry X)) n : (forall x m, In x (decls S) -> mentions x m -> In m (map decl_name (decls S))) ->
  In n (map decl_name (decls S)) -> ~ leads_to_undefined S n.
Proof.
  intros D Hn (m & Hl & Hm). apply Hm. clear Hm. induction Hl as [|n m l (x & Hx & _ & Mx) _ IH]; [exact Hn|]. apply IH. exact (D x m Hx Mx).
Qed.
(** In a system with unique names, a name whose definition unfolds completely is not recursive. *)
Lemma grounded_acyclic (S : unresolved X (unit_entry X)) n : NoDup (map decl_name (decls S)) -> grounded S n -> ~ recursive S n.
Proof.
  intros N G. induction G as [x Hx Gx IH]. intros (c & c' & L1 & D1 & L2).
  assert (U : forall m, defined_by S (decl_name x) m -> mentions x m).
  { intros m (y & Hy & Ny & My). assert (y = x); [|now subst]. clear - N Hx Hy Ny.
    induction (decls S) as [|z zs IHz]; [contradiction|]. cbn [map] in N. apply NoDup_cons_iff in N as [N1 N2].
    destruct Hx as [->|Hx], Hy as [->|Hy]; auto.
    - destruct N1. rewrite <- Ny. now apply in_map.
    - destruct N1. rewrite Ny. now apply in_map. }
  inversion L1 as [n E1 E2|n m l D L E1 E2]; subst.
  - apply (IH c' (U c' D1)). exists (decl_name x), c'. auto.
  - apply (IH m (U m D)). exists c, c'. auto.
Qed.
End Chains.

Section Truth.
Context (X : exp_ops) (env : fenv).
Notation sys := (unresolved X (unit_entry X)).

(** Items that are filtered out mention, directly or not, an undefined name. *)
Lemma lost_step (S : sys) V : generated_ok X S -> (forall i, In i V -> In i (items_of X S)) ->
  (forall x, In x (decls S) -> ~ In (item_of X x) V -> exists m, mentions x m /\ leads_to_undefined S m) ->
  forall x, In x (decls S) -> ~ In (item_of X x) (filter_autogenerated_invalid X V) -> exists m, mentions x m /\ leads_to_undefined S m.
Proof.
  intros G Sub H x Hx Hn. destruct (source (item_of X x)) as [s|] eqn:Es.
  - apply source_item in Es as Es'. destruct Es' as (u & -> & Eu). pose proof Hx as Hu. apply unit_decl in Hu.
    destruct (gen_source X S G u s Hu Eu) as [Hs Ms].
    destruct (in_dec String.string_dec s (map it_ident V)) as [Hin|Hin].
    + apply H; [exact Hx|]. intros Hv. apply Hn, filter_auto_In. split; [exact Hv|]. now rewrite Es.
    + exists s. split; [exact Ms|]. apply in_map_iff in Hs as (w & Nw & Hw). apply unit_decl in Hw.
      destruct (H (DUnit w) Hw) as (m & Hm & m' & L & U).
      { intros Hv. apply Hin. apply in_map_iff. exists (item_of X (DUnit w)). split; [now rewrite ident_of_item|exact Hv]. }
      exists m'. split; [|exact U]. apply (leads_on S s m m'); [|exact L]. exists (DUnit w). auto.
  - apply H; [exact Hx|]. intros Hv. apply Hn, filter_auto_In. split; [exact Hv|]. now rewrite Es.
Qed.
Lemma lost (S : sys) x : generated_ok X S -> In x (decls S) -> ~ In (item_of X x) (U4 X S) -> exists m, mentions x m /\ leads_to_undefined S m.
Proof.
  intros G. revert x. unfold U4, U3, U2.
  assert (Sub1 : forall i, In i (U1 X S) -> In i (items_of X S)) by (intros i; apply U1_sub).
  assert (Sub2 : forall i, In i (filter_autogenerated_invalid X (U1 X S)) -> In i (items_of X S)) by (intros i Hi; apply filter_auto_In in Hi as [Hi _]; auto).
  assert (Sub3 : forall i, In i (filter_autogenerated_invalid X (filter_autogenerated_invalid X (U1 X S))) -> In i (items_of X S)) by (intros i Hi; apply filter_auto_In in Hi as [Hi _]; auto).
  apply lost_step; [exact G|exact Sub3|]. apply lost_step; [exact G|exact Sub2|]. apply lost_step; [exact G|exact Sub1|].
  intros x Hx Hn. destruct (first_undefined X (map it_ident (items_of X S)) (item_of X x)) as [m|] eqn:E.
  - apply first_undefined_some in E as [H1 H2]. rewrite names_of_items in H2. exists m. split; [now apply mentions_item|].
    exists m. split; [constructor|exact H2].
  - exfalso. apply Hn. unfold U1, filter_undefined. cbn [fst]. apply filter_In. split; [rewrite items_of_decls; now apply in_map|]. now rewrite E.
Qed.

(** A name that was not resolved is undefined, or leads to a cycle or to an undefined name. *)
Lemma unresolved_name (S : sys) res d8 n : generated_ok X S -> resolve_items X env (U4 X S) = Some (res, d8) ->
  ~ In n (skeys res) -> recursive S n \/ leads_to_undefined S n.
Proof.
  intros G Hres Hn. destruct (Classical_Prop.classic (leads_to_undefined S n)) as [H|H]; [now right|]. left.
  pose proof (resolve_items_spec X env (U4 X S)) as O. rewrite Hres in O. destruct O as (rest & I & _ & Hr).
  apply (cycle_in S (fun n => ~ In n (skeys res) /\ ~ leads_to_undefined S n)); [|split; assumption].
  clear n Hn H. intros n [Hn H]. assert (Dn : In n (map decl_name (decls S))).
  { destruct (in_dec String.string_dec n (map decl_name (decls S))) as [D|D]; [exact D|]. destruct H. exists n. split; [constructor|exact D]. }
  split; [exact Dn|]. apply in_map_iff in Dn as (x & Nx & Hx).
  assert (K : forall m, mentions x m -> ~ leads_to_undefined S m).
  { intros m Hm (m' & L & U). apply H. exists m'. split; [|exact U]. apply (leads_on S n m m'); [|exact L]. exists x. auto. }
  assert (Hi : In (item_of X x) (U4 X S)).
  { destruct (Classical_Prop.classic (In (item_of X x) (U4 X S))) as [Hi|Hi]; [exact Hi|]. destruct (lost S x G Hx Hi) as (m & Hm & Um). destruct (K m Hm Um). }
  destruct (inv_cover _ _ _ _ _ I _ Hi) as [Hrest|Hk]; [|destruct Hn; now rewrite ident_of_item, Nx in Hk].
  pose proof (Hr _ Hrest) as Nr.
  assert (Ex : exists m, In m (others (it_expr (item_of X x))) /\ ~ In m (skeys res)).
  { apply Classical_Prop.NNPP. intros Hno. assert (is_resolvable X res (item_of X x) = true); [|congruence]. apply is_resolvable_iff.
    intros m Hm. apply Classical_Prop.NNPP. intros Hno'. apply Hno. exists m. auto. }
  destruct Ex as (m & Hm & Hmr). apply mentions_item in Hm. exists m. split; [exists x; auto|]. split; [exact Hmr|exact (K m Hm)].
Qed.

(** The same for a definition that is left over (another definition of the same name may be resolved). *)
Lemma unresolvable_leads (S : sys) res d8 n : generated_ok X S -> resolve_items X env (U4 X S) = Some (res, d8) ->
  In (Unresolvable n) d8 -> In n (map decl_name (decls S)) /\ (recursive S n \/ leads_to_undefined S n).
Proof.
  intros G Hres Hd. pose proof (resolve_items_spec X env (U4 X S)) as O. rewrite Hres in O. destruct O as (rest & I & -> & Hr).
  apply in_map_iff in Hd as (i & En & Hi). injection En as <-.
  pose proof (inv_sub _ _ _ _ _ I i Hi) as Hu. apply U4_sub in Hu. rewrite items_of_decls in Hu. apply in_map_iff in Hu as (x & <- & Hx).
  rewrite ident_of_item. split; [now apply in_map|].
  assert (Ex : exists m, In m (others (it_expr (item_of X x))) /\ ~ In m (skeys res)).
  { apply Classical_Prop.NNPP. intros Hno. pose proof (Hr _ Hi) as Nr. assert (is_resolvable X res (item_of X x) = true); [|congruence].
    apply is_resolvable_iff. intros m Hm. apply Classical_Prop.NNPP. intros Hno'. apply Hno. exists m. auto. }
  destruct Ex as (m & Hm & Hmr). apply mentions_item in Hm.
  assert (B : defined_by S (decl_name x) m) by (exists x; auto).
  destruct (unresolved_name S res _ m G Hres Hmr) as [(c & c' & L & D)|(c & L & U)].
  - left. exists c, c'. split; [exact (leads_on S _ m c B L)|exact D].
  - right. exists c. split; [exact (leads_on S _ m c B L)|exact U].
Qed.
End Truth.
