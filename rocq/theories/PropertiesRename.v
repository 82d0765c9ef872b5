(** * Names do not matter: C93 *)
From Coq Require Import String List Bool ZArith Lia.
From Verif Require Import MachineInt Ratio F64 Magnitude Exponent ExponentFacts SMap Snake Expression DimensionMath Types PrefixSpec ExpansionSpec
  Resolve ResolveLoop ResolveChecks SystemSpec ResolveFacts Expansion Setting SystemFacts ExampleSystems Parse Grammar ParseFacts ParsedSystems
  Accuracy PropertiesParse PropertiesSystem ExactFacts PropertiesExact PropertiesExtension PropertiesIndependence LocalSpec LocalFacts
  RenameSpec RenameFacts RenameAccept RenameFile PropertiesLocal.
Import ListNotations.
Local Open Scope string_scope.
Local Open Scope list_scope.

(** Take two accepted files, and a map [new] from the names of the first to those of the second, such that
    whatever the first says about a name in [N] the second says, under the new names, about its new name.
    Then unit or constant [n] of the first and [new n] of the second have the same factor, and the same
    dimension: the exponent of each base dimension [b1] of the first is the exponent of [b2] in the second,
    where [b1] and [b2] are the fields of base dimensions that correspond. *)
Theorem C93_renaming : forall k env f1 f2 T1 T2 o1 o2 (new : ident -> ident) (N : ident -> Prop),
  wf_file f1 -> wf_file f2 ->
  parse_system k (print_file f1) = Some T1 -> parse_system k (print_file f2) = Some T2 ->
  run_unit_system (ops k) env T1 = Some (o1, []) -> run_unit_system (ops k) env T2 = Some (o2, []) ->
  (forall n, N n -> exists d, In (n, d) (says f1) /\ In (new n, renamed new d) (says f2) /\ forall s, refers s d -> N s) ->
  forall n, N n ->
    (exists l1 m, comes_out o1 n l1 m) /\ (exists l2 m, comes_out o2 (new n) l2 m) /\
    forall l1 m1 l2 m2, comes_out o1 n l1 m1 -> comes_out o2 (new n) l2 m2 ->
      m1 = m2 /\
      forall b1 b2,
        (forall D, N D -> In (D, BaseDimension) (says f1) -> (base_dimension_of D = b1 <-> base_dimension_of (new D) = b2)) ->
        forall e, In (b1, e) l1 <-> In (b2, e) l2.
Proof.
  intros k env f1 f2 T1 T2 o1 o2 new N W1 W2 E1 E2 R1 R2 Cl n Hn. rewrite parse_print in E1, E2 by assumption.
  destruct (rename_all k new env f1 f2 T1 T2 o1 o2 E1 E2 R1 R2 N Cl n Hn) as (l1 & l2 & m & C1 & C2 & V1 & V2 & Same).
  split; [eauto|]. split; [eauto|]. intros l1' m1' l2' m2' C1' C2'.
  destruct (comes_out_one k env T1 o1 n l1 m l1' m1' R1 C1 C1') as [<- <-].
  destruct (comes_out_one k env T2 o2 _ l2 m l2' m2' R2 C2 C2') as [<- <-].
  split; [reflexivity|]. intros b1 b2 Hb e. specialize (Same b1 b2 Hb). split; intros H.
  - apply sget_In. rewrite <- Same. now apply In_sget.
  - apply sget_In. rewrite Same. now apply In_sget.
Qed.
Print Assumptions C93_renaming.

(** A whole file under other names.  If different base dimensions keep different fields, every name comes
    out with the same factor and, field by field, the same exponents. *)
Theorem C93_whole_file : forall k env f1 f2 T1 T2 o1 o2 (new : ident -> ident),
  wf_file f1 -> wf_file f2 ->
  parse_system k (print_file f1) = Some T1 -> parse_system k (print_file f2) = Some T2 ->
  run_unit_system (ops k) env T1 = Some (o1, []) -> run_unit_system (ops k) env T2 = Some (o2, []) ->
  (forall n d, In (n, d) (says f1) -> In (new n, renamed new d) (says f2)) ->
  (forall D D', In (D, BaseDimension) (says f1) -> In (D', BaseDimension) (says f1) ->
     (base_dimension_of D = base_dimension_of D' <-> base_dimension_of (new D) = base_dimension_of (new D'))) ->
  forall n l1 m1, comes_out o1 n l1 m1 ->
    exists l2, comes_out o2 (new n) l2 m1 /\
      forall D e, In (D, BaseDimension) (says f1) -> (In (base_dimension_of D, e) l1 <-> In (base_dimension_of (new D), e) l2).
Proof.
  intros k env f1 f2 T1 T2 o1 o2 new W1 W2 E1 E2 R1 R2 Ren Fields n l1 m1 C1.
  assert (Cl : forall n, (exists d, In (n, d) (says f1)) -> exists d, In (n, d) (says f1) /\ In (new n, renamed new d) (says f2) /\
     forall s, refers s d -> exists d', In (s, d') (says f1)).
  { intros n' (d & Hd). exists d. split; [exact Hd|]. split; [now apply Ren|]. intros s Hs.
    rewrite parse_print in E1 by assumption. exact (said_closed k env f1 T1 o1 n' d s E1 R1 Hd Hs). }
  assert (Hn : exists d, In (n, d) (says f1)).
  { rewrite parse_print in E1 by assumption. exact (comes_out_said k env f1 T1 o1 n l1 m1 E1 R1 C1). }
  destruct (C93_renaming k env f1 f2 T1 T2 o1 o2 new _ W1 W2 E1 E2 R1 R2 Cl n Hn) as (_ & (l2 & m2 & C2) & K).
  destruct (K l1 m1 l2 m2 C1 C2) as [<- Kl]. exists l2. split; [exact C2|]. intros D e HD. apply Kl.
  intros D' _ HD'. now apply Fields.
Qed.
Print Assumptions C93_whole_file.

(** Give every name and every symbol of an accepted file a new one: different names stay different,
    prefixed names follow the names of their units, fields of base dimensions that were different stay
    different, and the same goes for the symbols.  Then the
    new file is accepted too, everything comes out under its new name with the same factor and the same
    exponents, and nothing else comes out. *)
Theorem C93_renamed_file : forall k env f T o (new sy : ident -> ident),
  wf_file f -> wf_file (rename_file new sy f) ->
  parse_system k (print_file f) = Some T -> run_unit_system (ops k) env T = Some (o, []) ->
  keeps_prefixes new f ->
  (forall n d n' d', In (n, d) (says f) -> In (n', d') (says f) -> new n = new n' -> n = n') ->
  (forall D D', In (D, BaseDimension) (says f) -> In (D', BaseDimension) (says f) ->
     (base_dimension_of D = base_dimension_of D' <-> base_dimension_of (new D) = base_dimension_of (new D'))) ->
  keeps_prefixed_symbols sy f -> (forall s t, symbols_in f s -> symbols_in f t -> sy s = sy t -> s = t) ->
  exists T2 o2, parse_system k (print_file (rename_file new sy f)) = Some T2 /\ run_unit_system (ops k) env T2 = Some (o2, []) /\
    (forall n l m, comes_out o n l m ->
       exists l2, comes_out o2 (new n) l2 m /\
         forall D e, In (D, BaseDimension) (says f) -> (In (base_dimension_of D, e) l <-> In (base_dimension_of (new D), e) l2)) /\
    (forall n2 l2 m2, comes_out o2 n2 l2 m2 -> exists n l, n2 = new n /\ comes_out o n l m2).
Proof.
  intros k env f T o new sy W W2 E R Kp Inj Fields Ks SymInj. pose proof E as E0. rewrite parse_print in E by assumption.
  pose proof (mean_file_ren k new sy f T E) as E2. destruct (renamed_file_accepted k new sy env f T o E R Kp Inj Fields Ks SymInj) as (o2 & R2).
  assert (E2' : parse_system k (print_file (rename_file new sy f)) = Some (ren_system k new sy T)) by now rewrite parse_print by assumption.
  exists (ren_system k new sy T), o2. split; [exact E2'|]. split; [exact R2|].
  assert (K : forall n l m, comes_out o n l m -> exists l2, comes_out o2 (new n) l2 m /\
     forall D e, In (D, BaseDimension) (says f) -> (In (base_dimension_of D, e) l <-> In (base_dimension_of (new D), e) l2)).
  { exact (C93_whole_file k env f (rename_file new sy f) T _ o o2 new W W2 E0 E2' R R2 (says_ren new sy f Kp) Fields). }
  split; [exact K|]. intros n2 l2 m2 C2. destruct (comes_out_said k env _ _ o2 n2 l2 m2 E2 R2 C2) as (d2 & H2).
  destruct (says_ren_back new sy f Kp n2 d2 H2) as (n & d & -> & Hd).
  assert (Cl : forall n, (exists d, In (n, d) (says f)) -> exists d, In (n, d) (says f) /\ In (n, d) (says f) /\
     forall s, refers s d -> exists d', In (s, d') (says f)).
  { intros n' (d' & Hd'). exists d'. split; [exact Hd'|]. split; [exact Hd'|]. intros s Hs. exact (said_closed k env f T o n' d' s E R Hd' Hs). }
  destruct (proj1 (C83_local k env f f T T o o _ W W E0 E0 R R Cl n (ex_intro _ d Hd))) as (l & m & C).
  destruct (K n l m C) as (l2' & C2' & _). destruct (comes_out_one k env _ o2 _ _ _ _ _ R2 C2 C2') as [_ <-]. eauto.
Qed.
Print Assumptions C93_renamed_file.

(** Units stay units, with their factor and the new symbol, and base units stay base units. *)
Theorem C93_units : forall k env f T o (new sy : ident -> ident) T2 o2,
  wf_file f -> wf_file (rename_file new sy f) ->
  parse_system k (print_file f) = Some T -> run_unit_system (ops k) env T = Some (o, []) ->
  keeps_prefixes new f ->
  (forall n d n' d', In (n, d) (says f) -> In (n', d') (says f) -> new n = new n' -> n = n') ->
  (forall D D', In (D, BaseDimension) (says f) -> In (D', BaseDimension) (says f) ->
     (base_dimension_of D = base_dimension_of D' <-> base_dimension_of (new D) = base_dimension_of (new D'))) ->
  keeps_prefixed_symbols sy f -> (forall s t, symbols_in f s -> symbols_in f t -> sy s = sy t -> s = t) ->
  parse_system k (print_file (rename_file new sy f)) = Some T2 -> run_unit_system (ops k) env T2 = Some (o2, []) ->
  (forall u, In u (df_units o) -> exists u2, In u2 (df_units o2) /\
     un_name u2 = new (un_name u) /\ un_mag u2 = un_mag u /\ un_symbol u2 = option_map sy (un_symbol u) /\ un_is_base u2 = un_is_base u) /\
  (forall u2, In u2 (df_units o2) -> exists u, In u (df_units o) /\
     un_name u2 = new (un_name u) /\ un_mag u2 = un_mag u /\ un_symbol u2 = option_map sy (un_symbol u) /\ un_is_base u2 = un_is_base u).
Proof.
  intros k env f T o new sy T2 o2 W W2 E R Kp Inj Fields Ks SymInj E2 R2.
  destruct (C93_renamed_file k env f T o new sy W W2 E R Kp Inj Fields Ks SymInj) as (T2' & o2' & E2' & R2' & K & _).
  assert (T2' = T2) by congruence. subst T2'. assert (o2' = o2) by congruence. subst o2'. clear E2' R2'.
  rewrite parse_print in E, E2 by assumption. pose proof (mean_file_ren k new sy f T E) as M. rewrite E2 in M.
  assert (ET : T2 = ren_system k new sy T) by congruence. subst T2. clear M.
  destruct (declared_ren k new sy f T E Kp Ks) as (_ & _ & _ & Eu & _). rewrite <- !declared_expand in Eu.
  destruct (unit_results _ (laws k) env _ o (ResolveFacts.generated_ok_expand _ T) R) as (U1 & U2 & U3).
  destruct (unit_results _ (laws k) env _ o2 (ResolveFacts.generated_ok_expand _ (ren_system k new sy T)) R2) as (V1 & V2 & V3).
  assert (Pair : forall e u u2, In e (u_units (expand_templates T)) -> In u (df_units o) -> un_name u = ue_name e ->
     In u2 (df_units o2) -> un_name u2 = new (ue_name e) ->
     un_name u2 = new (un_name u) /\ un_mag u2 = un_mag u /\ un_symbol u2 = option_map sy (un_symbol u) /\ un_is_base u2 = un_is_base u).
  { intros e u u2 He Hu Nu Hu2 Nu2. rewrite Nu. split; [exact Nu2|]. split.
    - destruct (K (ue_name e) (un_dims u) (Some (un_mag u))) as (l2 & C2 & _); [right; left; eauto|].
      assert (C3 : comes_out o2 (new (ue_name e)) (un_dims u2) (Some (un_mag u2))) by (right; left; eauto).
      destruct (comes_out_one k env _ o2 _ _ _ _ _ R2 C2 C3) as [_ Em]. congruence.
    - assert (He2 : In (ren_unit (ops k) new sy e) (u_units (expand_templates (ren_system k new sy T)))) by (rewrite Eu; now apply in_map).
      destruct (U2 e u He Hu Nu) as [S1 B1]. destruct (V2 _ u2 He2 Hu2 Nu2) as [S2 B2]. cbn [ren_unit ue_symbol] in S2.
      split; [congruence|]. apply eq_true_iff_eq. rewrite B1, B2. unfold base_unit_of. cbn [ren_unit ue_definition].
      destruct (ue_definition e); cbn [ren_definition]; split; intros [d Hd]; try discriminate Hd; eauto. }
  split.
  - intros u Hu. destruct (U3 u Hu) as (e & He & Nu).
    assert (He2 : In (ren_unit (ops k) new sy e) (u_units (expand_templates (ren_system k new sy T)))) by (rewrite Eu; now apply in_map).
    destruct (V1 _ He2) as (u2 & Hu2 & Nu2). exists u2. split; [exact Hu2|]. exact (Pair e u u2 He Hu Nu Hu2 Nu2).
  - intros u2 Hu2. destruct (V3 u2 Hu2) as (e2 & He2 & Nu2). rewrite Eu in He2. apply in_map_iff in He2 as (e & <- & He).
    destruct (U1 e He) as (u & Hu & Nu). exists u. split; [exact Hu|]. exact (Pair e u u2 He Hu Nu Hu2 Nu2).
Qed.
Print Assumptions C93_units.

(** Renaming does not make a rejected file acceptable either: if [old] undoes the renaming, the two files
    are accepted together. *)
Theorem C93_accepted_together : forall k env f (new old sy oldsy : ident -> ident),
  wf_file f -> wf_file (rename_file new sy f) -> rename_file old oldsy (rename_file new sy f) = f ->
  (forall n d, In (n, d) (says f) -> old (new n) = n) ->
  keeps_prefixes new f ->
  (forall D D', In (D, BaseDimension) (says f) -> In (D', BaseDimension) (says f) ->
     (base_dimension_of D = base_dimension_of D' <-> base_dimension_of (new D) = base_dimension_of (new D'))) ->
  keeps_prefixed_symbols sy f -> (forall s, symbols_in f s -> oldsy (sy s) = s) ->
  (exists T o, parse_system k (print_file f) = Some T /\ run_unit_system (ops k) env T = Some (o, [])) <->
  (exists T o, parse_system k (print_file (rename_file new sy f)) = Some T /\ run_unit_system (ops k) env T = Some (o, [])).
Proof.
  intros k env f new old sy oldsy W W2 Back Inv Kp Fields Ks SInv. split.
  - intros (T & o & E & R). assert (Inj : forall n d n' d', In (n, d) (says f) -> In (n', d') (says f) -> new n = new n' -> n = n').
    { intros n d n' d' H H' En. rewrite <- (Inv n d H), <- (Inv n' d' H'). now rewrite En. }
    assert (SymInj : forall s t, symbols_in f s -> symbols_in f t -> sy s = sy t -> s = t).
    { intros s t Hs Ht Es. rewrite <- (SInv s Hs), <- (SInv t Ht). now rewrite Es. }
    destruct (C93_renamed_file k env f T o new sy W W2 E R Kp Inj Fields Ks SymInj) as (T2 & o2 & E2 & R2 & _). eauto.
  - intros (T & o & E & R).
    assert (W3 : wf_file (rename_file old oldsy (rename_file new sy f))) by (rewrite Back; exact W).
    destruct (C93_renamed_file k env (rename_file new sy f) T o old oldsy W2 W3 E R (keeps_prefixes_back new sy f old oldsy Kp Back Inv)) as (T2 & o2 & E2 & R2 & _).
    + intros n2 d2 n2' d2' H H' En. destruct (says_ren_back new sy f Kp n2 d2 H) as (n & d & -> & Hn).
      destruct (says_ren_back new sy f Kp n2' d2' H') as (n' & d' & -> & Hn'). rewrite (Inv n d Hn), (Inv n' d' Hn') in En. congruence.
    + intros D2 D2' H H'. destruct (says_base_back new sy f D2 H) as (D & -> & HD). destruct (says_base_back new sy f D2' H') as (D' & -> & HD').
      rewrite (Inv D _ HD), (Inv D' _ HD'). symmetry. now apply Fields.
    + now apply keeps_symbols_back.
    + intros s2 s2' H H' Es. destruct (symbols_ren_back new sy f Ks s2 H) as (s & -> & Hs). destruct (symbols_ren_back new sy f Ks s2' H') as (s' & -> & Hs').
      rewrite (SInv s Hs), (SInv s' Hs') in Es. congruence.
    + rewrite Back in E2. eauto.
Qed.
Print Assumptions C93_accepted_together.

(** ** A file under other names
    [field_file] in German, with another symbol, no annotation on [Morgen] and another order. *)
Definition morgen_rhs : sx := SxBin (SxBin (SxOne (SfVal (AtLit (SDec false 404686 (-2))))) ByStar (SfVal (AtIdent "schritt"))) ByStar (SfVal (AtIdent "schritt")).
Definition flaeche_rhs : sx := SxBin (SxOne (SfVal (AtIdent "Laenge"))) ByStar (SfVal (AtIdent "Laenge")).
Definition german_file : slist stmt := {| sl_trailing := false; sl_items :=
  [SUnit [] "morgen" None (Some morgen_rhs); SDimension [] "Flaeche" (Some flaeche_rhs);
   SUnit [UPrefix {| sl_trailing := false; sl_items := [Kilo] |}; UBase "Laenge"; USymbol "sch"] "schritt" None None;
   SDimensionType [] "Mass"; SDimension [] "Laenge" None; SQuantityType [] "Groesse"] |}.
Definition to_german (n : ident) : ident :=
  if String.eqb n "Length" then "Laenge" else if String.eqb n "Area" then "Flaeche" else if String.eqb n "meter" then "schritt"
  else if String.eqb n "kilometer" then "kiloschritt" else if String.eqb n "acre" then "morgen" else n.
Example C93_applies : exists T1 T2 o1 o2,
  wf_file field_file /\ wf_file german_file /\
  parse_system IntegerExponents (print_file field_file) = Some T1 /\ parse_system IntegerExponents (print_file german_file) = Some T2 /\
  run_unit_system (ops IntegerExponents) env0 T1 = Some (o1, []) /\ run_unit_system (ops IntegerExponents) env0 T2 = Some (o2, []) /\
  (forall n d, In (n, d) (says field_file) -> In (to_german n, renamed to_german d) (says german_file)) /\
  (forall D D', In (D, BaseDimension) (says field_file) -> In (D', BaseDimension) (says field_file) ->
     (base_dimension_of D = base_dimension_of D' <-> base_dimension_of (to_german D) = base_dimension_of (to_german D'))) /\
  (exists d, In ("acre", d) (says field_file)) /\ to_german "acre" = "morgen" /\
  base_dimension_of "Length" = "length" /\ base_dimension_of (to_german "Length") = "laenge".
Proof.
  destruct (accepted_file_ok field_file ltac:(vm_compute; reflexivity)) as (T1 & o1 & E1 & R1).
  destruct (accepted_file_ok german_file ltac:(vm_compute; reflexivity)) as (T2 & o2 & E2 & R2).
  exists T1, T2, o1, o2. split; [|split; [|split; [exact E1|split; [exact E2|split; [exact R1|split; [exact R2|split; [|split]]]]]]].
  - split; [first [discriminate|intros _; discriminate|easy]|]. cbn [sl_items field_file]. unfold wf_stmt, wf_ident.
    repeat (first [apply accept_name; reflexivity | apply Forall_nil | constructor | discriminate | reflexivity]).
  - split; [first [discriminate|intros _; discriminate|easy]|]. cbn [sl_items german_file]. unfold wf_stmt, wf_ident.
    repeat (first [apply accept_name; reflexivity | apply Forall_nil | constructor | discriminate | reflexivity]).
  - assert (K : Forall (fun p => In (to_german (fst p), renamed to_german (snd p)) (says german_file)) (says field_file))
      by (vm_compute; repeat (apply Forall_cons; [tauto|]); apply Forall_nil).
    intros n d H. exact (proj1 (Forall_forall _ _) K (n, d) H).
  - assert (K : forall D, In (D, BaseDimension) (says field_file) -> D = "Length").
    { intros D H. vm_compute in H. repeat (destruct H as [H|H]; [first [discriminate H|injection H as <-; reflexivity]|]). destruct H. }
    intros D D' H H'. apply K in H, H'. subst. split; reflexivity.
  - split; [exists (ValueIs acre_rhs); vm_compute; tauto|]. repeat split; reflexivity.
Qed.

(** The same renaming, of the whole file at once, with other symbols. *)
Definition other_symbol (s : ident) : ident :=
  if String.eqb s "m" then "sch" else if String.eqb s "km" then "ksch" else if String.eqb s "ac" then "mo" else s.
Definition old_symbol (s : ident) : ident :=
  if String.eqb s "sch" then "m" else if String.eqb s "ksch" then "km" else if String.eqb s "mo" then "ac" else s.
Lemma field_symbols s : symbols_in field_file s -> s = "m" \/ s = "km" \/ s = "ac".
Proof.
  intros (l & i & ann & rhs & s0 & H & Hs & K). cbn [sl_items field_file In] in H.
  do 4 (destruct H as [H|H]; [discriminate H|]). destruct H as [H|[H|[]]]; injection H as <- <- <- <-;
    vm_compute in Hs; (destruct Hs as [<-|Hs]; [|destruct Hs]); (destruct K as [->|(p & Hp & ->)]; [tauto|]); vm_compute in Hp.
  - destruct Hp as [<-|Hp]; [|destruct Hp]. right. left. reflexivity.
  - destruct Hp.
Qed.
Example C93_renamed_applies : exists T o,
  wf_file field_file /\ wf_file (rename_file to_german other_symbol field_file) /\
  parse_system IntegerExponents (print_file field_file) = Some T /\ run_unit_system (ops IntegerExponents) env0 T = Some (o, []) /\
  keeps_prefixes to_german field_file /\
  (forall n d n' d', In (n, d) (says field_file) -> In (n', d') (says field_file) -> to_german n = to_german n' -> n = n') /\
  (forall D D', In (D, BaseDimension) (says field_file) -> In (D', BaseDimension) (says field_file) ->
     (base_dimension_of D = base_dimension_of D' <-> base_dimension_of (to_german D) = base_dimension_of (to_german D'))) /\
  keeps_prefixed_symbols other_symbol field_file /\
  (forall s t, symbols_in field_file s -> symbols_in field_file t -> other_symbol s = other_symbol t -> s = t) /\
  In (SUnit [USymbol "sch"; UBase "Laenge"; UPrefix {| sl_trailing := false; sl_items := [Kilo] |}] "schritt" None None)
     (sl_items (rename_file to_german other_symbol field_file)).
Proof.
  destruct C93_applies as (T1 & T2 & o1 & o2 & W1 & _ & E1 & _ & R1 & _ & _ & Fields & _).
  exists T1, o1. split; [exact W1|]. split; [|split; [exact E1|split; [exact R1|split; [|split; [|split; [exact Fields|split; [|split]]]]]]].
  - split; [first [discriminate|intros _; discriminate|easy]|]. cbn [sl_items rename_file field_file map rename_stmt rename_attr]. unfold wf_stmt, wf_ident.
    repeat (first [apply accept_name; reflexivity | apply Forall_nil | constructor | discriminate | reflexivity]).
  - intros l i ann rhs H. cbn [sl_items field_file In] in H.
    do 4 (destruct H as [H|H]; [discriminate H|]). destruct H as [H|[H|[]]].
    + injection H as <- <- <- <-. intros p a Hp Ha. vm_compute in Hp. vm_compute in Ha. destruct Hp as [Hp|Hp]; [|destruct Hp]. destruct Ha as [Ha|Ha]; [|try (destruct Ha as [Ha|Ha]; [|destruct Ha]); try (destruct Ha)]; subst; reflexivity.
    + injection H as <- <- <- <-. intros p a Hp Ha. vm_compute in Hp. destruct Hp.
  - assert (Nd : NoDup (map (fun p => to_german (fst p)) (says field_file))).
    { vm_compute. repeat (constructor; [cbn; intros K; repeat (destruct K as [K|K]; [discriminate K|]); exact K|]). constructor. }
    assert (K : forall l : list (ident * said), NoDup (map (fun p => to_german (fst p)) l) ->
      forall n d n' d', In (n, d) l -> In (n', d') l -> to_german n = to_german n' -> n = n').
    { induction l as [|[a b] l IH]; cbn [map In]; intros N n d n' d' H H' E; [destruct H|]. inversion N as [|? ? Na N']; subst. destruct H as [H|H], H' as [H'|H'].
      - congruence.
      - exfalso. apply Na. assert (n = a) by congruence. subst n. cbn [fst]. rewrite E. apply in_map_iff. exists (n', d'). auto.
      - exfalso. apply Na. assert (n' = a) by congruence. subst n'. cbn [fst]. rewrite <- E. apply in_map_iff. exists (n, d). auto.
      - exact (IH N' _ _ _ _ H H' E). }
    exact (K _ Nd).
  - intros l i ann rhs H p s Hp Hs. cbn [sl_items field_file In] in H.
    do 4 (destruct H as [H|H]; [discriminate H|]). destruct H as [H|[H|[]]]; injection H as <- <- <- <-;
      vm_compute in Hp; vm_compute in Hs; (destruct Hs as [<-|Hs]; [|destruct Hs]); [|destruct Hp].
    destruct Hp as [<-|Hp]; [reflexivity|destruct Hp].
  - intros s t Hs Ht E. apply field_symbols in Hs, Ht. destruct Hs as [->|[->| ->]], Ht as [->|[->| ->]]; (reflexivity || discriminate E).
  - cbn. tauto.
Qed.

(** The renaming of [C93_renamed_applies] can be undone. *)
Definition to_english (n : ident) : ident :=
  if String.eqb n "Laenge" then "Length" else if String.eqb n "Flaeche" then "Area" else if String.eqb n "schritt" then "meter"
  else if String.eqb n "kiloschritt" then "kilometer" else if String.eqb n "morgen" then "acre" else n.
Example C93_accepted_together_applies :
  rename_file to_english old_symbol (rename_file to_german other_symbol field_file) = field_file /\ rename_file to_german other_symbol field_file <> field_file /\
  (forall n d, In (n, d) (says field_file) -> to_english (to_german n) = n) /\
  forall s, symbols_in field_file s -> old_symbol (other_symbol s) = s.
Proof.
  split; [reflexivity|]. split; [discriminate|]. split.
  2:{ intros s H. apply field_symbols in H as [->|[->| ->]]; reflexivity. }
  assert (K : Forall (fun p => to_english (to_german (fst p)) = fst p) (says field_file)) by (vm_compute; repeat constructor).
  intros n d H. exact (proj1 (Forall_forall _ _) K (n, d) H).
Qed.
