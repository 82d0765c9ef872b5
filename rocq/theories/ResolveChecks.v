(** * What each check of the resolver reports *)
From Coq Require Import String List Bool ZArith Lia Permutation.
From Verif Require Import MachineInt Ratio F64 Magnitude Exponent SMap Expression DimensionMath
  Types Snake Resolve.
Import ListNotations.
Local Open Scope list_scope.

Lemma memb_iff i l : memb i l = true <-> In i l.
Proof.
  unfold memb. rewrite existsb_exists. split.
  - intros (x & Hx & E). apply String.eqb_eq in E. now subst.
  - intros H. exists i. split; auto. apply String.eqb_refl.
Qed.

(** ** Association lists *)

Section Assoc.
Context {V : Type}.

Lemma sget_assoc_update k k' f (m : list (ident * V)) :
  sget k (assoc_update k' f m) = if String.eqb k k' then Some (f (sget k m)) else sget k m.
Proof.
  induction m as [|[k2 v2] m IH]; simpl.
  - destruct (String.eqb k k'); reflexivity.
  - destruct (String.eqb_spec k' k2) as [->|Hne]; simpl.
    + destruct (String.eqb_spec k k2); reflexivity.
    + rewrite IH. destruct (String.eqb_spec k k2) as [->|]; auto.
      destruct (String.eqb_spec k2 k') as [->|]; congruence.
Qed.

Lemma assoc_update_keys k f (m : list (ident * V)) x :
  In x (skeys (assoc_update k f m)) <-> x = k \/ In x (skeys m).
Proof.
  induction m as [|[k2 v2] m IH]; simpl; [intuition|].
  destruct (String.eqb_spec k k2) as [->|]; simpl; intuition; subst; auto.
Qed.

Lemma assoc_update_nodup k f (m : list (ident * V)) :
  NoDup (skeys m) -> NoDup (skeys (assoc_update k f m)).
Proof.
  induction m as [|[k2 v2] m IH]; simpl; intros N; [repeat constructor; auto|].
  inversion N as [|? ? H1 H2]; subst. destruct (String.eqb_spec k k2) as [->|Hne]; simpl.
  - now constructor.
  - constructor; [|exact (IH H2)]. intros H. apply assoc_update_keys in H as [->|H]; auto.
Qed.

Lemma nodup_sget k v (m : list (ident * V)) :
  NoDup (skeys m) -> In (k, v) m <-> sget k m = Some v.
Proof.
  intros N. split; [|apply sget_In]. induction m as [|[k2 v2] m IH]; simpl; [easy|].
  inversion N as [|? ? H1 H2]; subst. intros [E|H].
  - inversion E; subst. now rewrite String.eqb_refl.
  - destruct (String.eqb_spec k k2) as [->|]; auto.
    exfalso. apply H1. apply in_map_iff. now exists (k2, v).
Qed.
End Assoc.

(** ** Names of types *)

Lemma get_single_ident_nil types tn dn :
  snd (get_single_ident types tn dn) = [] <-> exists t, types = [t].
Proof.
  destruct types as [|t [|t2 l]]; simpl; split; try discriminate.
  - intros [t E]; discriminate.
  - eauto.
  - auto.
  - intros [t' E]; discriminate.
Qed.

Lemma get_single_ident_single t tn dn : get_single_ident [t] tn dn = (t, []).
Proof. reflexivity. Qed.

(** ** Symbols *)

Section Symbols.
Context {X : exp_ops}.
Implicit Types units : list (unit_entry X).

Definition has_symbol (s : ident) (u : unit_entry X) : bool :=
  match ue_symbol u with Some s' => String.eqb s s' | None => false end.
Definition users units s : list ident := map ue_name (filter (has_symbol s) units).

Lemma users_cons u units s :
  users (u :: units) s = if has_symbol s u then ue_name u :: users units s else users units s.
Proof. unfold users; simpl. now destruct (has_symbol s u). Qed.

Lemma add_symbol_fold units m s :
  sget s (fold_left add_symbol units m) =
  match sget s m, users units s with
  | Some l, us => Some (l ++ us)
  | None, [] => None
  | None, us => Some us
  end.
Proof.
  revert m. induction units as [|u units IH]; intros m; simpl.
  - unfold users; simpl. destruct (sget s m) as [l|]; [|reflexivity].
    now rewrite (app_nil_r l).
  - rewrite IH, users_cons. unfold add_symbol, has_symbol.
    destruct (ue_symbol u) as [s'|] eqn:E; auto.
    rewrite sget_assoc_update. destruct (String.eqb_spec s s') as [->|]; auto.
    destruct (sget s' m) as [l|]; [now rewrite <- app_assoc|reflexivity].
Qed.

Lemma add_symbol_nodup units m :
  NoDup (skeys m) -> NoDup (skeys (fold_left add_symbol units m)).
Proof.
  revert m. induction units as [|u units IH]; intros m N; simpl; auto.
  apply IH. unfold add_symbol. destruct (ue_symbol u); auto. now apply assoc_update_nodup.
Qed.

Lemma symbols_report units x :
  In x (check_multiply_defined_symbols units) <->
  exists s, x = SymbolMultiple s (users units s) /\ (1 < length (users units s))%nat.
Proof.
  unfold check_multiply_defined_symbols. rewrite in_flat_map.
  assert (N : NoDup (skeys (fold_left add_symbol units []))) by (apply add_symbol_nodup; constructor).
  split.
  - intros ([s us] & Hin & Hx). apply (nodup_sget _ _ _ N) in Hin.
    rewrite add_symbol_fold in Hin. simpl in Hin, Hx.
    destruct (users units s) as [|u l] eqn:E; [discriminate|]. inversion Hin; subst us.
    destruct (Nat.ltb_spec 1 (length (u :: l))) as [Hlt|]; [|easy].
    destruct Hx as [<-|[]]. exists s. rewrite E. auto.
  - intros (s & -> & Hlen). exists (s, users units s). split.
    + apply (nodup_sget _ _ _ N). rewrite add_symbol_fold. simpl.
      destruct (users units s); auto. simpl in Hlen. lia.
    + simpl. destruct (Nat.ltb_spec 1 (length (users units s))); [now left|lia].
Qed.

Lemma users_length units s :
  (1 < length (users units s))%nat <->
  exists a u b v c, units = a ++ u :: b ++ v :: c /\ ue_symbol u = Some s /\ ue_symbol v = Some s.
Proof.
  unfold users. rewrite map_length. split.
  - induction units as [|x units IH]; simpl; [lia|].
    destruct (has_symbol s x) eqn:Ex; simpl.
    + intros Hlen.
      assert (Hne : exists v, In v (filter (has_symbol s) units)).
      { destruct (filter (has_symbol s) units) as [|v l]; [simpl in Hlen; lia|]. exists v. now left. }
      destruct Hne as [v Hv]. apply filter_In in Hv as [Hv Hs]. apply in_split in Hv as (b & c & ->).
      exists [], x, b, v, c. split; auto.
      unfold has_symbol in Ex, Hs. destruct (ue_symbol x), (ue_symbol v); try discriminate.
      apply String.eqb_eq in Ex, Hs. now subst.
    + intros Hlen. destruct (IH Hlen) as (a & u & b & v & c & -> & H1 & H2).
      exists (x :: a), u, b, v, c. auto.
  - intros (a & u & b & v & c & -> & H1 & H2).
    rewrite filter_app. simpl. rewrite filter_app. simpl.
    unfold has_symbol at 2 4. rewrite H1, H2, String.eqb_refl.
    rewrite app_length. simpl. rewrite app_length. simpl. lia.
Qed.

Lemma symbols_nil units :
  check_multiply_defined_symbols units = [] <->
  forall s, (length (users units s) <= 1)%nat.
Proof.
  split.
  - intros H s. destruct (Nat.le_gt_cases (length (users units s)) 1); auto.
    exfalso. assert (Hin : In (SymbolMultiple s (users units s)) (check_multiply_defined_symbols units))
      by (apply symbols_report; eauto). rewrite H in Hin. easy.
  - intros H. destruct (check_multiply_defined_symbols units) as [|x l] eqn:E; auto. exfalso.
    assert (Hin : In x (check_multiply_defined_symbols units)) by (rewrite E; now left).
    apply symbols_report in Hin as (s & -> & Hlt). specialize (H s). lia.
Qed.

(** ** Base units *)

(** The dimension a hand-written base unit is declared for. *)
Definition base_of (u : unit_entry X) : option ident :=
  match ue_autogenerated_from u, ue_definition u with
  | None, DefBase d => Some d
  | _, _ => None
  end.
Definition is_base_of (d : ident) (u : unit_entry X) : bool :=
  match base_of u with Some d' => String.eqb d d' | None => false end.
Definition base_count (d : ident) units : nat := length (filter (is_base_of d) units).

Lemma is_base_of_iff d u : is_base_of d u = true <-> base_of u = Some d.
Proof.
  unfold is_base_of. destruct (base_of u) as [d'|]; [|easy]. split; intros H.
  - apply String.eqb_eq in H. now subst.
  - inversion H. apply String.eqb_refl.
Qed.

Lemma initial_counter_get (bd : list (dimension_entry X)) d :
  sget d (initial_counter bd) = if memb d (map de_name bd) then Some 0 else None.
Proof.
  unfold initial_counter.
  assert (G : forall m, sget d (fold_left (fun m x => assoc_update (de_name x) (fun _ => 0) m) bd m) =
    if memb d (map de_name bd) then Some 0 else sget d m).
  { induction bd as [|x bd IH]; intros m; simpl; auto. rewrite IH. rewrite sget_assoc_update.
    unfold memb; simpl. fold (memb d (map de_name bd)).
    destruct (memb d (map de_name bd)), (String.eqb d (de_name x)); auto. }
  apply (G []).
Qed.

Lemma check_base_unit_step counter ds (u : unit_entry X) :
  check_base_unit (counter, ds) u =
  match base_of u with
  | None => (counter, ds)
  | Some d =>
      match sget d counter with
      | Some n => (assoc_update d (fun _ => S n) counter,
                   ds ++ (if Nat.ltb 1 (S n) then [MultipleBaseUnits d (ue_name u)] else []))
      | None => (counter, ds ++ [BaseUnitForNonBase d (ue_name u)])
      end
  end.
Proof.
  unfold check_base_unit, base_of. destruct (ue_autogenerated_from u); auto.
  destruct (ue_definition u); auto.
Qed.

Definition counter_ok (bd : list ident) (done : list (unit_entry X)) (counter : list (ident * nat)) :=
  forall d, sget d counter = if memb d bd then Some (base_count d done) else None.

Lemma base_count_snoc d l u :
  base_count d (l ++ [u]) = (base_count d l + if is_base_of d u then 1 else 0)%nat.
Proof.
  unfold base_count. rewrite filter_app, app_length. simpl. destruct (is_base_of d u); reflexivity.
Qed.

Lemma check_base_fold bd units done counter ds :
  counter_ok bd done counter ->
  forall x, In x (snd (fold_left check_base_unit units (counter, ds))) <->
    In x ds \/
    exists a u b d, units = a ++ u :: b /\ base_of u = Some d /\
      ((~ In d bd /\ x = BaseUnitForNonBase d (ue_name u)) \/
       (In d bd /\ (0 < base_count d (done ++ a))%nat /\ x = MultipleBaseUnits d (ue_name u))).
Proof.
  revert done counter ds. induction units as [|u units IH]; intros done counter ds Hc x.
  - simpl. split; [auto|]. intros [H|(a & u & b & d & E & _)]; auto. now destruct a.
  - cbn [fold_left]. rewrite check_base_unit_step.
    assert (Split : forall ds' counter', counter_ok bd (done ++ [u]) counter' ->
      (In x ds' <-> In x ds \/ exists d, base_of u = Some d /\
        ((~ In d bd /\ x = BaseUnitForNonBase d (ue_name u)) \/
         (In d bd /\ (0 < base_count d done)%nat /\ x = MultipleBaseUnits d (ue_name u)))) ->
      (In x (snd (fold_left check_base_unit units (counter', ds'))) <->
       In x ds \/ exists a u0 b d, u :: units = a ++ u0 :: b /\ base_of u0 = Some d /\
         ((~ In d bd /\ x = BaseUnitForNonBase d (ue_name u0)) \/
          (In d bd /\ (0 < base_count d (done ++ a))%nat /\ x = MultipleBaseUnits d (ue_name u0))))).
    { intros ds' counter' Hc' Hx. rewrite (IH _ _ ds' Hc' x), Hx. split.
      - intros [[H|(d & H1 & H2)]|(a & v & b & d & E & H1 & H2)].
        + now left.
        + right. exists [], u, units, d. rewrite app_nil_r. auto.
        + right. exists (u :: a), v, b, d. subst units. split; auto. split; auto.
          rewrite <- app_assoc in H2. exact H2.
      - intros [H|(a & v & b & d & E & H1 & H2)]; [auto|].
        destruct a as [|u' a]; simpl in E; inversion E; subst.
        + rewrite app_nil_r in H2. left. right. eauto.
        + right. exists a, v, b, d. split; auto. split; auto. rewrite <- app_assoc. exact H2. }
    destruct (base_of u) as [d|] eqn:Eb.
    + pose proof (Hc d) as Hd. destruct (memb d bd) eqn:Em.
      * rewrite Hd. apply memb_iff in Em. apply Split.
        -- intros d'. rewrite sget_assoc_update, base_count_snoc.
           unfold is_base_of. rewrite Eb. destruct (String.eqb_spec d' d) as [->|].
           ++ rewrite (proj2 (memb_iff _ _) Em). f_equal; lia.
           ++ rewrite Hc. destruct (memb d' bd); auto; f_equal; lia.
        -- rewrite in_app_iff. destruct (Nat.ltb_spec 1 (S (base_count d done))) as [Hl|Hl]; simpl.
           ++ split.
              ** intros [H|[<-|[]]]; auto. right. exists d. split; auto. right.
                 repeat split; auto. lia.
              ** intros [H|(d' & E & [[Hn _]|(_ & _ & ->)])]; auto; inversion E; subst; tauto.
           ++ split; [tauto|]. intros [H|(d' & E & [[Hn _]|(_ & Hp & _)])]; auto;
                inversion E; subst; [tauto|lia].
      * rewrite Hd. assert (Hn : ~ In d bd) by (rewrite <- memb_iff; congruence).
        apply Split.
        -- intros d'. rewrite base_count_snoc. unfold is_base_of. rewrite Eb.
           rewrite Hc. destruct (memb d' bd) eqn:Em'; auto.
           destruct (String.eqb_spec d' d) as [->|]; [congruence|]. f_equal; lia.
        -- rewrite in_app_iff. simpl. split.
           ++ intros [H|[<-|[]]]; auto. right. exists d. auto.
           ++ intros [H|(d' & E & [[_ ->]|(Hi & _)])]; auto; inversion E; subst; tauto.
    + apply Split.
      * intros d'. rewrite base_count_snoc. unfold is_base_of. rewrite Eb. rewrite Hc.
        destruct (memb d' bd); auto; f_equal; lia.
      * split; [tauto|]. intros [H|(d & E & _)]; auto. discriminate.
Qed.

Lemma base_units_report units bd x :
  In x (check_invalid_base_units units bd) <->
  exists a u b d, units = a ++ u :: b /\ base_of u = Some d /\
    ((~ In d (map de_name bd) /\ x = BaseUnitForNonBase d (ue_name u)) \/
     (In d (map de_name bd) /\ (exists v, In v a /\ base_of v = Some d) /\
      x = MultipleBaseUnits d (ue_name u))).
Proof.
  unfold check_invalid_base_units.
  rewrite (check_base_fold (map de_name bd) units []).
  - simpl. split.
    + intros [[]|(a & u & b & d & E & H1 & H2)]. exists a, u, b, d. split; auto. split; auto.
      destruct H2 as [H2|(H2 & H3 & H4)]; auto. right. split; auto. split; auto.
      unfold base_count in H3. destruct (filter (is_base_of d) a) as [|v l] eqn:E'; [simpl in H3; lia|].
      assert (Hv : In v (filter (is_base_of d) a)) by (rewrite E'; now left).
      apply filter_In in Hv as [Hv Hb]. apply is_base_of_iff in Hb. eauto.
    + intros (a & u & b & d & E & H1 & H2). right. exists a, u, b, d. split; auto. split; auto.
      destruct H2 as [H2|(H2 & (v & Hv & Hb) & H4)]; auto. right. split; auto. split; auto.
      unfold base_count. apply is_base_of_iff in Hb.
      assert (Hf : In v (filter (is_base_of d) a)) by now apply filter_In.
      destruct (filter (is_base_of d) a); [easy|simpl; lia].
  - intros d. rewrite initial_counter_get. destruct (memb d (map de_name bd)); reflexivity.
Qed.
End Symbols.

(** ** Checks on items *)

Section Items.
Context {X : exp_ops}.
Notation item := (item X).
Implicit Types U : list item.

Lemma find_none_iff {A} (p : A -> bool) l : find p l = None <-> forall x, In x l -> p x = false.
Proof.
  split; [apply find_none|]. induction l as [|x l IH]; simpl; intros H; auto.
  rewrite (H x) by now left. apply IH. auto.
Qed.

Lemma first_undefined_none defined i :
  first_undefined X defined i = None <-> forall n, In n (others (it_expr i)) -> In n defined.
Proof.
  unfold first_undefined. rewrite find_none_iff. split; intros H n Hn.
  - apply memb_iff. specialize (H n Hn). now apply negb_false_iff in H.
  - apply negb_false_iff, memb_iff. auto.
Qed.

Lemma first_undefined_some defined i n :
  first_undefined X defined i = Some n -> In n (others (it_expr i)) /\ ~ In n defined.
Proof.
  unfold first_undefined. intros H. apply find_some in H as [H1 H2]. split; auto.
  rewrite <- memb_iff. apply negb_true_iff in H2. congruence.
Qed.

Lemma undefined_report U x :
  In x (snd (filter_undefined X U)) <->
  exists i n, In i U /\ first_undefined X (map it_ident U) i = Some n /\ x = Undefined n.
Proof.
  unfold filter_undefined; simpl. rewrite in_flat_map. split.
  - intros (i & Hi & Hx). destruct (first_undefined X (map it_ident U) i) as [n|] eqn:E; [|easy].
    destruct Hx as [<-|[]]. eauto.
  - intros (i & n & Hi & E & ->). exists i. split; auto. rewrite E. now left.
Qed.

Lemma undefined_nil U :
  snd (filter_undefined X U) = [] <->
  forall i n, In i U -> In n (others (it_expr i)) -> In n (map it_ident U).
Proof.
  split.
  - intros H i n Hi. revert n. apply first_undefined_none.
    destruct (first_undefined X (map it_ident U) i) as [n|] eqn:E; auto.
    assert (Hin : In (Undefined n) (snd (filter_undefined X U)))
      by (apply undefined_report; eauto). rewrite H in Hin. easy.
  - intros H. destruct (snd (filter_undefined X U)) as [|x l] eqn:E; auto.
    assert (Hin : In x (snd (filter_undefined X U))) by (rewrite E; now left).
    apply undefined_report in Hin as (i & n & Hi & E' & _).
    apply first_undefined_some in E' as [Hn Hd]. exfalso. eauto.
Qed.

Lemma filter_all {A} (p : A -> bool) l : (forall x, In x l -> p x = true) -> filter p l = l.
Proof.
  induction l as [|x l IH]; simpl; intros H; auto. rewrite (H x) by now left. f_equal. auto.
Qed.

Lemma filter_undefined_id U : snd (filter_undefined X U) = [] -> fst (filter_undefined X U) = U.
Proof.
  rewrite undefined_nil. intros H. unfold filter_undefined; simpl. apply filter_all.
  intros i Hi. destruct (first_undefined X (map it_ident U) i) as [n|] eqn:E; auto.
  apply first_undefined_some in E as [Hn Hd]. exfalso. eauto.
Qed.

(** The unit an automatically generated unit comes from. *)
Definition source (i : item) : option ident :=
  match it_type i with ItUnit u => ue_autogenerated_from u | _ => None end.

Lemma filter_auto_In U i :
  In i (filter_autogenerated_invalid X U) <->
  In i U /\ match source i with Some s => In s (map it_ident U) | None => True end.
Proof.
  unfold filter_autogenerated_invalid, source. rewrite filter_In.
  destruct (it_type i) as [d|u|c]; try tauto.
  destruct (ue_autogenerated_from u); [|tauto]. now rewrite memb_iff.
Qed.

Lemma filter_auto_id U :
  (forall i s, In i U -> source i = Some s -> In s (map it_ident U)) ->
  filter_autogenerated_invalid X U = U.
Proof.
  intros H. unfold filter_autogenerated_invalid. apply filter_all. intros i Hi.
  specialize (H i). unfold source in H. destruct (it_type i) as [d|u|c]; auto.
  destruct (ue_autogenerated_from u) as [s|]; auto. apply memb_iff. auto.
Qed.

(** Duplicates. *)
Definition occurrences (n : ident) U : list ident :=
  map it_ident (filter (fun i => String.eqb (it_ident i) n) U).

Lemma count_definitions_get U m n :
  sget n (fold_left (fun m i => assoc_update (it_ident i)
            (fun o => match o with Some k => S k | None => 1 end) m) U m) =
  match sget n m, length (occurrences n U) with
  | Some k, c => Some (k + c)%nat
  | None, 0 => None
  | None, c => Some c
  end.
Proof.
  revert m. induction U as [|i U IH]; intros m; simpl.
  - destruct (sget n m); auto; f_equal; lia.
  - rewrite IH, sget_assoc_update. unfold occurrences; simpl.
    destruct (String.eqb_spec n (it_ident i)) as [->|Hne].
    + rewrite String.eqb_refl. destruct (sget (it_ident i) m); simpl; f_equal; lia.
    + destruct (String.eqb_spec (it_ident i) n); [congruence|]. reflexivity.
Qed.

Lemma count_definitions_nodup U m :
  NoDup (skeys m) ->
  NoDup (skeys (fold_left (fun m i => assoc_update (it_ident i)
            (fun o => match o with Some k => S k | None => 1 end) m) U m)).
Proof.
  revert m. induction U as [|i U IH]; intros m N; simpl; auto. apply IH. now apply assoc_update_nodup.
Qed.

Lemma duplicates_report U x :
  In x (filter_multiply_defined X U) <->
  exists n, x = MultipleDefinitions (occurrences n U) /\ (1 < length (occurrences n U))%nat.
Proof.
  unfold filter_multiply_defined. rewrite in_flat_map.
  assert (N : NoDup (skeys (count_definitions X U))) by (apply count_definitions_nodup; constructor).
  split.
  - intros ([n c] & Hin & Hx). apply (nodup_sget _ _ _ N) in Hin. unfold count_definitions in Hin.
    rewrite count_definitions_get in Hin. cbn [sget] in Hin. cbn [fst snd] in Hx.
    exists n. fold (occurrences n U) in Hx.
    destruct (length (occurrences n U)) as [|c'] eqn:E; [discriminate|]. inversion Hin; subst c.
    destruct (Nat.ltb_spec 1 (S c')) as [Hlt|]; [|easy]. destruct Hx as [<-|[]]. auto.
  - intros (n & -> & Hlen). exists (n, length (occurrences n U)). split.
    + apply (nodup_sget _ _ _ N). unfold count_definitions. rewrite count_definitions_get.
      cbn [sget]. destruct (length (occurrences n U)); auto. lia.
    + cbn [fst snd]. destruct (Nat.ltb_spec 1 (length (occurrences n U))); [now left|lia].
Qed.

Lemma occurrences_count n U :
  length (occurrences n U) = count_occ String.string_dec (map it_ident U) n.
Proof.
  unfold occurrences. rewrite map_length. induction U as [|i U IH]; simpl; auto.
  destruct (String.eqb_spec (it_ident i) n) as [E|E], (String.string_dec (it_ident i) n);
    try congruence; simpl; auto.
Qed.

Lemma occurrences_eq n U : forall m, In m (occurrences n U) -> m = n.
Proof.
  unfold occurrences. intros m H. apply in_map_iff in H as (i & <- & Hi).
  apply filter_In in Hi as [_ E]. now apply String.eqb_eq.
Qed.

Lemma duplicates_nil U : filter_multiply_defined X U = [] <-> NoDup (map it_ident U).
Proof.
  rewrite (NoDup_count_occ String.string_dec). split.
  - intros H n. rewrite <- occurrences_count.
    destruct (Nat.le_gt_cases (length (occurrences n U)) 1) as [Hl|Hl]; auto.
    assert (Hin : In (MultipleDefinitions (occurrences n U)) (filter_multiply_defined X U))
      by (apply duplicates_report; eauto). rewrite H in Hin. easy.
  - intros H. destruct (filter_multiply_defined X U) as [|x l] eqn:E; auto.
    assert (Hin : In x (filter_multiply_defined X U)) by (rewrite E; now left).
    apply duplicates_report in Hin as (n & _ & Hl). specialize (H n).
    rewrite <- occurrences_count in H. lia.
Qed.

(** Kinds. *)
Lemma kinds_of_get U m n :
  wf m ->
  sget n (fold_left (fun m i => sinsert (it_ident i) (it_kind i) m) U m) =
  match find (fun i => String.eqb (it_ident i) n) (rev U) with
  | Some i => Some (it_kind i)
  | None => sget n m
  end.
Proof.
  revert m. induction U as [|i U IH]; intros m W; simpl; auto.
  rewrite IH by now apply sinsert_wf.
  assert (F : forall l, find (fun i => String.eqb (it_ident i) n) (l ++ [i]) =
    match find (fun i => String.eqb (it_ident i) n) l with
    | Some j => Some j
    | None => if String.eqb (it_ident i) n then Some i else None end).
  { induction l as [|y l IHl]; simpl; auto. now destruct (String.eqb (it_ident y) n). }
  rewrite F. destruct (find _ (rev U)); auto.
  destruct (String.eqb_spec (it_ident i) n) as [E|E].
  - subst. now rewrite sget_insert_eq.
  - now rewrite sget_insert_neq by auto.
Qed.

Lemma kinds_of_unique U i :
  NoDup (map it_ident U) -> In i U -> sget (it_ident i) (kinds_of X U) = Some (it_kind i).
Proof.
  intros N Hi. unfold kinds_of. rewrite kinds_of_get by constructor.
  destruct (find (fun j => String.eqb (it_ident j) (it_ident i)) (rev U)) as [j|] eqn:E.
  - apply find_some in E as [Hj E]. apply String.eqb_eq in E. apply in_rev in Hj.
    f_equal. f_equal. clear -N Hi Hj E. induction U as [|x U IH]; [easy|].
    simpl in N. inversion N as [|? ? Hx N']; subst.
    destruct Hi as [->|Hi], Hj as [->|Hj]; auto.
    + exfalso. apply Hx. rewrite <- E. now apply in_map.
    + exfalso. apply Hx. rewrite E. now apply in_map.
  - exfalso. apply in_rev in Hi. apply (find_none _ _ E) in Hi. now rewrite String.eqb_refl in Hi.
Qed.

Lemma kinds_of_some U n k :
  sget n (kinds_of X U) = Some k -> exists i, In i U /\ it_ident i = n /\ it_kind i = k.
Proof.
  unfold kinds_of. rewrite kinds_of_get by constructor.
  destruct (find (fun j => String.eqb (it_ident j) n) (rev U)) as [j|] eqn:E; [|discriminate].
  intros H. inversion H; subst. apply find_some in E as [Hj E]. apply in_rev in Hj.
  apply String.eqb_eq in E. eauto.
Qed.

Lemma kinds_report U x :
  In x (check_kinds_in_definitions X U) <->
  exists lhs rhs k, In lhs U /\ In rhs (others (it_expr lhs)) /\ sget rhs (kinds_of X U) = Some k /\
    kind_allowed (it_kind lhs) k = false /\ x = KindNotAllowed (it_ident lhs) rhs (it_kind lhs) k.
Proof.
  unfold check_kinds_in_definitions. rewrite in_flat_map. split.
  - intros (lhs & Hl & H). apply in_flat_map in H as (rhs & Hr & H).
    destruct (sget rhs (kinds_of X U)) as [k|] eqn:E; [|easy].
    destruct (kind_allowed (it_kind lhs) k) eqn:A; [easy|]. destruct H as [<-|[]].
    exists lhs, rhs, k. auto.
  - intros (lhs & rhs & k & Hl & Hr & E & A & ->). exists lhs. split; auto.
    apply in_flat_map. exists rhs. split; auto. rewrite E, A. now left.
Qed.

Lemma kinds_nil U :
  NoDup (map it_ident U) ->
  check_kinds_in_definitions X U = [] <->
  forall lhs rhs, In lhs U -> In rhs U -> In (it_ident rhs) (others (it_expr lhs)) ->
    kind_allowed (it_kind lhs) (it_kind rhs) = true.
Proof.
  intros N. split.
  - intros H lhs rhs Hl Hr Ho. destruct (kind_allowed (it_kind lhs) (it_kind rhs)) eqn:A; auto.
    assert (Hin : In (KindNotAllowed (it_ident lhs) (it_ident rhs) (it_kind lhs) (it_kind rhs))
                     (check_kinds_in_definitions X U)).
    { apply kinds_report. exists lhs, (it_ident rhs), (it_kind rhs). repeat split; auto.
      now apply kinds_of_unique. }
    rewrite H in Hin. easy.
  - intros H. destruct (check_kinds_in_definitions X U) as [|x l] eqn:E; auto.
    assert (Hin : In x (check_kinds_in_definitions X U)) by (rewrite E; now left).
    apply kinds_report in Hin as (lhs & rhs & k & Hl & Hr & Hk & A & _).
    apply kinds_of_some in Hk as (i & Hi & <- & <-). rewrite H in A; auto. discriminate.
Qed.
End Items.

Lemma flat_map_nil {A B} (f : A -> list B) l :
  flat_map f l = [] <-> forall x, In x l -> f x = [].
Proof.
  induction l as [|x l IH]; simpl; [intuition|]. split.
  - intros H. apply app_eq_nil in H as [H1 H2]. intros y [<-|Hy]; auto. now apply IH.
  - intros H. rewrite (H x) by now left. simpl. apply IH. auto.
Qed.
