(** * What the error messages of the macro say (C86, C87) *)
From Coq Require Import String Ascii List Bool ZArith QArith Qcanon Sorted Lia.
From Verif Require Import MachineInt Ratio F64 Magnitude Exponent ExponentFacts SMap Snake Expression DimensionMath DimensionMathFacts
  Types ExpansionSpec Resolve ResolveLoop ResolveChecks SystemSpec ResolveFacts ResolveEquations ResolveAccept ResolveReports Expansion Setting
  SystemFacts RemovalFacts ExampleSystems PropertiesSystem AnnotationFacts ReportFacts CodegenDimension Text TextFacts PropertiesDebug
  Parse ParsedSystems Sources PropertiesReports PropertiesExactness Messages MessageFacts.
Import ListNotations.
Close Scope Q_scope. Close Scope Qc_scope.
Local Open Scope string_scope.
Local Open Scope list_scope.

(** What the macro prints for a file of statements ([show k] is [Display] of an exponent). *)
Definition printed_by k env (T : template k) (ms : list message) : Prop :=
  run_messages (ops k) env (show k) T = Some ms.

(** ** Specification *)

(** The identifiers a message underlines, and those its text names. *)
Definition subjects (d : diag) : list ident :=
  match d with
  | TypeMultiple _ id | Undefined id | Unresolvable id => [id]
  | TypeNone _ => []
  | MultipleBaseUnits _ unit | BaseUnitForNonBase _ unit | NoSymbol unit => [unit]
  | SymbolMultiple _ units => units
  | MultipleDefinitions ids => ids
  | KindNotAllowed lhs rhs _ _ => [lhs; rhs]
  | WrongTypeInAnnotation a _ | ViolatedAnnotation a | UndefinedAnnotation a => [a]
  end.
Definition named (d : diag) : list ident :=
  match d with
  | TypeNone _ | ViolatedAnnotation _ => []
  | MultipleBaseUnits dim unit | BaseUnitForNonBase dim unit => [dim; unit]
  | SymbolMultiple symbol _ => [symbol]
  | MultipleDefinitions ids => match ids with id :: _ => [id] | [] => [] end
  | d => subjects d
  end.
Definition contains (whole part : text) : Prop := exists before after, whole = before ++ part ++ after.

Definition tells (d : diag) (m : message) : Prop :=
  m_at m = subjects d /\ forall i, In i (named d) -> contains (m_text m) (str i).

(** What a message leaves open of an error: whether a unit is a base unit. *)
Definition rough (k : kind) : kind := match k with KBaseUnit => KUnit | k => k end.
Definition same_up_to_base (d e : diag) : Prop :=
  match d, e with
  | KindNotAllowed l r a b, KindNotAllowed l' r' a' b' => l = l' /\ r = r' /\ rough a = rough a' /\ rough b = rough b'
  | WrongTypeInAnnotation a b, WrongTypeInAnnotation a' b' => a = a' /\ rough b = rough b'
  | _, _ => d = e
  end.

(** The dimension [v] as text: [b^e] for each of the base dimensions [bs], separated by spaces. *)
Fixpoint dimension_text (bs : list string) (v : string -> Qc) : text :=
  match bs with
  | [] => []
  | [b] => str b ++ "^"%char :: exponent_text (v b)
  | b :: bs' => str b ++ "^"%char :: exponent_text (v b) ++ space :: dimension_text bs' v
  end.

(** ** C86: every error is printed, once and in order, with the identifiers it is about; printing does not
    panic (the [unreachable!()] and the indexing in error.rs are never reached). *)
Lemma contains_here w b : contains (w ++ b) w.
Proof. exists [], b. reflexivity. Qed.
Lemma contains_app a w r : contains r w -> contains (a ++ r) w.
Proof. intros (p & q & ->). exists (a ++ p), q. now rewrite app_assoc. Qed.
Lemma contains_cons c w r : contains r w -> contains (c :: r) w.
Proof. intros (p & q & ->). exists (c :: p), q. reflexivity. Qed.
Lemma contains_self w : contains w w.
Proof. exists [], []. now rewrite app_nil_r. Qed.
Ltac find_part := first [ apply contains_here | apply contains_self | apply contains_app; find_part | apply contains_cons; find_part ].

Lemma plain_tells d m : message_of d = Some m -> tells d m.
Proof.
  unfold message_of, tells. destruct d; intros E; try discriminate E.
  7: { destruct ids as [|i ids]; [discriminate E|]. injection E as <-. cbn [m_at m_text subjects named].
       split; [reflexivity|]. intros j [<-|[]]. find_part. }
  9: { destruct (wrong_kind_name k) as [name|]; [|discriminate E]. injection E as <-. cbn [m_at m_text subjects named].
       split; [reflexivity|]. intros j [<-|[]]. find_part. }
  all: injection E as <-; cbn [m_at m_text subjects named]; (split; [reflexivity|]); intros j Hj; repeat destruct Hj as [<-|Hj];
    try destruct Hj as []; find_part.
Qed.

Theorem C86_every_error_is_printed : forall k env (T : template k) o ds,
  run_unit_system (ops k) env T = Some (o, ds) ->
  exists ms, printed_by k env T ms /\ Forall2 tells ds ms.
Proof.
  intros k env T o ds H. unfold run_unit_system in H.
  destruct (all_printed (ops k) env (show k) _ o ds H) as (res & d8 & ms & _ & _ & E & F). exists ms. split; [exact E|].
  revert F. apply Forall2_weaken. intros d m P. destruct P as [d m P|r a an _ _ _ _ _]; [now apply plain_tells|].
  split; [reflexivity|intros i []].
Qed.
Print Assumptions C86_every_error_is_printed.

(** Different errors never look the same, except that a message does not tell a base unit from another. *)
Lemma kind_parts a a' : kind_plural a ++ str " can only be defined in terms of " ++ allowed_rhs_kinds a ++ str "." =
  kind_plural a' ++ str " can only be defined in terms of " ++ allowed_rhs_kinds a' ++ str "." -> rough a = rough a' /\ kind_name a = kind_name a'.
Proof. destruct a, a'; intros E; auto; discriminate E. Qed.
Lemma lower_parts b b' r : kind_name_lower b ++ r = kind_name_lower b' ++ r -> rough b = rough b'.
Proof. intros E. apply app_inv_tail in E. destruct b, b'; auto; discriminate E. Qed.
Lemma wrong_parts b b' n n' r : wrong_kind_name b = Some n -> wrong_kind_name b' = Some n' -> n ++ r = n' ++ r -> rough b = rough b'.
Proof. intros H H' E. apply app_inv_tail in E. subst n'. destruct b, b'; cbn in *; try discriminate H; try discriminate H'; auto; congruence. Qed.
Lemma same_length {A} (a b r s : list A) : a ++ r = b ++ s -> length a = length b -> a = b.
Proof.
  revert b. induction a as [|x a IH]; intros [|y b] E L; try discriminate L; [reflexivity|].
  injection E as -> E. f_equal. apply IH; [exact E|]. now injection L.
Qed.
Lemma message_injective d e m : message_of d = Some m -> message_of e = Some m -> same_up_to_base d e.
Proof.
  assert (Q : forall x y : message, Some x = Some m -> Some y = Some m ->
    m_at x = m_at y /\ m_text x = m_text y /\ m_attached x = m_attached y).
  { intros x y Hx Hy. injection Hx as ->. injection Hy as ->. auto. }
  destruct d, e; cbn [message_of]; intros Hd He; try discriminate Hd; try discriminate He;
  repeat match type of Hd with match ?l with _ => _ end = _ => destruct l eqn:?; try discriminate Hd end;
  repeat match type of He with match ?l with _ => _ end = _ => destruct l eqn:?; try discriminate He end;
  destruct (Q _ _ Hd He) as (E1 & E2 & E3); clear Hd He Q; cbn [m_at m_text m_attached] in E1, E2, E3;
  try discriminate E1; try discriminate E3; try discriminate E2; cbn [same_up_to_base].
  - injection E1 as ->. apply app_inv_head, app_inv_tail, str_inj in E2. now subst.
  - apply app_inv_head, str_inj in E2. now subst.
  - injection E1 as ->. do 3 apply app_inv_head in E2. apply app_inv_tail, str_inj in E2. now subst.
  - injection E1 as ->. do 3 apply app_inv_head in E2. assert (dim = dim0); [|now subst]. apply str_inj. apply (same_length _ _ _ _ E2).
    apply (f_equal (@length ascii)) in E2. rewrite !app_length in E2. lia.
  - subst units0. apply app_inv_head in E2. apply app_inv_tail, str_inj in E2. now subst.
  - injection E1 as ->. reflexivity.
  - now rewrite E1.
  - injection E1 as -> ->. injection E3 as E3. apply kind_parts in E3 as [E3 N]. rewrite N in E2.
    split; [reflexivity|]. split; [reflexivity|]. split; [exact E3|].
    apply app_inv_head in E2. injection E2 as E2. apply app_inv_head in E2. apply (app_inv_head (str " is defined in terms of the ")) in E2.
    exact (lower_parts _ _ _ E2).
  - injection E1 as ->. reflexivity.
  - injection E1 as ->. split; [reflexivity|]. apply app_inv_head in E2. eapply wrong_parts; eauto.
  - injection E1 as ->. reflexivity.
  - injection E1 as ->. reflexivity.
Qed.

Lemma violated_distinct k a l r d m : message_of d = Some m -> m <> violated_message (ops k) (show k) a l r.
Proof.
  intros E ->. unfold violated_message in E. destruct d; cbn [message_of] in E; try discriminate E.
  - destruct ids; discriminate E.
  - destruct (wrong_kind_name _); discriminate E.
Qed.

Theorem C86_different_errors_look_different : forall k env (T : template k) o ds ms i j d e m,
  run_unit_system (ops k) env T = Some (o, ds) -> printed_by k env T ms ->
  nth_error ds i = Some d -> nth_error ms i = Some m -> nth_error ds j = Some e -> nth_error ms j = Some m ->
  same_up_to_base d e.
Proof.
  intros k env T o ds ms i j d e m H Pr Hd Hm He Hm'. unfold run_unit_system in H.
  destruct (all_printed (ops k) env (show k) _ o ds H) as (res & d8 & ms' & _ & _ & E & F).
  unfold printed_by, run_messages in Pr. assert (ms' = ms) by congruence. subst ms'. clear E Pr.
  assert (N : forall i d m, nth_error ds i = Some d -> nth_error ms i = Some m -> prints (ops k) (show k) res d m).
  { clear - F. intros i. revert ds ms F. induction i as [|i IH]; intros ds ms F d m Hd Hm; destruct F as [|d0 m0 ds ms P F]; try discriminate Hd.
    - cbn in Hd, Hm. injection Hd as <-. injection Hm as <-. exact P.
    - exact (IH ds ms F d m Hd Hm). }
  pose proof (N i d m Hd Hm) as P1. pose proof (N j e m He Hm') as P2. clear N F Hd Hm He Hm'.
  destruct P1 as [d m P1|r a an _ _ _ _ _].
  - inversion P2 as [e' m' P2'|r a an _ _ _ _ _ Ee Em]; subst; [now apply (message_injective d e m)|].
    exfalso. exact (violated_distinct k _ _ _ _ _ P1 eq_refl).
  - inversion P2 as [e' m' P2'|r' a' an' _ _ _ _ _ Ee Em]; subst.
    + exfalso. exact (violated_distinct k _ _ _ _ _ P2' eq_refl).
    + cbn [same_up_to_base]. unfold violated_message in *. congruence.
Qed.
Print Assumptions C86_different_errors_look_different.

(** ** C87: a dimension mismatch shows the exponents the two sides really have.  In a file with no other
    kind of mistake: the base dimensions listed are those met in the definition of either side, in
    alphabetical order and each once; the exponents are exact; base dimensions not listed have exponent zero
    on both sides. *)
Lemma available_sorted X (l r : bdims X) : StronglySorted slt (available_dims X l r).
Proof.
  unfold available_dims. apply wf_sorted.
  assert (K : forall bs m, wf m -> wf (fold_left (fun (m : @smap unit) b => sinsert b tt m) bs m)).
  { induction bs as [|b bs IH]; intros m W; [exact W|]. cbn. apply IH. now apply sinsert_wf. }
  apply K. apply wf_nil.
Qed.
Lemma available_iff X (l r : bdims X) b : In b (available_dims X l r) <-> In b (skeys l) \/ In b (skeys r).
Proof.
  unfold available_dims. rewrite <- in_app_iff.
  assert (K : forall bs m, In b (skeys (fold_left (fun (m : @smap unit) b => sinsert b tt m) bs m)) <-> In b bs \/ In b (skeys m)).
  { induction bs as [|c bs IH]; intros m; [cbn; tauto|]. cbn [fold_left]. rewrite IH. cbn [In].
    assert (J : In b (skeys (sinsert c tt m)) <-> b = c \/ In b (skeys m)).
    { rewrite !sget_keys. destruct (string_dec b c) as [->|N].
      - rewrite sget_insert_eq. split; [now left|eauto].
      - rewrite sget_insert_neq by exact N. split; [now right|]. intros [?|?]; [contradiction|assumption]. }
    rewrite J. split; [intros [?|[?|?]]|intros [[?|?]|?]]; auto. }
  rewrite K. cbn. tauto.
Qed.
Lemma entries_text k (dims : bdims (ops k)) bs : bd_ok (ops k) (laws k) dims ->
  format_dims (ops k) (show k) (dims_entries (ops k) bs dims) = dimension_text bs (vec_of (ops k) (laws k) dims).
Proof.
  intros Ok.
  assert (E : forall b, format_entry (ops k) (show k) (b, shown_exponent (ops k) dims b) =
    str b ++ "^"%char :: exponent_text (vec_of (ops k) (laws k) dims b)).
  { intros b. unfold format_entry, shown_exponent, vec_of. cbn [fst snd].
    destruct (sget b dims) as [e|] eqn:G; f_equal; f_equal.
    - apply show_text. exact (bd_ok_get _ _ _ _ _ Ok G).
    - rewrite show_text by apply (l_zero _ (laws k)). f_equal. apply (l_zero _ (laws k)). }
  unfold format_dims, dims_entries. rewrite map_map.
  induction bs as [|b bs IH]; [reflexivity|]. destruct bs as [|c bs]; [exact (E b)|].
  change (join (map (fun x => format_entry (ops k) (show k) (x, shown_exponent (ops k) dims x)) (b :: c :: bs))) with
    (format_entry (ops k) (show k) (b, shown_exponent (ops k) dims b) ++ space ::
     join (map (fun x => format_entry (ops k) (show k) (x, shown_exponent (ops k) dims x)) (c :: bs))).
  rewrite IH, E, <- app_assoc. reflexivity.
Qed.

Theorem C87_mismatch_shows_the_dimensions : forall k env (T : template k) o ds ms m,
  run_unit_system (ops k) env T = Some (o, ds) -> literals_ok k T -> well_formed (declared T) ->
  printed_by k env T ms -> In m ms -> m_text m = str "Dimension mismatch in expression." ->
  exists x a bs v w,
    In x (decls (declared T)) /\ annotation x = Some a /\ m_at m = [a] /\
    denotes_dim k o a v /\ denotes_dim k o (decl_name x) w /\
    StronglySorted slt bs /\
    (forall b, In b bs <-> built_from (declared T) a b \/ built_from (declared T) (decl_name x) b) /\
    (forall b, ~ In b bs -> v b = 0%Qc /\ w b = 0%Qc) /\
    m_attached m =
      [Help (str "The annotation on the left-hand side has dimensions " ++ dimension_text bs v);
       Help (str "but the expression on the right-hand side has dimensions " ++ dimension_text bs w)].
Proof.
  intros k env T o ds ms m H [_ V] W Pr Hm Ht. unfold run_unit_system in H. unfold printed_by, run_messages in Pr.
  pose proof (generated_ok_expand _ T) as Gn. rewrite <- !declared_expand in *.
  destruct (all_printed (ops k) env (show k) _ o ds H) as (res & d8 & ms' & Hres & Ho & E & F).
  assert (ms' = ms) by congruence. subst ms'.
  assert (P : exists d, prints (ops k) (show k) res d m).
  { clear - F Hm. induction F as [|d m0 ds ms P F IH]; [contradiction|]. destruct Hm as [->|Hm]; [eauto|auto]. }
  destruct P as [d P]. destruct P as [d m P|r a an Hr Ha Ea Ka Eb].
  { exfalso. destruct d; cbn [message_of] in P; try discriminate P;
      repeat match type of P with match ?l with _ => _ end = _ => destruct l eqn:?; try discriminate P end;
      injection P as <-; cbn [m_text] in Ht; try discriminate Ht.
    apply (f_equal (@length ascii)) in Ht. rewrite app_length in Ht. cbn [length] in Ht. rewrite !app_length in Ht. cbn [length] in Ht.
    rewrite !app_length in Ht. change (length (str "Dimension mismatch in expression.")) with 33%nat in Ht.
    change (length (str " is defined in terms of the ")) with 28%nat in Ht. destruct lhs_kind, rhs_kind; cbn [kind_name kind_name_lower] in Ht; cbn in Ht; lia. }
  destruct (recorded_items (ops k) (laws k) env _ o ds Gn V H W) as (res' & d8' & Hres' & Eo & Wr & En & Al).
  assert (res' = res) by congruence. subst res'. clear d8' Hres' Eo.
  unfold svalues in Hr. apply in_map_iff in Hr as ((n & r') & Er & Hr). cbn in Er. subst r'.
  apply (In_sget _ _ _ Wr) in Hr. destruct (En n r Hr) as (x & Hx & Ix & Nx).
  destruct (Al x Hx) as (r' & Er' & _ & Okr & Kr). assert (r' = r) by congruence. subst r'.
  destruct (En a an Ea) as (y & Hy & Iy & Ny).
  destruct (Al y Hy) as (an' & Ean & _ & Okn & Kn). assert (an' = an) by congruence. subst an'.
  exists x, a, (available_dims _ (dm_dims (ri_dims an)) (dm_dims (ri_dims r))), (vec_of _ (laws k) (dm_dims (ri_dims an))), (vec_of _ (laws k) (dm_dims (ri_dims r))).
  split; [exact Hx|]. split; [rewrite Ix, annotation_of_item in Ha; exact Ha|]. split; [reflexivity|].
  split; [exact (proj2 (result_one _ (laws k) env _ o ds H res a an y _ Wr Ho En Ea Iy Ny) (fun _ => eq_refl))|].
  split; [exact (proj2 (result_one _ (laws k) env _ o ds H res (decl_name x) r x _ Wr Ho En Er' Ix eq_refl) (fun _ => eq_refl))|].
  split; [apply available_sorted|].
  split; [intros b; rewrite available_iff, Kn, Kr, Ny; reflexivity|].
  split.
  - intros b Hb. rewrite available_iff in Hb. unfold vec_of. split.
    + destruct (sget b (dm_dims (ri_dims an))) eqn:G; [|apply ZQc_0]. destruct Hb. left. apply sget_keys. eauto.
    + destruct (sget b (dm_dims (ri_dims r))) eqn:G; [|apply ZQc_0]. destruct Hb. right. apply sget_keys. eauto.
  - unfold violated_message. cbn [m_attached]. now rewrite !entries_text.
Qed.
Print Assumptions C87_mismatch_shows_the_dimensions.

(** The text can be read back: it determines the base dimensions listed and their exponents. *)
Definition plain_name (b : string) : Prop := ~ In "^"%char (str b) /\ ~ In space (str b).
Lemma exponent_no_space q : ~ In space (exponent_text q).
Proof.
  unfold exponent_text. intros H.
  assert (K : forall z, ~ In space (show_int z)) by (intros z; apply show_int_not; [left; reflexivity|discriminate]).
  destruct (Z.eqb _ 1); [exact (K _ H)|]. apply in_app_iff in H as [H|[H|H]]; [exact (K _ H)|discriminate H|exact (K _ H)].
Qed.
Lemma cut_here (c : ascii) (a b r s : text) : ~ In c a -> ~ In c b -> a ++ c :: r = b ++ c :: s -> a = b /\ r = s.
Proof.
  revert b. induction a as [|x a IH]; intros [|y b] Ha Hb E; cbn in *.
  - injection E as E. auto.
  - injection E as <- _. exfalso. apply Hb. now left.
  - injection E as -> _. exfalso. apply Ha. now left.
  - injection E as <- E. destruct (IH b) as [-> ->]; auto.
Qed.
Lemma no_cut (c : ascii) (a b r : text) : ~ In c a -> a = b ++ c :: r -> False.
Proof. intros Ha ->. apply Ha, in_app_iff. right. now left. Qed.

Theorem C87_readable : forall bs bs' v w,
  (forall b, In b bs -> plain_name b) -> (forall b, In b bs' -> plain_name b) ->
  (dimension_text bs v = dimension_text bs' w <-> bs = bs' /\ forall b, In b bs -> v b = w b).
Proof.
  intros bs bs' v w H H'. split.
  - revert bs' H'. induction bs as [|b bs IH]; intros [|b' bs'] H' E.
    + split; [reflexivity|intros c []].
    + exfalso. destruct bs'; cbn in E; destruct (str b'); discriminate E.
    + exfalso. destruct bs; cbn in E; destruct (str b); discriminate E.
    + assert (Sh : forall x l u, exists t, dimension_text (x :: l) u = str x ++ "^"%char :: exponent_text (u x) ++ t /\
         (l = [] /\ t = [] \/ l <> [] /\ t = space :: dimension_text l u)).
      { intros x [|y l] u; [exists []|exists (space :: dimension_text (y :: l) u)].
        - split; [cbn; now rewrite app_nil_r|left; auto].
        - split; [reflexivity|]. right. split; [discriminate|reflexivity]. }
      destruct (Sh b bs v) as (t & Et & Ct), (Sh b' bs' w) as (t' & Et' & Ct'). rewrite Et, Et' in E. clear Sh Et Et'.
      apply cut_here in E as [Eb E]; [|apply (H b); now left|apply (H' b'); now left]. apply str_inj in Eb. subst b'.
      destruct Ct as [[-> ->]|[N ->]], Ct' as [[-> ->]|[N' ->]].
      * rewrite !app_nil_r in E. apply exponent_text_inj in E. split; [reflexivity|]. intros c [<-|[]]. exact E.
      * rewrite app_nil_r in E. exfalso. exact (no_cut _ _ _ _ (exponent_no_space _) E).
      * rewrite app_nil_r in E. exfalso. exact (no_cut _ _ _ _ (exponent_no_space _) (eq_sym E)).
      * apply cut_here in E as [Ev E]; [|apply exponent_no_space|apply exponent_no_space]. apply exponent_text_inj in Ev.
        destruct (IH (fun c Hc => H c (or_intror Hc)) bs' (fun c Hc => H' c (or_intror Hc)) E) as [-> A].
        split; [reflexivity|]. intros c [<-|Hc]; auto.
  - intros [<- A]. clear H H'. induction bs as [|b bs IH]; [reflexivity|].
    destruct bs as [|c bs].
    + cbn. rewrite (A b); [reflexivity|now left].
    + change (dimension_text (b :: c :: bs) v) with (str b ++ "^"%char :: exponent_text (v b) ++ space :: dimension_text (c :: bs) v).
      change (dimension_text (b :: c :: bs) w) with (str b ++ "^"%char :: exponent_text (w b) ++ space :: dimension_text (c :: bs) w).
      rewrite (A b) by now left. rewrite IH; [reflexivity|]. intros d Hd. apply A. now right.
Qed.
Print Assumptions C87_readable.

(** ** The model prints what the repository's compile-fail tests expect
    ([crates/diman_unit_system/tests/compile_fail/<name>.stderr], without positions and source lines). *)
Definition plain (m : message) : text * list attachment := (m_text m, m_attached m).
Definition printed_text (k : mode) (ts : list tok) : option (list (text * list attachment)) :=
  match parse_system k ts with
  | Some T => option_map (map plain) (run_messages (ops k) env0 (show k) T)
  | None => None
  end.
Definition dq (before s after : string) : text := str before ++ ascii_of_nat 34 :: str s ++ ascii_of_nat 34 :: str after.
Definition expected_messages : list (list tok * option (list (text * list attachment))) := [
  (resolver_dimension_in_constant_expression_not_allowed,
     Some [(str "Constant SOLAR_MASS is defined in terms of the dimension Mass.",
            [Note (str "Constants can only be defined in terms of other constants and units.")])]);
  (resolver_dimension_in_unit_expression_not_allowed,
     Some [(str "Unit kilograms is defined in terms of the dimension Mass.",
            [Note (str "Units can only be defined in terms of other units and constants.")])]);
  (resolver_duplicate_base_unit,
     Some [(str "'parsec' is defined to be a base unit for dimension 'Length', but there already is a base unit for this dimension.",
            [Note (str "There can only be one base unit per base dimension.")])]);
  (resolver_duplicate_definition, Some [(dq "Identifier " "foo" " defined multiple times.", [])]);
  (resolver_duplicate_symbol, Some [(str "Symbol 'mm' is used for multiple units.", [])]);
  (resolver_partial_resolution, Some [(dq "Unresolvable definition " "undefined" ".", [Help (str "Remove recursive definitions.")])]);
  (resolver_prefixed_or_aliased_units_dont_generate_multiple_errors, Some [(dq "Undefined identifier " "undefined" ".", [])]);
  (resolver_undefined_identifier, Some [(dq "Undefined identifier " "meters" ".", [])]);
  (resolver_units_in_dimension_expression_not_allowed,
     Some [(str "Dimension Mass2 is defined in terms of the unit kilograms.",
            [Note (str "Dimensions can only be defined in terms of other dimensions.")])]);
  (resolver_unresolvable,
     Some [(dq "Unresolvable definition " "meters" ".", [Help (str "Remove recursive definitions.")]);
           (dq "Unresolvable definition " "kilometers" ".", [Help (str "Remove recursive definitions.")])]);
  (dimension_annotation_violated_constant,
     Some [(str "Dimension mismatch in expression.",
            [Help (str "The annotation on the left-hand side has dimensions mass^1");
             Help (str "but the expression on the right-hand side has dimensions mass^2")])]);
  (dimension_annotation_violated_unit,
     Some [(str "Dimension mismatch in expression.",
            [Help (str "The annotation on the left-hand side has dimensions length^1 mass^0");
             Help (str "but the expression on the right-hand side has dimensions length^0 mass^2")])]);
  (dimension_annotation_with_unit_not_allowed,
     Some [(str "Type error in annotation: Expected dimension, found unit 'kilograms'.",
            [Note (str "Annotations can only be done using dimensions.")])]);
  (dimension_definition_with_numeric_factor, None)].
Example C86_C87_compile_fail_tests : forall k,
  map (fun e => printed_text k (fst e)) expected_messages = map snd expected_messages.
Proof. intros []; vm_compute; reflexivity. Qed.

(** The hypotheses of [C87_mismatch_shows_the_dimensions] are met. *)
Example C87_applies : forall k, exists o ds m ms,
  run_unit_system (ops k) env0 (violating k) = Some (o, ds) /\ literals_ok k (violating k) /\ well_formed (declared (violating k)) /\
  printed_by k env0 (violating k) ms /\ In m ms /\ m_text m = str "Dimension mismatch in expression.".
Proof.
  intros k. destruct (C69_exactly_applies k) as (o & ds & R & Lt & W & _).
  assert (B : match run_messages (ops k) env0 (show k) (violating k) with
       | Some (m :: _) => text_eqb (m_text m) (str "Dimension mismatch in expression.")
       | _ => false end = true) by (destruct k; vm_compute; reflexivity).
  unfold printed_by. destruct (run_messages (ops k) env0 (show k) (violating k)) as [[|m ms]|]; try discriminate B.
  apply text_eqb_eq in B. exists o, ds, m, (m :: ms). repeat (split; [first [exact R|exact Lt|exact W|reflexivity]|]). split; [now left|exact B].
Qed.
