(** * Whether the error messages are true (C88) *)
From Coq Require Import String Ascii List Bool ZArith QArith Qcanon Sorted Lia Classical.
From Verif Require Import MachineInt Ratio F64 Magnitude Exponent ExponentFacts SMap Snake Expression DimensionMath DimensionMathFacts
  Types ExpansionSpec Resolve ResolveLoop ResolveChecks SystemSpec ResolveFacts ResolveEquations ResolveAccept ResolveReports Expansion Setting
  SystemFacts RemovalFacts ExampleSystems PropertiesSystem AnnotationFacts ReportFacts CodegenDimension Text TextFacts PropertiesDebug
  Parse ParsedSystems Sources PropertiesReports PropertiesExactness Messages MessageFacts PropertiesMessages MessageTruthFacts.
Import ListNotations.
Close Scope Q_scope. Close Scope Qc_scope.
Local Open Scope string_scope.
Local Open Scope list_scope.

(** ** What the messages say *)

Section Claims.
Context {X : exp_ops} (L : exp_laws X).
Notation sys := (unresolved X (unit_entry X)).

Definition is_declared (S : sys) (n : ident) : Prop := In n (map decl_name (decls S)).
Definition declares_dimension (S : sys) (n : ident) : Prop := exists d, In d (u_dimensions S) /\ de_name d = n.
Definition declares_base_dimension (S : sys) (n : ident) : Prop :=
  exists d, In d (u_dimensions S) /\ de_name d = n /\ de_rhs d = DefBase tt.
Definition declared_types (S : sys) (type_name : string) : list ident :=
  if String.eqb type_name "quantity type" then u_quantity_types S else u_dimension_types S.
(** The kinds listed in the note "... can only be defined in terms of ...". *)
Definition note_lists (lhs rhs : kind) : Prop :=
  match lhs with KDimension => rhs = KDimension | _ => rhs <> KDimension end.
(** Some declaration annotated with [a] and the dimensions both have. *)
Definition annotated_with (S : sys) (o : defs X) (a : ident) (v w : string -> Qc) : Prop :=
  exists x, In x (decls S) /\ annotation x = Some a /\ declares_dimension S a /\
    dim_result X L o a v /\ dim_result X L o (decl_name x) w.

Definition true_message (S : sys) (o : defs X) (d : diag) : Prop :=
  match d with
  | TypeMultiple t id => (* Multiple definitions for t "id". *)
      In id (declared_types S t) /\ (2 <= length (declared_types S t))%nat
  | TypeNone t => (* No definition for t *)
      declared_types S t = []
  | Undefined n => (* Undefined identifier "n". *)
      ~ is_declared S n /\ exists x, In x (decls S) /\ mentions x n
  | Unresolvable n => (* Unresolvable definition "n". Remove recursive definitions. *)
      is_declared S n /\ recursive S n
  | MultipleDefinitions l => (* Identifier "n" defined multiple times. *)
      exists n k, l = repeat n k /\ (2 <= k <= count_occ String.string_dec (map decl_name (decls S)) n)%nat
  | KindNotAllowed l r kl kr => (* kl l is defined in terms of the kr r. kl can only be defined in terms of <other kinds>. *)
      exists x y, In x (decls S) /\ In y (decls S) /\ decl_name x = l /\ decl_name y = r /\ decl_kind x = kl /\ decl_kind y = kr /\
        mentions x r /\ ~ note_lists kl kr
  | WrongTypeInAnnotation a k => (* Type error in annotation: Expected dimension, found k 'a'. *)
      exists x y, In x (decls S) /\ annotation x = Some a /\ In y (decls S) /\ decl_name y = a /\ decl_kind y = k /\ k <> KDimension
  | ViolatedAnnotation a => (* Dimension mismatch in expression. *)
      exists v w b, annotated_with S o a v w /\ v b <> w b
  | UndefinedAnnotation a => (* Undefined dimension a in annotation. *)
      (exists x, In x (decls S) /\ annotation x = Some a) /\ ~ declares_dimension S a
  | MultipleBaseUnits dim u => (* 'u' is defined to be a base unit for dimension 'dim', but there already is a base unit *)
      declares_base_dimension S dim /\ exists before e after e', u_units S = before ++ e :: after /\ ue_name e = u /\
        base_unit_of e dim /\ In e' before /\ base_unit_of e' dim
  | BaseUnitForNonBase dim u => (* 'u' is defined to be a base unit for dimension 'dim', but 'dim' is not a base dimension. *)
      ~ declares_base_dimension S dim /\ exists e, In e (u_units S) /\ ue_name e = u /\ base_unit_of e dim
  | SymbolMultiple s us => (* Symbol 's' is used for multiple units. *)
      (2 <= length us)%nat /\ Forall (fun n => exists u, In u (u_units S) /\ ue_name u = n /\ ue_symbol u = Some s) us
  | NoSymbol n => (* Unit n is declared as a base unit but does not define its symbol. *)
      exists u dim, In u (u_units S) /\ ue_name u = n /\ base_unit_of u dim /\ ue_symbol u = None
  end.

(** The four ways in which a message can be wrong. *)
Definition misleading (S : sys) (o : defs X) (d : diag) : Prop :=
  match d with
  | Unresolvable n => (* not recursive: it uses, through other definitions, an undefined name *)
      is_declared S n /\ leads_to_undefined S n
  | KindNotAllowed l r kl kr => (* the note lists what units may use, but a base unit must be given a dimension *)
      kl = KBaseUnit /\ kr <> KDimension /\
      exists x y, In x (decls S) /\ In y (decls S) /\ decl_name x = l /\ decl_name y = r /\ decl_kind x = kl /\ decl_kind y = kr /\ mentions x r
  | UndefinedAnnotation a => (* the dimension is declared, but could not be resolved *)
      (exists x, In x (decls S) /\ annotation x = Some a) /\ declares_dimension S a /\ (recursive S a \/ leads_to_undefined S a)
  | ViolatedAnnotation a => (* both sides have the same dimension *)
      exists v w, annotated_with S o a v w /\ forall b, v b = w b
  | _ => False
  end.
End Claims.

(** ** The full statement is false *)
Definition C88_statement (k : mode) : Prop := forall env (T : template k) o ds d,
  run_unit_system (ops k) env T = Some (o, ds) -> In d ds -> true_message (laws k) (declared T) o d.

Section Witnesses.
Context (k : mode).
Notation X := (ops k).
Definition some_unit (n : ident) (a : option ident) (d : definition X ident magnitude) : unit_template X :=
  {| ut_name := n; ut_symbol := Some (String.append n "_symbol"); ut_aliases := []; ut_prefixes := []; ut_annotation := a; ut_definition := d |}.
Definition a_file (ds : list (dimension_entry X)) (us : list (unit_template X)) : unresolved X (unit_template X) := {|
  u_dimension_types := ["Dimension"]; u_quantity_types := ["Quantity"]; u_dimensions := ds; u_units := us; u_constants := [] |}.
Definition length_dimension : dimension_entry X := {| de_name := "Length"; de_rhs := DefBase tt |}.
(** [unit x = z; unit y = x;]: [y] is not recursive. *)
Definition chained : unresolved X (unit_template X) :=
  a_file [] [some_unit "x" None (DefExpr (EVal (nm k "z"))); some_unit "y" None (DefExpr (EVal (nm k "x")))].
(** [dimension Length; dimension A = A; unit x: A = 1;]: [A] is declared. *)
Definition looped : unresolved X (unit_template X) :=
  a_file [length_dimension; {| de_name := "A"; de_rhs := DefExpr (EVal (nm k "A")) |}] [some_unit "x" (Some "A") (DefExpr (EVal (num k 1 0)))].
(** [dimension Length; unit meter: Length; unit foot: meter;] *)
Definition base_in_unit : unresolved X (unit_template X) :=
  a_file [length_dimension] [some_unit "meter" None (DefBase "Length"); some_unit "foot" None (DefBase "meter")].
End Witnesses.

(** ** What holds instead *)
Section Proof.
Context (X : exp_ops) (L : exp_laws X) (env : fenv).
Notation sys := (unresolved X (unit_entry X)).
Ltac split_app H := repeat (apply in_app_or in H as [H|H]).
Ltac emitters H :=
  first [ apply annotations_emit in H as [[? ?]|[[? ?]|[? [? ?]]]]
        | apply no_symbol_emits in H as [? ?]
        | apply base_units_report in H as (? & ? & ? & ? & _ & _ & [[_ ?]|(_ & _ & ?)])
        | apply symbols_report in H as (? & ? & _)
        | apply undefined_report in H as (? & ? & _ & _ & ?)
        | apply duplicates_report in H as (? & ? & _)
        | apply kinds_report in H as (? & ? & ? & _ & _ & _ & _ & ?)
        | eapply loop_emits in H as [? ?]; [|eassumption] ].
Lemma types_part (S : sys) res d8 y :
  resolve_items X env (U4 X S) = Some (res, d8) ->
  In y (diags_before X S ++ d8 ++ check_type_annotations X res ++ check_for_base_units_without_symbol X (get_units X res)) ->
  (exists t, y = TypeNone t) \/ (exists t i, y = TypeMultiple t i) ->
  In y (snd (get_single_ident (u_quantity_types S) "quantity type" "Quantity")) \/
  In y (snd (get_single_ident (u_dimension_types S) "dimension type" "Dimension")).
Proof.
  intros Hres H Hy. unfold diags_before in H. split_app H; auto; exfalso; emitters H; destruct Hy as [(? & ?)|(? & ? & ?)]; congruence.
Qed.
Lemma single_says l a b y : In y (snd (get_single_ident l a b)) ->
  match y with TypeNone t => t = a /\ l = [] | TypeMultiple t i => t = a /\ In i l /\ (2 <= length l)%nat | _ => False end.
Proof.
  destruct l as [|t [|t2 l]]; cbn [get_single_ident snd]; [intros [<-|[]]; auto|intros []|].
  intros H. apply in_map_iff in H as (i & <- & Hi). split; [reflexivity|]. split; [exact Hi|]. cbn [length]. lia.
Qed.

Lemma annotation_says (S : sys) res d8 o ds y : generated_ok X S -> resolve X env S = Some (o, ds) -> o = out_of X S res ->
  resolve_items X env (U4 X S) = Some (res, d8) -> In y (check_type_annotations X res) ->
  true_message L S o y \/ misleading L S o y.
Proof.
  intros G H Ho Hres Hy. pose proof (resolved_wf X env _ _ _ Hres) as Wr. unfold check_type_annotations in Hy. apply in_flat_map in Hy as (r & Hr & Hy).
  apply svalues_get in Hr as [n Hr]; [|exact Wr]. pose proof (fun n r => entry_decl X env S res d8 n r Hres) as En.
  destruct (En n r Hr) as (x & Hx & Ix & Nx). unfold check_annotation in Hy. rewrite Ix, annotation_of_item in Hy.
  destruct (annotation x) as [a|] eqn:Ha; [|contradiction].
  destruct (sget a res) as [an|] eqn:Ea.
  - destruct (En a an Ea) as (y' & Hy' & Iy & Ny). rewrite Iy, kind_of_item in Hy.
    assert (W : decl_kind y' <> KDimension -> y = WrongTypeInAnnotation a (decl_kind y') -> true_message L S o y \/ misleading L S o y).
    { intros Nk ->. left. cbn [true_message]. exists x, y'. auto 8. }
    destruct (decl_kind y') eqn:Ky; try (destruct Hy as [<-|[]]; apply W; [discriminate|reflexivity]).
    destruct (bd_eq X _ _) eqn:Eb; [contradiction|]. destruct Hy as [<-|[]]. clear W.
    assert (A : annotated_with L S o a (vec_of X L (dm_dims (ri_dims an))) (vec_of X L (dm_dims (ri_dims r)))).
    { exists x. split; [exact Hx|]. split; [exact Ha|]. split.
      - destruct y' as [d|u|c]; cbn in Ky; try discriminate Ky; [|destruct (ue_definition u); discriminate Ky].
        exists d. split; [|exact Ny]. unfold decls in Hy'. rewrite !in_app_iff, !in_map_iff in Hy'.
        destruct Hy' as [(z & E & Hz)|[(z & E & _)|(z & E & _)]]; [|discriminate E|discriminate E]. now assert (z = d) by congruence; subst z.
      - split; [exact (proj2 (result_one X L env S o ds H res a an y' _ Wr Ho En Ea Iy Ny) (fun _ => eq_refl))|].
        rewrite Nx. exact (proj2 (result_one X L env S o ds H res n r x _ Wr Ho En Hr Ix Nx) (fun _ => eq_refl)). }
    destruct (classic (forall b, vec_of X L (dm_dims (ri_dims an)) b = vec_of X L (dm_dims (ri_dims r)) b)) as [Eq|Ne].
    + right. cbn [misleading]. eauto.
    + left. cbn [true_message]. apply not_all_ex_not in Ne as (b & Ne). eauto 6.
  - destruct Hy as [<-|[]]. assert (A : exists x, In x (decls S) /\ annotation x = Some a) by eauto.
    destruct (classic (declares_dimension S a)) as [D|D]; [right|left]; cbn [true_message misleading]; [|auto].
    split; [exact A|]. split; [exact D|]. apply (unresolved_name X env S res d8 a G Hres). intros Hk. apply sget_keys in Hk as [? ?]. congruence.
Qed.

Lemma messages_say (S : sys) o ds d : generated_ok X S -> resolve X env S = Some (o, ds) -> In d ds ->
  true_message L S o d \/ misleading L S o d.
Proof.
  intros G H Hd. destruct (resolve_some X env S o ds H) as (res & d8 & Hres & Ho & Eds). rewrite Eds in Hd.
  pose proof Hd as Hp. apply (in_part X env S res d8) in Hp; [|exact Hres]. destruct d; cbv beta iota in Hp.
  1, 2: left; destruct (types_part S res d8 _ Hres Hd ltac:(eauto)) as [Hs|Hs]; apply single_says in Hs; destruct Hs as [-> Hs]; exact Hs.
  all: rewrite <- Eds in Hd.
  - left. apply (base_units_exact X env S o ds dim unit G H) in Hd as (b & e & a & e' & H1 & H2 & H3 & H4 & H5 & H6). split; [exact H6|]. eauto 10.
  - left. apply (base_units_exact X env S o ds dim unit G H) in Hd as (e & H1 & H2 & H3 & H4). split; [exact H4|]. eauto 10.
  - left. apply (symbols_exact X env S o ds symbol units H) in Hd as [E Hl]. split; [exact Hl|]. apply Forall_forall. intros n Hn.
    rewrite E in Hn. unfold users_of in Hn. apply in_flat_map in Hn as (u & Hu & Hn).
    exists u. split; [exact Hu|]. destruct (ue_symbol u) as [s|]; [|contradiction]. destruct (String.eqb s symbol) eqn:Es; [|contradiction].
    apply String.eqb_eq in Es. destruct Hn as [Hn|[]]. subst. auto.
  - left. exact (undefined_sound X env S o ds id H Hd).
  - left. exact (duplicates_sound X env S o ds ids H Hd).
  - apply kinds_report in Hp as (i & rhs' & k & Hi & Hr & Hk & A & E). injection E as -> -> -> ->.
    apply kinds_of_some in Hk as (j & Hj & Nj & Kj).
    assert (Sub : forall i, In i (U3 X S) -> exists x, In x (decls S) /\ i = item_of X x).
    { intros i' Hi'. unfold U3, U2 in Hi'. apply filter_auto_In in Hi' as [Hi' _]. apply filter_auto_In in Hi' as [Hi' _]. apply U1_sub in Hi'.
      rewrite items_of_decls in Hi'. apply in_map_iff in Hi' as (x & <- & Hx). eauto. }
    destruct (Sub i Hi) as (x & Hx & ->). destruct (Sub j Hj) as (y & Hy & ->). clear Sub.
    apply mentions_item in Hr. rewrite ?ident_of_item, ?kind_of_item in *.
    assert (Ex : exists x0 y0, In x0 (decls S) /\ In y0 (decls S) /\ decl_name x0 = decl_name x /\ decl_name y0 = rhs' /\
      decl_kind x0 = decl_kind x /\ decl_kind y0 = k /\ mentions x0 rhs') by (exists x, y; auto 8).
    assert (M : ~ may_mention (decl_kind x) k) by (intros M; apply kind_allowed_iff in M; congruence).
    destruct (decl_kind x) eqn:Kx; cbn [may_mention] in M.
    all: first [right; cbn [misleading]; split; [reflexivity|]; split; [exact M|exact Ex]|
      left; cbn [true_message]; destruct Ex as (x0 & y0 & H1 & H2 & H3 & H4 & H5 & H6 & H7); exists x0, y0; repeat (split; [assumption|]); exact M].
  - destruct (unresolvable_leads X env S res d8 id G Hres Hp) as [D [R|U]]; [left|right]; split; assumption.
  - exact (annotation_says S res d8 o ds _ G H Ho Hres Hp).
  - exact (annotation_says S res d8 o ds _ G H Ho Hres Hp).
  - exact (annotation_says S res d8 o ds _ G H Ho Hres Hp).
  - left. unfold check_for_base_units_without_symbol in Hp. apply in_flat_map in Hp as (y & Hy & Hp).
    pose proof (resolved_wf X env _ _ _ Hres) as W. apply get_units_In in Hy as (m & r & u & Hr & Et & ->); [|exact W]. cbn in Hp.
    destruct (ue_definition u) as [d|e] eqn:Ed; [|easy]. destruct (ue_symbol u) as [s|] eqn:Es; [easy|]. destruct Hp as [E|[]]. injection E as <-.
    destruct (entry_decl X env _ _ _ _ _ Hres Hr) as (x & Hx & Ei & Nx). rewrite Ei in Et. apply item_of_type_unit in Et. subst x.
    exists u, d. split; [now apply unit_decl|]. auto.
Qed.
End Proof.

(** Every message is true, or wrong in one of the four ways. *)
Theorem C88_partial : forall k env (T : template k) o ds d,
  run_unit_system (ops k) env T = Some (o, ds) -> In d ds ->
  true_message (laws k) (declared T) o d \/ misleading (laws k) (declared T) o d.
Proof.
  intros k env T o ds d H Hd. unfold run_unit_system in H. rewrite <- declared_expand.
  exact (messages_say (ops k) (laws k) env _ o ds d (generated_ok_expand _ T) H Hd).
Qed.
Print Assumptions C88_partial.

(** ** The words
    What is printed for each error, next to which [true_message] says what it means. *)
Definition kind_word (k : kind) : string :=
  match k with KDimension => "dimension" | KUnit | KBaseUnit => "unit" | KConstant => "constant" end.
Definition Kind_word (k : kind) : string :=
  match k with KDimension => "Dimension" | KUnit | KBaseUnit => "Unit" | KConstant => "Constant" end.
Definition wording (d : diag) : string :=
  (match d with
   | TypeMultiple t i => "Multiple definitions for " ++ t ++ " """ ++ i ++ """."
   | TypeNone t => "No definition for " ++ t
   | Undefined n => "Undefined identifier """ ++ n ++ """."
   | Unresolvable n => "Unresolvable definition """ ++ n ++ """."
   | MultipleDefinitions l => "Identifier """ ++ hd "" l ++ """ defined multiple times."
   | KindNotAllowed l r kl kr => Kind_word kl ++ " " ++ l ++ " is defined in terms of the " ++ kind_word kr ++ " " ++ r ++ "."
   | WrongTypeInAnnotation a k => "Type error in annotation: Expected dimension, found " ++ kind_word k ++ " '" ++ a ++ "'."
   | ViolatedAnnotation _ => "Dimension mismatch in expression."
   | UndefinedAnnotation a => "Undefined dimension " ++ a ++ " in annotation."
   | MultipleBaseUnits dim u => "'" ++ u ++ "' is defined to be a base unit for dimension '" ++ dim ++
       "', but there already is a base unit for this dimension."
   | BaseUnitForNonBase dim u => "'" ++ u ++ "' is defined to be a base unit for dimension '" ++ dim ++
       "', but '" ++ dim ++ "' is not a base dimension."
   | SymbolMultiple s _ => "Symbol '" ++ s ++ "' is used for multiple units."
   | NoSymbol n => "Unit " ++ n ++ " is declared as a base unit but does not define its symbol."
   end)%string.
Definition notes (d : diag) : list attachment :=
  match d with
  | TypeNone t =>
      [Note (str "In order to provide readable error messages, the name must be specified in the macro call.");
       Help (str "Consider adding a definition inside the unit_system! macro:" ++ newline_tab ++
             str (if String.eqb t "quantity type" then "quantity type Quantity;" else "dimension type Dimension;"))]
  | Unresolvable _ => [Help (str "Remove recursive definitions.")]
  | KindNotAllowed _ _ kl _ =>
      [Note (str (match kl with
                  | KDimension => "Dimensions can only be defined in terms of other dimensions."
                  | KUnit | KBaseUnit => "Units can only be defined in terms of other units and constants."
                  | KConstant => "Constants can only be defined in terms of other constants and units."
                  end))]
  | WrongTypeInAnnotation _ _ => [Note (str "Annotations can only be done using dimensions.")]
  | UndefinedAnnotation _ => [Note (str "Annotations using units and constants are not allowed.")]
  | MultipleBaseUnits _ _ => [Note (str "There can only be one base unit per base dimension.")]
  | BaseUnitForNonBase _ _ => [Note (str "Base units can only be defined for base dimensions.")]
  | NoSymbol _ => [Note (str "Declare the symbol using" ++ newline ++ str "`#[symbol(...)]`")]
  | TypeMultiple _ _ | Undefined _ | MultipleDefinitions _ | SymbolMultiple _ _ | ViolatedAnnotation _ => []
  end.

Lemma str_append a b : str (a ++ b)%string = str a ++ str b.
Proof. induction a as [|c a IH]; [reflexivity|]. cbn. now f_equal. Qed.
Lemma message_words d m : message_of d = Some m ->
  (match d with TypeNone t => t = "quantity type" \/ t = "dimension type" | _ => True end) ->
  m_text m = str (wording d) /\ m_attached m = notes d.
Proof.
  intros E Ht. destruct d; cbn [message_of wording notes] in *; rewrite ?str_append.
  all: try (injection E as <-; split; reflexivity).
  - injection E as <-. split; [reflexivity|]. destruct Ht as [-> | ->]; reflexivity.
  - destruct ids as [|n l]; [discriminate E|]. injection E as <-. split; reflexivity.
  - injection E as <-. destruct lhs_kind, rhs_kind; split; reflexivity.
  - destruct k; cbn [wrong_kind_name] in E; try discriminate E; injection E as <-; split; reflexivity.
  - discriminate E.
Qed.

(** Every printed message is one of these, in these words, and true or wrong in one of the four ways. *)
Theorem C88_wording : forall k env (T : template k) o ds ms,
  run_unit_system (ops k) env T = Some (o, ds) -> printed_by k env T ms ->
  Forall2 (fun d m => m_text m = str (wording d) /\
                      ((forall a, d <> ViolatedAnnotation a) -> m_attached m = notes d) /\
                      (true_message (laws k) (declared T) o d \/ misleading (laws k) (declared T) o d)) ds ms.
Proof.
  intros k env T o ds ms H Pr. pose proof (fun d => C88_partial k env T o ds d H) as P.
  unfold printed_by, run_messages in Pr. pose proof H as H'. unfold run_unit_system in H.
  destruct (all_printed (ops k) env (show k) _ o ds H) as (res & d8 & ms' & Hres & Ho & E & F).
  assert (ms' = ms) by congruence. subst ms'. clear E Pr.
  assert (Tn : forall t, In (TypeNone t) ds -> t = "quantity type" \/ t = "dimension type").
  { intros t Ht. destruct (resolve_some _ env _ o ds H) as (res' & d8' & Hres' & _ & Eds). rewrite Eds in Ht.
    destruct (types_part _ env _ res' d8' _ Hres' Ht ltac:(eauto)) as [Hs|Hs]; apply single_says in Hs; destruct Hs; auto. }
  clear - F P Tn. induction F as [|d m ds ms Pd F IH]; constructor.
  - split; [|split; [|exact (P d (or_introl eq_refl))]].
    + destruct Pd as [d m Pd|]; [|reflexivity]. apply (message_words d m Pd). destruct d; auto. apply Tn. now left.
    + intros Nv. destruct Pd as [d m Pd|r a]; [|destruct (Nv a eq_refl)]. apply (message_words d m Pd). destruct d; auto. apply Tn. now left.
  - apply IH; [intros d' Hd'; apply P; now right|intros t Ht; apply Tn; now right].
Qed.
Print Assumptions C88_wording.

(** With every name defined, "Remove recursive definitions." is right. *)
Theorem C88_unresolvable_is_recursive : forall k env (T : template k) o ds n,
  run_unit_system (ops k) env T = Some (o, ds) ->
  (forall x m, In x (decls (declared T)) -> mentions x m -> is_declared (declared T) m) ->
  In (Unresolvable n) ds -> is_declared (declared T) n /\ recursive (declared T) n.
Proof.
  intros k env T o ds n H D Hd. destruct (C88_partial k env T o ds _ H Hd) as [R|[Dn U]]; [exact R|].
  destruct (defined_leads (declared T) n D Dn U).
Qed.
Print Assumptions C88_unresolvable_is_recursive.

(** In a file without other kinds of mistakes, messages about annotations are true, except for mismatches of
    equal dimensions. *)
Theorem C88_annotations : forall k env (T : template k) o ds d,
  run_unit_system (ops k) env T = Some (o, ds) -> well_formed (declared T) -> In d ds ->
  true_message (laws k) (declared T) o d \/
  exists a v w, d = ViolatedAnnotation a /\ annotated_with (laws k) (declared T) o a v w /\ forall b, v b = w b.
Proof.
  intros k env T o ds d H W Hd. destruct (C88_partial k env T o ds d H Hd) as [R|M]; [now left|].
  assert (NU : forall n, is_declared (declared T) n -> ~ leads_to_undefined (declared T) n) by (intros n; apply defined_leads; exact (wf_defined _ _ W)).
  assert (NR : forall n, is_declared (declared T) n -> ~ recursive (declared T) n).
  { intros n Dn. apply grounded_acyclic; [exact (wf_names _ _ W)|]. apply in_map_iff in Dn as (x & <- & Hx). exact (wf_grounded _ _ W x Hx). }
  destruct d; try contradiction M.
  - destruct M as (-> & Kr & x & y & Hx & Hy & Nx & Ny & Kx & Ky & Mx). exfalso. rewrite <- Ny in Mx.
    pose proof (wf_kinds _ _ W x y Hx Hy Mx) as A. rewrite Kx, Ky in A. exact (Kr A).
  - destruct M as [D U]. destruct (NU _ D U).
  - right. destruct M as (v & w & A & E). eauto 8.
  - destruct M as (_ & (d & Hd' & <-) & [R|U]); exfalso.
    + apply (NR (de_name d)); [|exact R]. unfold is_declared. change (de_name d) with (decl_name (DDimension d)). apply in_map. unfold decls. rewrite !in_app_iff, !in_map_iff. left. eauto.
    + apply (NU (de_name d)); [|exact U]. unfold is_declared. change (de_name d) with (decl_name (DDimension d)). apply in_map. unfold decls. rewrite !in_app_iff, !in_map_iff. left. eauto.
Qed.
Print Assumptions C88_annotations.

(** Such a false mismatch can be recognised: its two help lines show the same dimensions. *)
Theorem C88_mismatch_is_true_iff_lines_differ : forall k env (T : template k) o ds ms m,
  run_unit_system (ops k) env T = Some (o, ds) -> literals_ok k T -> well_formed (declared T) ->
  (forall d, In d (u_dimensions T) -> plain_name (base_dimension_of (de_name d))) ->
  printed_by k env T ms -> In m ms -> m_text m = str "Dimension mismatch in expression." ->
  exists x a v w lhs rhs,
    In x (decls (declared T)) /\ annotation x = Some a /\ m_at m = [a] /\
    denotes_dim k o a v /\ denotes_dim k o (decl_name x) w /\
    m_attached m = [Help (str "The annotation on the left-hand side has dimensions " ++ lhs);
                    Help (str "but the expression on the right-hand side has dimensions " ++ rhs)] /\
    (lhs = rhs <-> forall b, v b = w b).
Proof.
  intros k env T o ds ms m H Lt W Pl Pr Hm Ht.
  destruct (C87_mismatch_shows_the_dimensions k env T o ds ms m H Lt W Pr Hm Ht) as (x & a & bs & v & w & Hx & Ha & Hat & Hv & Hw & _ & Hb & Hz & E).
  exists x, a, v, w, (dimension_text bs v), (dimension_text bs w). repeat (split; [assumption|]).
  assert (Pb : forall b, In b bs -> plain_name b).
  { intros b Hin. assert (B : forall n, built_from (declared T) n b -> plain_name b).
    { intros n Bn. induction Bn; eauto. }
    apply Hb in Hin as [Hin|Hin]; eauto. }
  rewrite (C87_readable bs bs v w Pb Pb). split.
  - intros [_ Eq] b. destruct (in_dec String.string_dec b bs) as [Hin|Hin]; [auto|]. destruct (Hz b Hin) as [-> ->]. reflexivity.
  - intros Eq. auto.
Qed.
Print Assumptions C88_mismatch_is_true_iff_lines_differ.

(** ** The four witnesses *)
Definition says_wrong k (T : template k) (d : diag) : Prop :=
  exists o ds, run_unit_system (ops k) env0 T = Some (o, ds) /\ In d ds /\ ~ true_message (laws k) (declared T) o d.

Lemma chained_wrong k : says_wrong k (chained k) (Unresolvable "y").
Proof.
  assert (D : diags k (chained k) = Some [Undefined "z"; Unresolvable "y"]) by (destruct k; vm_compute; reflexivity).
  destruct (diags_run k _ _ D) as [o H]. exists o, [Undefined "z"; Unresolvable "y"]. split; [exact H|]. split; [right; now left|].
  intros [_ (c & c' & L1 & D1 & L2)]. set (rank := fun n : string => if String.eqb n "y" then 2 else if String.eqb n "x" then 1 else 0).
  assert (E : decls (declared (chained k)) = [DUnit (variant (some_unit k "x" None (DefExpr (EVal (nm k "z")))) None None);
    DUnit (variant (some_unit k "y" None (DefExpr (EVal (nm k "x")))) None None)]) by reflexivity.
  assert (Dr : forall n m, defined_by (declared (chained k)) n m -> rank m < rank n).
  { intros n m (x & Hx & <- & Mx). rewrite E in Hx. destruct Hx as [<-|[<-|[]]].
    - change (occurs m (EVal (nm k "z") : expr (fac magnitude) (ops k))) in Mx. inversion Mx as [f F| |]; subst. inversion F; subst. unfold rank. cbn. lia.
    - change (occurs m (EVal (nm k "x") : expr (fac magnitude) (ops k))) in Mx. inversion Mx as [f F| |]; subst. inversion F; subst. unfold rank. cbn. lia. }
  assert (Lr : forall n m, leads_to (declared (chained k)) n m -> rank m <= rank n).
  { induction 1 as [n|n m l Dn _ IH]; [lia|]. specialize (Dr n m Dn). lia. }
  specialize (Dr _ _ D1). specialize (Lr _ _ L2). lia.
Qed.
Lemma looped_wrong k : says_wrong k (looped k) (UndefinedAnnotation "A").
Proof.
  assert (D : diags k (looped k) = Some [Unresolvable "A"; UndefinedAnnotation "A"]) by (destruct k; vm_compute; reflexivity).
  destruct (diags_run k _ _ D) as [o H]. exists o, [Unresolvable "A"; UndefinedAnnotation "A"]. split; [exact H|]. split; [right; now left|].
  intros [_ N]. apply N. eexists. split; [right; now left|reflexivity].
Qed.
Lemma base_in_unit_wrong k : says_wrong k (base_in_unit k) (KindNotAllowed "foot" "meter" KBaseUnit KBaseUnit).
Proof.
  assert (D : diags k (base_in_unit k) = Some [BaseUnitForNonBase "meter" "foot"; KindNotAllowed "foot" "meter" KBaseUnit KBaseUnit]) by (destruct k; vm_compute; reflexivity).
  destruct (diags_run k _ _ D) as [o H]. exists o, [BaseUnitForNonBase "meter" "foot"; KindNotAllowed "foot" "meter" KBaseUnit KBaseUnit].
  split; [exact H|]. split; [right; now left|]. intros (x & y & _ & _ & _ & _ & _ & _ & _ & N). apply N. discriminate.
Qed.
Lemma true_annotation_wrong k : says_wrong k (true_annotation k) (ViolatedAnnotation "Angle").
Proof.
  destruct (diags_run k _ _ (true_annotation_rejected k)) as [o H]. exists o, [ViolatedAnnotation "Angle"]. split; [exact H|]. split; [now left|].
  intros (v & w & b & (x & Hx & Ax & _ & Hv & Hw) & Ne). apply Ne. destruct (true_annotation_dims k) as [D1 D2].
  pose proof (run_dims_result _ _ _ _ _ _ D1 H) as R1. pose proof (run_dims_result _ _ _ _ _ _ D2 H) as R2.
  assert (Nx : decl_name x = "radian").
  { assert (A : forall y, In y (decls (declared (true_annotation k))) -> annotation y = Some "Angle" -> decl_name y = "radian").
    { intros y Hy. unfold decls in Hy. rewrite !in_app_iff in Hy. destruct Hy as [Hy|[Hy|Hy]].
      - apply in_map_iff in Hy as (d & <- & _). discriminate.
      - apply in_map_iff in Hy as (u & <- & Hu). cbn [annotation decl_name].
        apply declared_units in Hu as (t & Ht & p & q & Hp & Hq & ->). cbn [true_annotation u_units] in Ht.
        destruct Ht as [<-|[<-|[<-|[]]]]; [discriminate|discriminate|]. intros _.
        destruct p; [destruct Hp|]. destruct q; [destruct Hq|]. reflexivity.
      - destruct Hy. }
    exact (A x Hx Ax). }
  rewrite Nx in Hw. rewrite (dim_result_functional _ (laws k) env0 _ o _ _ _ _ H Hv R1 b), (dim_result_functional _ (laws k) env0 _ o _ _ _ _ H Hw R2 b).
  unfold vec_of. cbn [sget fst snd]. destruct (String.eqb b "length"); [apply (l_zero _ (laws k))|reflexivity].
Qed.

Theorem C88_refuted : forall k,
  ~ C88_statement k /\
  says_wrong k (chained k) (Unresolvable "y") /\ says_wrong k (looped k) (UndefinedAnnotation "A") /\
  says_wrong k (base_in_unit k) (KindNotAllowed "foot" "meter" KBaseUnit KBaseUnit) /\
  says_wrong k (true_annotation k) (ViolatedAnnotation "Angle").
Proof.
  intros k. split; [|exact (conj (chained_wrong k) (conj (looped_wrong k) (conj (base_in_unit_wrong k) (true_annotation_wrong k))))].
  intros St. destruct (chained_wrong k) as (o & ds & H & Hd & N). exact (N (St env0 _ o ds _ H Hd)).
Qed.
Print Assumptions C88_refuted.

(** ** The statement suggested when a type name is missing
    ([quantity type Quantity;], [dimension type Dimension;]) is not in the grammar: put in front of any file, it
    makes the file unreadable.  The statements that work are [quantity_type Quantity;] and [dimension_type Dimension;]. *)
Definition suggested (type_name : string) : list tok :=
  if String.eqb type_name "quantity type" then [TIdent "quantity"; TIdent "type"; TIdent "Quantity"; TPunct ";"%char]
  else [TIdent "dimension"; TIdent "type"; TIdent "Dimension"; TPunct ";"%char].
Definition works (type_name : string) : list tok :=
  if String.eqb type_name "quantity type" then [TIdent "quantity_type"; TIdent "Quantity"; TPunct ";"%char]
  else [TIdent "dimension_type"; TIdent "Dimension"; TPunct ";"%char].

Lemma more_fuel {A} (p : parser A) sep n : forall m ts l, p_terminated_n n p sep ts = Some l -> n <= m -> p_terminated_n m p sep ts = Some l.
Proof.
  induction n as [|n IH]; [discriminate|]. intros [|m] ts l H Hm; [lia|]. cbn [p_terminated_n] in *. destruct ts as [|t ts]; [exact H|].
  destruct (p (t :: ts)) as [[a r]|]; [|discriminate H]. destruct r as [|t' r]; [exact H|].
  destruct (p_punct sep (t' :: r)) as [[u r']|]; [|discriminate H].
  destruct (p_terminated_n n p sep r') as [l'|] eqn:E; [|discriminate H]. rewrite (IH m r' l' E ltac:(lia)). exact H.
Qed.
Theorem C88_suggestion_refuted : forall k t file, t = "quantity type" \/ t = "dimension type" ->
  parse_system k (suggested t ++ file) = None /\
  (forall T, parse_system k file = Some T -> exists T', parse_system k (works t ++ file) = Some T' /\
     u_units T' = u_units T /\ u_dimensions T' = u_dimensions T /\ u_constants T' = u_constants T /\
     u_quantity_types T' = (if String.eqb t "quantity type" then "Quantity" :: u_quantity_types T else u_quantity_types T) /\
     u_dimension_types T' = (if String.eqb t "quantity type" then u_dimension_types T else "Dimension" :: u_dimension_types T)).
Proof.
  intros k t file Ht. split; [destruct Ht as [-> | ->]; reflexivity|]. intros T E.
  unfold parse_system in E. destruct (p_terminated (p_entry k) ";" file) as [l|] eqn:El; [|discriminate E]. injection E as <-.
  assert (R : exists e, parse_system k (works t ++ file) = Some (collect_entries k (e :: l)) /\
    e = if String.eqb t "quantity type" then EntQuantityType k "Quantity" else EntDimensionType k "Dimension").
  { eexists. split; [|reflexivity]. unfold parse_system, p_terminated in *.
    destruct Ht as [-> | ->]; cbn [works String.eqb Ascii.eqb Bool.eqb app length].
    - change (p_terminated_n (S (S (S (S (length file))))) (p_entry k) ";" (TIdent "quantity_type" :: TIdent "Quantity" :: TPunct ";" :: file))
        with (match p_terminated_n (S (S (S (length file)))) (p_entry k) ";" file with Some l => Some (EntQuantityType k "Quantity" :: l) | None => None end).
      rewrite (more_fuel _ _ _ (S (S (S (length file)))) _ _ El); [reflexivity|lia].
    - change (p_terminated_n (S (S (S (S (length file))))) (p_entry k) ";" (TIdent "dimension_type" :: TIdent "Dimension" :: TPunct ";" :: file))
        with (match p_terminated_n (S (S (S (length file)))) (p_entry k) ";" file with Some l => Some (EntDimensionType k "Dimension" :: l) | None => None end).
      rewrite (more_fuel _ _ _ (S (S (S (length file)))) _ _ El); [reflexivity|lia]. }
  destruct R as (e & R & ->). eexists. split; [exact R|]. destruct Ht as [-> | ->]; repeat split; reflexivity.
Qed.
Print Assumptions C88_suggestion_refuted.

(** The hypotheses of the positive theorems are met: a cyclic file with every name defined, and files whose
    annotations are violated or not. *)
Example C88_applies : forall k,
  (exists o ds, run_unit_system (ops k) env0 (cyclic k) = Some (o, ds) /\ In (Unresolvable "c") ds /\
     forall x m, In x (decls (declared (cyclic k))) -> mentions x m -> is_declared (declared (cyclic k)) m) /\
  (exists o ds m ms, run_unit_system (ops k) env0 (violating k) = Some (o, ds) /\ literals_ok k (violating k) /\ well_formed (declared (violating k)) /\
     (forall d, In d (u_dimensions (violating k)) -> plain_name (base_dimension_of (de_name d))) /\
     printed_by k env0 (violating k) ms /\ In m ms /\ m_text m = str "Dimension mismatch in expression.").
Proof.
  intros k. split.
  - destruct (C26_applies k) as (o & H & _ & D). exists o, [Unresolvable "a"; Unresolvable "b"; Unresolvable "c"].
    split; [exact H|]. split; [right; right; now left|exact D].
  - destruct (C87_applies k) as (o & ds & m & ms & H1 & H2 & H3 & H4 & H5 & H6). exists o, ds, m, ms.
    repeat (split; [assumption|]). split; [|auto].
    assert (B : forallb (fun d => forallb (fun c => negb (Ascii.eqb c "^") && negb (Ascii.eqb c space)) (str (base_dimension_of (de_name d)))) (u_dimensions (violating k)) = true)
      by (destruct k; vm_compute; reflexivity).
    rewrite forallb_forall in B. intros d Hd. specialize (B d Hd). rewrite forallb_forall in B.
    split; intros Hc; specialize (B _ Hc); apply andb_true_iff in B as [B1 B2]; rewrite Ascii.eqb_refl in *; discriminate.
Qed.
