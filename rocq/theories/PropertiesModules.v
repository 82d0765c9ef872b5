(** * The names of the generated code: C70 *)
From Coq Require Import String Ascii List Bool ZArith Lia Sorted.
From Verif Require Import MachineInt Ratio F64 Magnitude Exponent ExponentFacts SMap Expression
  DimensionMath DimensionMathFacts Types PrefixSpec ExpansionSpec Snake Resolve ResolveLoop ResolveChecks
  SystemSpec ResolveFacts ResolveAccept ResolveEquations ResolveReports Expansion Setting SystemFacts
  ExampleSystems PropertiesSystem CodegenDimension CodegenDimensionFacts PropertiesDimension
  Parse Grammar ParseFacts ParsedSystems FastCheck Sources SiTree PropertiesSI NamesSpec CodegenModules ModulesFacts.
Import ListNotations.
Local Close Scope Z_scope.
Local Open Scope string_scope.
Local Open Scope list_scope.

(** ** What is written in a file is a name *)
Definition names_written {k} (T : template k) : Prop :=
  (forall d, In d (u_dimensions T) -> is_name (de_name d)) /\
  (forall c, In c (u_constants T) -> is_name (ce_name c)) /\
  (forall t, In t (u_units T) -> is_name (ut_name t) /\ forall a, In a (ut_aliases t) -> is_name a).

Lemma aliases_are_names l a : Forall wf_uattr l -> In a (alias_names l) -> is_name a.
Proof.
  intros W H. unfold alias_names in H. apply in_flat_map in H as (x & Hx & H).
  rewrite Forall_forall in W. specialize (W x Hx). destruct x; try easy.
  cbn [wf_uattr] in W. destruct W as [_ W]. rewrite Forall_forall in W. exact (W a H).
Qed.

Lemma source_names k ts (T : template k) : parse_system k ts = Some T -> names_written T.
Proof.
  intros H. destruct (parse_sound_file _ _ _ H) as (f & W & <-). rewrite parse_print in H by exact W.
  unfold mean_file in H. destruct (collect (mean_stmt k) (sl_items f)) as [es|] eqn:C; [|discriminate].
  assert (W' : forall s, In s (sl_items f) -> wf_stmt s) by (apply Forall_forall, W).
  inversion H; subst; clear H. split; [|split]; cbn [u_units u_constants u_dimensions].
  - intros d Hd. apply in_flat_map in Hd as (en & Hen & Hd). destruct en; try easy. destruct Hd as [->|[]].
    destruct (collect_in _ _ _ _ C Hen) as (s & Hs & Ms). specialize (W' s Hs).
    destruct s as [| |l i [x|]|l i ann rhs|l i ann x]; cbn [mean_stmt] in Ms; try discriminate.
    + destruct (mean_dimension_rhs k x); [|discriminate]. inversion Ms; subst. exact (proj1 (proj2 W')).
    + inversion Ms; subst. exact (proj1 (proj2 W')).
    + destruct (mean_unit k l i ann rhs); discriminate.
    + destruct (mean_unit_rhs k x); discriminate.
  - intros d Hd. apply in_flat_map in Hd as (en & Hen & Hd). destruct en; try easy. destruct Hd as [->|[]].
    destruct (collect_in _ _ _ _ C Hen) as (s & Hs & Ms). specialize (W' s Hs).
    destruct s as [| |l i [x|]|l i ann rhs|l i ann x]; cbn [mean_stmt] in Ms; try discriminate.
    + destruct (mean_dimension_rhs k x); discriminate.
    + destruct (mean_unit k l i ann rhs); discriminate.
    + destruct (mean_unit_rhs k x); [|discriminate]. inversion Ms; subst. exact (proj1 (proj2 W')).
  - intros d Hd. apply in_flat_map in Hd as (en & Hen & Hd). destruct en; try easy. destruct Hd as [->|[]].
    destruct (collect_in _ _ _ _ C Hen) as (s & Hs & Ms). specialize (W' s Hs).
    destruct s as [| |l i [x|]|l i ann rhs|l i ann x]; cbn [mean_stmt] in Ms; try discriminate.
    + destruct (mean_dimension_rhs k x); discriminate.
    + destruct (mean_unit k l i ann rhs) as [u|] eqn:Mu; [|discriminate].
      assert (Eu : u = d) by congruence. clear Ms. subst u. unfold mean_unit in Mu.
      destruct (mean_unit_definition k (bases_of l) rhs); [|discriminate].
      destruct (at_most_one (symbols_of l)); [|discriminate]. destruct (at_most_one (metrics_of l)); [|discriminate].
      assert (E : ut_name d = i /\ ut_aliases d = alias_names l) by (split; injection Mu as <-; reflexivity).
      destruct E as [-> ->]. destruct W' as (Wl & Wi & _). split; [exact Wi|]. intros a Ha. exact (aliases_are_names l a Wl Ha).
    + destruct (mean_unit_rhs k x); discriminate.
Qed.

(** No keyword starts with the name of a prefix. *)
Lemma prefixed_name p n : is_name (si_name p ++ n).
Proof.
  unfold is_name. intros H.
  assert (A : forall s m, String.prefix s (s ++ m) = true).
  { induction s as [|c s IH]; intros m; [now destruct m|]. cbn. destruct (ascii_dec c c); [apply IH|congruence]. }
  assert (B : forallb (fun w => negb (String.prefix (si_name p) w)) rust_keywords = true) by (destruct p; reflexivity).
  rewrite forallb_forall in B. specialize (B _ H). now rewrite A in B.
Qed.

Lemma variants_are_names k (T : template k) t p a : names_written T -> In t (u_units T) -> chosen (ut_aliases t) a ->
  is_name (variant_name t p a).
Proof.
  intros (_ & _ & N) Ht Ha. unfold variant_name. destruct p as [p|]; [apply prefixed_name|].
  destruct (N t Ht) as [N1 N2]. destruct a as [a|]; [exact (N2 a Ha)|exact N1].
Qed.

(** ** C70: the statement *)

(** "When the macro accepts a file, the names in the code it generates resolve: no name is defined
    twice, all names used are found and mean the intended thing, no identifier is a keyword." *)
Definition C70_statement : Prop := forall k env ft ts T o,
  parse_system k ts = Some T -> run_unit_system (ops k) env T = Some (o, []) ->
  names_valid entity spaces (generated ft o).

(** The naming rules that the documentation does not mention. *)
Definition is_base {k} (d : dimension_entry (ops k)) : Prop := de_rhs d = DefBase tt.
Record usable {k} (T : template k) : Prop := {
  us_quantity : u_quantity_types T = ["Quantity"];
  us_dimension : u_dimension_types T = ["Dimension"];
  us_dimensions : forall d, In d (u_dimensions T) -> ~ In (de_name d) ["Dimension"; "Quantity"; "Exponent"];
  us_units : forall t, In t (u_units T) -> ut_name t <> "Unit" /\ ~ In "Unit" (ut_aliases t);
  us_constants : forall c, In c (u_constants T) -> ce_name c <> "Unit";
  us_fields : forall d, In d (u_dimensions T) -> is_base d -> is_name (snake_spec true (de_name d));
  us_distinct : forall d e, In d (u_dimensions T) -> In e (u_dimensions T) -> is_base d -> is_base e ->
    snake_spec true (de_name d) = snake_spec true (de_name e) -> de_name d = de_name e }.

Lemma slt_nodup l : StronglySorted slt l -> NoDup l.
Proof.
  induction 1 as [|a l _ IH F]; constructor; [|exact IH].
  intros I. rewrite Forall_forall in F. specialize (F a I). unfold slt in F. revert F. apply slt_irrefl.
Qed.

Lemma nodup_map_on {A B C} (f : A -> B) (g : A -> C) l : NoDup (map g l) ->
  (NoDup (map f l) <-> forall x y, In x l -> In y l -> f x = f y -> g x = g y).
Proof.
  induction l as [|a l IH]; cbn [map]; intros N.
  - split; [intros _ x y []|intros _; constructor].
  - inversion N as [|? ? Na Nl]; subst. specialize (IH Nl). split.
    + intros Nf. inversion Nf as [|? ? Fa Fl]; subst. intros x y [<-|Hx] [<-|Hy] E; [reflexivity| | |now apply IH].
      * exfalso. apply Fa. rewrite E. now apply in_map.
      * exfalso. apply Fa. rewrite <- E. now apply in_map.
    + intros H. constructor.
      * intros I. apply in_map_iff in I as (b & E & Hb). apply Na.
        rewrite <- (H b a (or_intror Hb) (or_introl eq_refl) E). now apply in_map.
      * apply IH. intros x y Hx Hy. apply H; now right.
Qed.

Lemma is_base_iff k (d : dimension_entry (ops k)) : is_base_dimension d = true <-> is_base d.
Proof. unfold is_base, is_base_dimension. destruct (de_rhs d) as [[]|]; split; easy. Qed.

(** What holds: an accepted file generates code with valid names exactly if it keeps the naming
    rules above. *)
Theorem C70_names_partial : forall k env ft ts (T : template k) o,
  parse_system k ts = Some T -> run_unit_system (ops k) env T = Some (o, []) ->
  (names_valid entity spaces (generated ft o) <-> usable T).
Proof.
  intros k env ft ts T o HP R. pose proof (source_names k ts T HP) as N.
  destruct (C21_generated_names k env T o R) as (GU & GD & GC & Tq & Td).
  destruct (C36_sorted k env T o [] R) as (Sd & Su & Sc). apply slt_nodup in Sd, Su, Sc.
  destruct (C59_collision_does_not_compile_partial k env T o [] R) as [Eb _].
  assert (Un : NoDup (map de_name (filter is_base_dimension (u_dimensions T)))).
  { destruct (accepted_all (ops k) (laws k) env _ o (generated_ok_expand _ T) R) as (W & _).
    pose proof (wf_names _ _ W) as Nn. unfold decls in Nn. rewrite map_app, map_map in Nn.
    apply nodup_app_iff in Nn as (Nn & _). cbn [decl_name expand_templates u_dimensions] in Nn.
    revert Nn. clear. induction (u_dimensions T) as [|d l IH]; cbn [map filter]; intros H; [constructor|].
    inversion H; subst. destruct (is_base_dimension d); [|auto]. constructor; [|auto].
    intros I. apply in_map_iff in I as (e & E & He). apply filter_In in He as [He _].
    match goal with H1 : ~ In _ _ |- _ => apply H1 end. rewrite <- E. now apply (in_map de_name). }
  assert (ED : forall n, In n (map d_name (df_dimensions o)) <-> exists d, In d (u_dimensions T) /\ de_name d = n).
  { intros n. rewrite <- GD, in_map_iff. split; intros (x & A & B); eauto. }
  assert (EC : forall n, In n (map c_name (df_constants o)) <-> exists d, In d (u_constants T) /\ ce_name d = n).
  { intros n. rewrite <- GC, in_map_iff. split; intros (x & A & B); eauto. }
  assert (EU : forall n, In n (map un_name (df_units o)) <-> exists t p a, In t (u_units T) /\
     chosen (ut_prefixes t) p /\ chosen (ut_aliases t) a /\ n = variant_name t p a).
  { intros n. rewrite <- GU, in_map_iff. split; intros (x & A & B); eauto. }
  assert (EF : forall n, In n (df_base_dimensions o) <-> exists d, In d (u_dimensions T) /\ is_base d /\ snake_spec true (de_name d) = n).
  { intros n. rewrite Eb, in_map_iff. unfold base_dimension_of. split.
    - intros (d & E & Hd). apply filter_In in Hd as [Hd B]. exists d. rewrite <- C58_field_name. rewrite <- is_base_iff. auto.
    - intros (d & Hd & B & E). exists d. rewrite C58_field_name. rewrite filter_In, is_base_iff. auto. }
  rewrite names_iff. unfold gen_ok. split.
  - intros (Ed & Eq & (_ & Hd) & (_ & Hu) & (_ & Hc) & Hf & Hk). constructor.
    + now rewrite Tq, Eq.
    + now rewrite Td, Ed.
    + intros d I J. apply (Hd _ J), ED. eauto.
    + intros t Ht. split.
      * intros E. apply Hu, EU. exists t, None, None. cbn [chosen variant_name]. auto.
      * intros E. apply Hu, EU. exists t, None, (Some "Unit"). cbn [chosen variant_name]. auto.
    + intros c I E. apply Hc, EC. eauto.
    + intros d I B. apply Hk. rewrite !in_app_iff. right. right. right. apply EF. eauto.
    + intros d e Id Ie Bd Be E. rewrite Eb in Hf. pose proof (proj1 (nodup_map_on (fun d => base_dimension_of (de_name d)) de_name _ Un) Hf) as Hf'.
      apply (Hf' d e); [apply filter_In; rewrite is_base_iff; auto|apply filter_In; rewrite is_base_iff; auto|].
      unfold base_dimension_of. now rewrite !C58_field_name.
  - intros [Uq Ud Udim Uu Uc Uf Us]. split; [congruence|]. split; [congruence|].
    split; [split; [exact Sd|]|split; [split; [exact Su|]|split; [split; [exact Sc|]|split]]].
    + intros n J I. apply ED in I as (d & Hd & <-). exact (Udim d Hd J).
    + intros I. apply EU in I as (t & p & a & Ht & Hp & Ha & E). unfold variant_name in E.
      destruct p as [p|]; [destruct p; discriminate E|]. destruct (Uu t Ht) as [U1 U2].
      destruct a as [a|]; cbn [append chosen] in *; [|now apply U1]. apply U2. rewrite E. exact Ha.
    + intros I. apply EC in I as (c & H & E). exact (Uc c H E).
    + rewrite Eb. apply (proj2 (nodup_map_on (fun d => base_dimension_of (de_name d)) de_name _ Un)). intros d e Hd He E.
      apply filter_In in Hd as [Hd Bd], He as [He Be]. rewrite is_base_iff in Bd, Be.
      apply Us; auto. unfold base_dimension_of in E. now rewrite !C58_field_name in E.
    + intros n. rewrite !in_app_iff. intros [I|[I|[I|I]]].
      * apply ED in I as (d & Hd & <-). now apply N.
      * apply EU in I as (t & p & a & Ht & _ & Ha & ->). exact (variants_are_names k T t p a N Ht Ha).
      * apply EC in I as (d & Hd & <-). now apply N.
      * apply EF in I as (d & Hd & B & <-). now apply Uf.
Qed.
Print Assumptions C70_names_partial.

(** ** Accepted files, by computation *)
Definition mem (n : string) (l : list string) : bool := existsb (String.eqb n) l.
Lemma mem_false n l : mem n l = false <-> ~ In n l.
Proof.
  unfold mem. split.
  - intros H I. assert (K : existsb (String.eqb n) l = true); [|congruence].
    apply existsb_exists. exists n. split; [exact I|apply String.eqb_refl].
  - intros H. destruct (existsb (String.eqb n) l) eqn:E; [|reflexivity].
    apply existsb_exists in E as (m & Hm & E). apply String.eqb_eq in E as ->. tauto.
Qed.
Definition usableb {k} (T : template k) : bool :=
  match u_quantity_types T, u_dimension_types T with
  | [q], [d] => String.eqb q "Quantity" && String.eqb d "Dimension"
  | _, _ => false
  end
  && forallb (fun d => negb (mem (de_name d) ["Dimension"; "Quantity"; "Exponent"])) (u_dimensions T)
  && forallb (fun t => negb (String.eqb (ut_name t) "Unit") && negb (mem "Unit" (ut_aliases t))) (u_units T)
  && forallb (fun c => negb (String.eqb (ce_name c) "Unit")) (u_constants T)
  && forallb (fun d => accept_as_ident (snake_spec true (de_name d))) (filter is_base_dimension (u_dimensions T))
  && nodupb (map (fun d => snake_spec true (de_name d)) (filter is_base_dimension (u_dimensions T))).

Lemma nodup_map_eq {A B} (f : A -> B) l x y : NoDup (map f l) -> In x l -> In y l -> f x = f y -> x = y.
Proof.
  induction l as [|a l IH]; cbn [map]; intros N; [intros []|]. inversion N as [|? ? Na Nl]; subst.
  intros [<-|Hx] [<-|Hy] E; [reflexivity| | |now apply IH].
  - exfalso. apply Na. rewrite E. now apply in_map.
  - exfalso. apply Na. rewrite <- E. now apply in_map.
Qed.
Lemma usableb_ok k (T : template k) : usableb T = true -> usable T.
Proof.
  unfold usableb. rewrite !andb_true_iff. intros (((((H1 & H2) & H3) & H4) & H5) & H6).
  destruct (u_quantity_types T) as [|q [|]] eqn:Eq; try discriminate H1.
  destruct (u_dimension_types T) as [|d [|]] eqn:Ed; try discriminate H1.
  apply andb_true_iff in H1 as [Q D]. apply String.eqb_eq in Q as ->, D as ->.
  rewrite forallb_forall in H2, H3, H4, H5. apply nodupb_iff in H6. constructor; auto.
  - intros x Hx. apply mem_false. apply negb_true_iff. exact (H2 x Hx).
  - intros t Ht. specialize (H3 t Ht). apply andb_true_iff in H3 as [A B].
    rewrite negb_true_iff in A, B. rewrite mem_false in B. split; [|exact B]. now apply String.eqb_neq.
  - intros c Hc. apply String.eqb_neq. apply negb_true_iff. exact (H4 c Hc).
  - intros x Hx B. apply accept_name. apply H5. apply filter_In. rewrite is_base_iff. auto.
  - intros x y Hx Hy Bx By E. f_equal.
    apply (nodup_map_eq _ _ x y H6); [apply filter_In; rewrite is_base_iff; auto| |exact E].
    apply filter_In. rewrite is_base_iff. auto.
Qed.

Lemma accepted_file k ts (f : template k -> bool) :
  parsed_check k ts = true -> (match parse_system k ts with Some T => f T | None => false end) = true ->
  exists T, parse_system k ts = Some T /\ f T = true /\
    forall env, exists o, run_unit_system (ops k) env T = Some (o, []).
Proof.
  intros C F. destruct (parse_system k ts) as [T|] eqn:E; [|discriminate F].
  exists T. split; [reflexivity|]. split; [exact F|]. intros env.
  rewrite (parsed_check_some k _ T E) in C. unfold fast_check in C. cbv zeta in C.
  destruct (checks_sound (ops k) (laws k) env _ _ C (generated_ok_expand (ops k) T)) as (o & R & _).
  exists o. exact R.
Qed.

(** The file [quantity_type q; dimension_type d; dimension l; #[base(l)] #[symbol(s)] unit u;]. *)
Definition small (q d l u : ident) : list tok := print_file {| sl_trailing := true; sl_items :=
  [SQuantityType [] q; SDimensionType [] d; SDimension [] l None;
   SUnit [UBase l; USymbol "s"] u None None] |}.

Lemma small_accepted k q d l u (f : template k -> bool) :
  parsed_check k (small q d l u) && match parse_system k (small q d l u) with Some T => f T | None => false end = true ->
  exists T, parse_system k (small q d l u) = Some T /\ f T = true /\
    forall env, exists o, run_unit_system (ops k) env T = Some (o, []).
Proof. intros H. apply andb_true_iff in H as [A B]. now apply accepted_file. Qed.

Definition has_dimension {k} (n : string) (T : template k) : bool :=
  existsb (fun d => is_base_dimension d && String.eqb (de_name d) n) (u_dimensions T).
Lemma has_dimension_ok k n (T : template k) : has_dimension n T = true ->
  exists d, In d (u_dimensions T) /\ is_base d /\ de_name d = n.
Proof.
  intros H. apply existsb_exists in H as (d & Hd & H). apply andb_true_iff in H as [A B].
  exists d. rewrite <- is_base_iff. apply String.eqb_eq in B. auto.
Qed.

(** Five files that the macro accepts without a diagnostic but whose generated code does not compile,
    in both builds, on every platform, with every combination of Cargo features: another name for the
    quantity type, another name for the dimension type, a base dimension whose field is the keyword
    [type], a dimension called [Exponent], a unit called [Unit]. *)
Definition bad_files : list (list tok) :=
  [small "MyQuantity" "Dimension" "Length" "meter"; small "Quantity" "MyDimension" "Length" "meter";
   small "Quantity" "Dimension" "Type" "meter"; small "Quantity" "Dimension" "Exponent" "meter";
   small "Quantity" "Dimension" "Length" "Unit"].

Theorem C70_undocumented_rules_refuted : forall k env ft ts, In ts bad_files ->
  exists (T : template k) o, parse_system k ts = Some T /\ run_unit_system (ops k) env T = Some (o, []) /\
    ~ names_valid entity spaces (generated ft o).
Proof.
  intros k env ft ts I.
  assert (K : exists T : template k, parse_system k ts = Some T /\ ~ usable T /\
     forall env, exists o, run_unit_system (ops k) env T = Some (o, [])).
  { destruct I as [<-|[<-|[<-|[<-|[<-|[]]]]]].
    - destruct (small_accepted k "MyQuantity" "Dimension" "Length" "meter"
        (fun T => negb (mem "Quantity" (u_quantity_types T))) ltac:(destruct k; vm_cast_no_check (eq_refl true))) as (T & E & F & R).
      exists T. split; [exact E|]. split; [|exact R]. intros U. apply negb_true_iff, mem_false in F. apply F.
      rewrite (us_quantity _ U). now left.
    - destruct (small_accepted k "Quantity" "MyDimension" "Length" "meter"
        (fun T => negb (mem "Dimension" (u_dimension_types T))) ltac:(destruct k; vm_cast_no_check (eq_refl true))) as (T & E & F & R).
      exists T. split; [exact E|]. split; [|exact R]. intros U. apply negb_true_iff, mem_false in F. apply F.
      rewrite (us_dimension _ U). now left.
    - destruct (small_accepted k "Quantity" "Dimension" "Type" "meter" (has_dimension "Type")
        ltac:(destruct k; vm_cast_no_check (eq_refl true))) as (T & E & F & R).
      exists T. split; [exact E|]. split; [|exact R]. intros U. apply has_dimension_ok in F as (d & Hd & B & En).
      pose proof (us_fields _ U d Hd B) as H. rewrite En in H. apply accept_name in H. discriminate H.
    - destruct (small_accepted k "Quantity" "Dimension" "Exponent" "meter" (has_dimension "Exponent")
        ltac:(destruct k; vm_cast_no_check (eq_refl true))) as (T & E & F & R).
      exists T. split; [exact E|]. split; [|exact R]. intros U. apply has_dimension_ok in F as (d & Hd & B & En).
      apply (us_dimensions _ U d Hd). rewrite En. cbn. auto.
    - destruct (small_accepted k "Quantity" "Dimension" "Length" "Unit"
        (fun T => existsb (fun t => String.eqb (ut_name t) "Unit") (u_units T))
        ltac:(destruct k; vm_cast_no_check (eq_refl true))) as (T & E & F & R).
      exists T. split; [exact E|]. split; [|exact R]. intros U. apply existsb_exists in F as (t & Ht & F).
      apply String.eqb_eq in F. exact (proj1 (us_units _ U t Ht) F). }
  destruct K as (T & E & U & R). destruct (R env) as (o & Ro). exists T, o.
  split; [exact E|]. split; [exact Ro|]. intros V. apply U. exact (proj1 (C70_names_partial k env ft ts T o E Ro) V).
Qed.
Print Assumptions C70_undocumented_rules_refuted.

Theorem C70_refuted : ~ C70_statement.
Proof.
  intros H.
  destruct (C70_undocumented_rules_refuted IntegerExponents env0
    {| g_libm := false; g_vectors := false; g_serde := false; g_rand := false |} _ (or_introl eq_refl)) as (T & o & E & R & N).
  exact (N (H _ _ _ _ _ _ E R)).
Qed.
Print Assumptions C70_refuted.

(** The SI system bundled with the crate generates valid names, in both builds, with all features. *)
Lemma si_usable_check k :
  match parse_system k si_source with Some T => usableb T | None => false end = true.
Proof. destruct k; vm_cast_no_check (eq_refl true). Qed.
Theorem C70_si_names : forall k env ft, exists T o,
  parse_system k si_source = Some T /\ run_unit_system (ops k) env T = Some (o, []) /\
  names_valid entity spaces (generated ft o).
Proof.
  intros k env ft. destruct (accepted_file k si_source usableb (si_checks k) (si_usable_check k)) as (T & E & F & R).
  destruct (R env) as (o & Ro). exists T, o. split; [exact E|]. split; [exact Ro|].
  apply (C70_names_partial k env ft si_source T o E Ro), usableb_ok, F.
Qed.
Print Assumptions C70_si_names.

Example C70_applies : forall k env ft, exists T o,
  parse_system k (small "Quantity" "Dimension" "Length" "meter") = Some T /\
  run_unit_system (ops k) env T = Some (o, []) /\ usable T /\ names_valid entity spaces (generated ft o).
Proof.
  intros k env ft. destruct (small_accepted k "Quantity" "Dimension" "Length" "meter" usableb
    ltac:(destruct k; vm_cast_no_check (eq_refl true))) as (T & E & F & R).
  destruct (R env) as (o & Ro). exists T, o. apply usableb_ok in F. split; [exact E|]. split; [exact Ro|].
  split; [exact F|]. now apply (C70_names_partial k env ft _ T o E Ro).
Qed.
