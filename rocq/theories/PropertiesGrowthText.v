(** * What is printed when statements are added: C98 *)
From Coq Require Import String Ascii List Bool ZArith QArith Qcanon Lia.
From Verif Require Import MachineInt Ratio F64 Magnitude Exponent ExponentFacts SMap Snake Expression DimensionMath DimensionMathFacts Types PrefixSpec ExpansionSpec
  Resolve ResolveLoop ResolveChecks SystemSpec ResolveFacts Expansion CodegenDimension CodegenDimensionFacts CodegenLiteral ResolveEquations Setting SystemFacts ExampleSystems Parse Grammar ParseFacts ParsedSystems
  Accuracy PropertiesDimension PropertiesExponents PropertiesParse PropertiesSystem ExactFacts PropertiesExact PropertiesExtension PropertiesIndependence LocalSpec LocalFacts
  RenameSpec RenameFacts RenameAccept RenameFile PropertiesLocal PropertiesRename Storage Raw Text TextFacts CodegenLiteral Debug TextSystem PropertiesDebug
  PropertiesExchange PropertiesRenameText Serde PropertiesGrowth.
Import ListNotations.
Local Close Scope Q_scope.
Local Close Scope Qc_scope.
Local Close Scope Z_scope.
Local Open Scope string_scope.
Local Open Scope list_scope.

(** The exponents [v2] are those of [v], and zero for the base dimensions that are new. *)
Definition same_exponents (fs fs2 : list string) (v v2 : string -> Qc) : Prop :=
  (forall b, In b fs -> v2 b = v b) /\ (forall b, In b fs2 -> ~ In b fs -> v2 b = ZQc 0).

Section Facts.
Context (k : mode) (env : fenv) (f1 f2 : slist stmt) (T1 T2 : unresolved (ops k) (unit_template (ops k))) (o1 o2 : defs (ops k)).
Hypothesis W1 : wf_file f1.
Hypothesis W2 : wf_file f2.
Hypothesis Sub : incl (sl_items f1) (sl_items f2).
Hypothesis E1 : parse_system k (print_file f1) = Some T1.
Hypothesis E2 : parse_system k (print_file f2) = Some T2.
Hypothesis C1 : compiled k env T1 o1.
Hypothesis C2 : compiled k env T2 o2.

Lemma symbol_grows s v v2 : same_exponents (df_base_dimensions o1) (df_base_dimensions o2) v v2 ->
  coherent_symbol k env o1 s v -> coherent_symbol k env o2 s v2.
Proof.
  intros [Hv Hz] (u & name & Hu & Es & -> & Em & Hd).
  destruct (C75_adding_statements k env f1 f2 T1 T2 o1 o2 W1 W2 Sub E1 E2 (proj1 C1) (proj1 C2)) as (_ & Units & _).
  exists u, name. split; [now apply Units|]. split; [exact Es|]. split; [reflexivity|]. split; [exact Em|].
  intros b Hb. destruct (in_dec string_dec b (df_base_dimensions o1)) as [I|I].
  - rewrite (Hd b I). symmetry. now apply Hv.
  - rewrite (Hz b Hb I). rewrite (unit_fields k env T1 o1 u b (proj1 C1) (proj1 (proj2 C1)) Hu I). reflexivity.
Qed.
Lemma same_basis b : In b (df_base_dimensions o1) -> same_exponents (df_base_dimensions o1) (df_base_dimensions o2) (basis b) (basis b).
Proof.
  intros Hb. split; [reflexivity|]. intros c _ Hc. unfold basis. destruct (String.eqb_spec c b) as [->|_]; [contradiction|reflexivity].
Qed.
Lemma concat_filter {A} (g : string -> list A) p l : (forall x, In x l -> p x = false -> g x = []) -> concat (map g l) = concat (map g (filter p l)).
Proof.
  induction l as [|x l IH]; intros H; [reflexivity|]. cbn [map concat filter]. destruct (p x) eqn:P.
  - cbn [map concat]. f_equal. apply IH. intros y Hy. apply H. now right.
  - rewrite (H x (or_introl eq_refl) P). apply IH. intros y Hy. apply H. now right.
Qed.
End Facts.

(** What could be printed in the smaller system can be printed in the larger one (growing adds no panic). *)
Theorem C98_still_printed : forall k env f1 f2 T1 T2 o1 o2 X1 X2 v v2 value t,
  wf_file f1 -> wf_file f2 -> incl (sl_items f1) (sl_items f2) ->
  parse_system k (print_file f1) = Some T1 -> parse_system k (print_file f2) = Some T2 ->
  compiled k env T1 o1 -> compiled k env T2 o2 ->
  denotes k (df_base_dimensions o1) X1 v -> denotes k (df_base_dimensions o2) X2 v2 ->
  same_exponents (df_base_dimensions o1) (df_base_dimensions o2) v v2 ->
  debug (ops k) env (CodegenLiteral.lit k) (show k) o1 X1 value = Some (Some t) ->
  exists t2, debug (ops k) env (CodegenLiteral.lit k) (show k) o2 X2 value = Some (Some t2).
Proof.
  intros k env f1 f2 T1 T2 o1 o2 X1 X2 v v2 value t W1 W2 Sub E1 E2 C1 C2 HX1 HX2 Hv D.
  destruct (C47_exactly k env T2 o2 X2 v2 value C2 HX2) as [P2 D2].
  destruct (debug (ops k) env (CodegenLiteral.lit k) (show k) o2 X2 value) as [[t2|]|]; [eauto| |congruence].
  exfalso. destruct (proj1 P2 eq_refl) as (N & b & Hb & Nz & Nb).
  assert (I : In b (df_base_dimensions o1)).
  { destruct (in_dec string_dec b (df_base_dimensions o1)) as [I|I]; [exact I|]. destruct Nz. now apply Hv. }
  assert (K : debug (ops k) env (CodegenLiteral.lit k) (show k) o1 X1 value = Some None).
  { apply (proj1 (C47_exactly k env T1 o1 X1 v value C1 HX1)). split.
    - intros s Hs. exact (N s (symbol_grows k env f1 f2 T1 T2 o1 o2 W1 W2 Sub E1 E2 C1 C2 s v v2 Hv Hs)).
    - exists b. split; [exact I|]. split; [rewrite <- (proj1 Hv b I); exact Nz|].
      intros s Hs. exact (Nb s (symbol_grows k env f1 f2 T1 T2 o1 o2 W1 W2 Sub E1 E2 C1 C2 s _ _ (same_basis _ _ _ b I) Hs)). }
  congruence.
Qed.
Print Assumptions C98_still_printed.

(** The text is the same if the statements added give no new symbol to the dimension (of factor one), nor a second
    one to the base dimensions in it, and leave the order of the base dimensions alone. *)
Theorem C98_same_text : forall k env f1 f2 T1 T2 o1 o2 X1 X2 v v2 value t,
  wf_file f1 -> wf_file f2 -> incl (sl_items f1) (sl_items f2) ->
  parse_system k (print_file f1) = Some T1 -> parse_system k (print_file f2) = Some T2 ->
  compiled k env T1 o1 -> compiled k env T2 o2 ->
  denotes k (df_base_dimensions o1) X1 v -> denotes k (df_base_dimensions o2) X2 v2 ->
  same_exponents (df_base_dimensions o1) (df_base_dimensions o2) v v2 ->
  (forall s, coherent_symbol k env o2 s v2 -> coherent_symbol k env o1 s v) ->
  one_symbol k env o2 v2 ->
  (forall b, In b (df_base_dimensions o1) -> v b <> ZQc 0 -> one_symbol k env o2 (basis b)) ->
  filter (fun b => if in_dec string_dec b (df_base_dimensions o1) then true else false) (df_base_dimensions o2) = df_base_dimensions o1 ->
  debug (ops k) env (CodegenLiteral.lit k) (show k) o1 X1 value = Some (Some t) ->
  debug (ops k) env (CodegenLiteral.lit k) (show k) o2 X2 value = Some (Some t).
Proof.
  intros k env f1 f2 T1 T2 o1 o2 X1 X2 v v2 value t W1 W2 Sub E1 E2 C1 C2 HX1 HX2 Hv New One Ones Order D1.
  destruct (C98_still_printed k env f1 f2 T1 T2 o1 o2 X1 X2 v v2 value t W1 W2 Sub E1 E2 C1 C2 HX1 HX2 Hv D1) as [t2 D2].
  rewrite D2. do 2 f_equal.
  pose proof (symbol_grows k env f1 f2 T1 T2 o1 o2 W1 W2 Sub E1 E2 C1 C2) as Grow.
  destruct (C46_text k env T1 o1 X1 v value t C1 HX1 D1) as [(s & Hs & ->)|(N & sym & Hsym & ->)];
    destruct (C46_text k env T2 o2 X2 v2 value t2 C2 HX2 D2) as [(s2 & Hs2 & ->)|(N2 & sym2 & Hsym2 & ->)].
  - now rewrite (One s2 s Hs2 (Grow s v v2 Hv Hs)).
  - destruct (N2 s (Grow s v v2 Hv Hs)).
  - destruct (N s2 (New s2 Hs2)).
  - f_equal. destruct Hv as [Hv Hz].
    assert (Old : concat (map (power_text sym2 v2) (df_base_dimensions o2)) =
      concat (map (power_text sym2 v2) (filter (fun b => if in_dec string_dec b (df_base_dimensions o1) then true else false) (df_base_dimensions o2)))).
    { apply (concat_filter (power_text sym2 v2)). intros b Hb.
      destruct (in_dec string_dec b (df_base_dimensions o1)) as [I|I]; [discriminate|]. intros _.
      unfold power_text. rewrite (Hz b Hb I). destruct (Qc_eq_dec (ZQc 0) (ZQc 0)) as [_|F]; [reflexivity|now destruct F]. }
    etransitivity; [exact Old|].
    rewrite Order. f_equal. apply map_ext_in. intros b Hb. unfold power_text. rewrite (Hv b Hb).
      destruct (Qc_eq_dec (v b) (ZQc 0)) as [_|Nz]; [reflexivity|].
      assert (I2 : In b (df_base_dimensions o2)). { rewrite <- Order in Hb. now apply filter_In in Hb as [Hb _]. }
      assert (Es : sym2 b = sym b).
      { apply (Ones b Hb Nz); [apply Hsym2; [exact I2|now rewrite (Hv b Hb)]|].
        exact (Grow _ _ _ (same_basis _ o1 o2 b Hb) (Hsym b Hb Nz)). }
      now rewrite Es.
Qed.
Print Assumptions C98_same_text.

(** ** [field_file], then [Time], [second] and one more area: ["2.5 m^-1"] in both *)
Definition printing_file : slist stmt := {| sl_trailing := false; sl_items :=
  SDimension [] "Time" None :: SUnit [UBase "Time"; USymbol "s"] "second" None None :: SUnit [USymbol "ca"] "acre2" (Some "Area") (Some acre_rhs) :: sl_items field_file |}.
(** ... and with a symbol for square meters. *)
Definition square_file : slist stmt := {| sl_trailing := false; sl_items :=
  SUnit [USymbol "qm"] "square_meter" None (Some (SxBin (SxOne (SfVal (AtIdent "meter"))) ByStar (SfVal (AtIdent "meter")))) :: sl_items field_file |}.
Definition prints_check (f : slist stmt) (X : dimval (ops IntegerExponents)) (text : list ascii) : bool :=
  match parse_system IntegerExponents (print_file f) with
  | Some T => match run_unit_system (ops IntegerExponents) env0 T with
    | Some (o, []) =>
        (if list_eq_dec string_dec (df_base_dimensions o) (map fst X) then true else false)
        && struct_declaration_ok (df_base_dimensions o)
        && (match debug (ops IntegerExponents) env0 (CodegenLiteral.lit IntegerExponents) (show IntegerExponents) o X (str "2.5") with
            | Some (Some t) => text_eqb t text | _ => false end)
    | _ => false end
  | None => false
  end.
Definition only_m_s (f : slist stmt) : bool :=
  match parse_system IntegerExponents (print_file f) with
  | Some T => match run_unit_system (ops IntegerExponents) env0 T with
    | Some (o, []) => forallb (fun u : unit_def (ops IntegerExponents) => negb (Magnitude.is_one env0 (un_mag u)) || match un_symbol u with
        | Some s => match (un_dims u : list (string * Z)) with
            | [(b, 1%Z)] => String.eqb b "length" && String.eqb s "m" || String.eqb b "time" && String.eqb s "s" | _ => false end
        | None => true end) (df_units o)
    | _ => false end
  | None => false
  end.
Lemma prints_ok f X text : prints_check f X text = true -> exists T o,
  parse_system IntegerExponents (print_file f) = Some T /\ compiled IntegerExponents env0 T o /\ df_base_dimensions o = map fst X /\
  debug (ops IntegerExponents) env0 (CodegenLiteral.lit IntegerExponents) (show IntegerExponents) o X (str "2.5") = Some (Some text).
Proof.
  unfold prints_check. destruct (parse_system IntegerExponents (print_file f)) as [T|] eqn:E; [|discriminate].
  destruct (run_unit_system (ops IntegerExponents) env0 T) as [[o [|]]|] eqn:R; try discriminate.
  intros H. apply andb_true_iff in H as [H H3]. apply andb_true_iff in H as [H1 H2].
  exists T, o. split; [reflexivity|]. split; [|split].
  - split; [exact R|]. split; [exact (integer_literals_ok _ T E)|]. split; [exact (parsed_i64_exponents _ _ T E)|exact H2].
  - destruct (list_eq_dec string_dec (df_base_dimensions o) (map fst X)) as [Q|]; [exact Q|discriminate H1].
  - destruct (debug _ _ _ _ o X _) as [[t|]|]; try discriminate H3. apply text_eqb_eq in H3. now subst.
Qed.
Lemma only_m_s_ok f T o : only_m_s f = true -> parse_system IntegerExponents (print_file f) = Some T -> run_unit_system (ops IntegerExponents) env0 T = Some (o, []) ->
  forall s v, In "length" (df_base_dimensions o) -> In "time" (df_base_dimensions o) -> coherent_symbol IntegerExponents env0 o s v ->
  s = str "m" /\ v "length" = ZQc 1 \/ s = str "s" /\ v "time" = ZQc 1.
Proof.
  unfold only_m_s. intros H E R. rewrite E, R in H. intros s v I I' (u & name & Hu & Es & -> & Em & Hd).
  rewrite forallb_forall in H. specialize (H u Hu). rewrite Es in H. apply is_one_iff in Em. rewrite Em in H. cbn [negb orb] in H.
  pose proof (Hd "length" I) as Hl. pose proof (Hd "time" I') as Ht. clear Hd. unfold exponent_in in Hl, Ht.
  destruct (un_dims u) as [|[b [|[| |]|]] [|]]; try discriminate H.
  apply orb_true_iff in H as [H|H]; apply andb_true_iff in H as [H1 H2]; apply String.eqb_eq in H1, H2; subst b name; [left|right]; (split; [reflexivity|]).
  - now rewrite <- Hl.
  - now rewrite <- Ht.
Qed.

Example C98_applies : exists T1 T2 o1 o2 X1 X2 v v2,
  wf_file field_file /\ wf_file printing_file /\ incl (sl_items field_file) (sl_items printing_file) /\
  parse_system IntegerExponents (print_file field_file) = Some T1 /\ parse_system IntegerExponents (print_file printing_file) = Some T2 /\
  compiled IntegerExponents env0 T1 o1 /\ compiled IntegerExponents env0 T2 o2 /\
  denotes IntegerExponents (df_base_dimensions o1) X1 v /\ denotes IntegerExponents (df_base_dimensions o2) X2 v2 /\
  same_exponents (df_base_dimensions o1) (df_base_dimensions o2) v v2 /\
  (forall s, coherent_symbol IntegerExponents env0 o2 s v2 -> coherent_symbol IntegerExponents env0 o1 s v) /\
  one_symbol IntegerExponents env0 o2 v2 /\
  (forall b, In b (df_base_dimensions o1) -> v b <> ZQc 0 -> one_symbol IntegerExponents env0 o2 (basis b)) /\
  df_base_dimensions o1 = ["length"] /\ df_base_dimensions o2 = ["time"; "length"] /\
  filter (fun b => if in_dec string_dec b (df_base_dimensions o1) then true else false) (df_base_dimensions o2) = df_base_dimensions o1 /\
  debug (ops IntegerExponents) env0 (CodegenLiteral.lit IntegerExponents) (show IntegerExponents) o1 X1 (str "2.5") = Some (Some (str "2.5 m^-1")) /\
  debug (ops IntegerExponents) env0 (CodegenLiteral.lit IntegerExponents) (show IntegerExponents) o2 X2 (str "2.5") = Some (Some (str "2.5 m^-1")).
Proof.
  destruct (prints_ok field_file [("length", (-1)%Z)] (str "2.5 m^-1") ltac:(vm_compute; reflexivity)) as (T1 & o1 & E1 & C1 & F1 & D1).
  destruct (prints_ok printing_file [("time", 0%Z); ("length", (-1)%Z)] (str "2.5 m^-1") ltac:(vm_compute; reflexivity)) as (T2 & o2 & E2 & C2 & F2 & D2).
  destruct C83_applies as (_ & _ & _ & _ & W & _).
  assert (Wp : wf_file printing_file).
  { split; [discriminate|]. cbn [sl_items printing_file field_file]. unfold wf_stmt, wf_ident.
    repeat (first [apply accept_name; reflexivity | apply Forall_nil | constructor | discriminate | reflexivity]). }
  cbn [map fst] in F1, F2.
  assert (I2 : In "length" (df_base_dimensions o2)) by (rewrite F2; right; now left).
  assert (I3 : In "time" (df_base_dimensions o2)) by (rewrite F2; now left).
  pose proof (fun s v => only_m_s_ok printing_file T2 o2 ltac:(vm_compute; reflexivity) E2 (proj1 C2) s v I2 I3) as Only.
  pose (v := fun b : ident => if String.eqb b "length" then ZQc (-1) else ZQc 0).
  exists T1, T2, o1, o2, [("length", (-1)%Z)], [("time", 0%Z); ("length", (-1)%Z)], v, v.
  split; [exact W|]. split; [exact Wp|]. split; [intros x Hx; now do 3 right|].
  split; [exact E1|]. split; [exact E2|]. split; [exact C1|]. split; [exact C2|].
  split. { rewrite F1. split; [reflexivity|]. intros y e [K|[]]; injection K as <- <-; (split; [exact I|reflexivity]). }
  split. { rewrite F2. split; [reflexivity|]. intros y e [K|[K|[]]]; injection K as <- <-; (split; [exact I|reflexivity]). }
  split. { rewrite F1, F2. split; [reflexivity|]. intros b [<-|[<-|[]]] N; [reflexivity|]. destruct N. now left. }
  assert (None2 : forall s, ~ coherent_symbol IntegerExponents env0 o2 s v).
  { intros s Hs. destruct (Only s v Hs) as [[_ K]|[_ K]]; discriminate K. }
  split. { intros s Hs. destruct (None2 s Hs). }
  split. { intros s t Hs Ht. destruct (None2 s Hs). }
  split.
  { intros b Hb _ s t Hs Ht. rewrite F1 in Hb. destruct Hb as [<-|[]].
    destruct (Only s _ Hs) as [[-> _]|[_ K]]; [|discriminate K]. destruct (Only t _ Ht) as [[-> _]|[_ K]]; [reflexivity|discriminate K]. }
  split; [exact F1|]. split; [exact F2|]. split; [rewrite F1, F2; reflexivity|]. split; [exact D1|exact D2].
Qed.
(** A new symbol for the dimension changes the text. *)
Example C98_new_symbol :
  prints_check field_file [("length", 2%Z)] (str "2.5 m^2") = true /\ prints_check square_file [("length", 2%Z)] (str "2.5 qm") = true.
Proof. split; vm_compute; reflexivity. Qed.
