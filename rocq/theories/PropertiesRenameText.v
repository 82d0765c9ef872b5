(** * What is printed under other names: C94 *)
From Coq Require Import String Ascii List Bool ZArith QArith Qcanon Lia.
From Verif Require Import MachineInt Ratio F64 Magnitude Exponent ExponentFacts SMap Snake Expression DimensionMath DimensionMathFacts Types PrefixSpec ExpansionSpec
  Resolve ResolveLoop ResolveChecks SystemSpec ResolveFacts Expansion CodegenDimension CodegenDimensionFacts CodegenLiteral ResolveEquations Setting SystemFacts ExampleSystems Parse Grammar ParseFacts ParsedSystems
  Accuracy PropertiesDimension PropertiesExponents PropertiesParse PropertiesSystem ExactFacts PropertiesExact PropertiesExtension PropertiesIndependence LocalSpec LocalFacts
  RenameSpec RenameFacts RenameAccept RenameFile PropertiesLocal PropertiesRename Storage Raw Text TextFacts CodegenLiteral Debug TextSystem PropertiesDebug.
Import ListNotations.
Local Close Scope Q_scope.
Local Close Scope Qc_scope.
Local Close Scope Z_scope.
Local Open Scope string_scope.
Local Open Scope list_scope.

(** ** Specification *)

(** The new names and symbols fit the file (the conditions of [C93_renamed_file]). *)
Definition fits (new sy : ident -> ident) (f : slist stmt) : Prop :=
  keeps_prefixes new f /\
  (forall n d n' d', In (n, d) (says f) -> In (n', d') (says f) -> new n = new n' -> n = n') /\
  (forall D D', In (D, BaseDimension) (says f) -> In (D', BaseDimension) (says f) ->
     (base_dimension_of D = base_dimension_of D' <-> base_dimension_of (new D) = base_dimension_of (new D'))) /\
  keeps_prefixed_symbols sy f /\
  (forall s t, symbols_in f s -> symbols_in f t -> sy s = sy t -> s = t).

(** The exponents [v2] are those of [v], with the new names for the base dimensions. *)
Definition carried (new : ident -> ident) (f : slist stmt) (v v2 : string -> Qc) : Prop :=
  forall D, In (D, BaseDimension) (says f) -> v2 (base_dimension_of (new D)) = v (base_dimension_of D).

(** At most one symbol stands for a unit of factor one with the exponents [v]. *)
Definition one_symbol k env (o : defs (ops k)) (v : string -> Qc) : Prop :=
  forall s t, coherent_symbol k env o s v -> coherent_symbol k env o t v -> s = t.

(** ** Facts *)
Section Facts.
Context (k : mode) (env : fenv) (f : slist stmt) (new sy : ident -> ident).
Context (T T2 : unresolved (ops k) (unit_template (ops k))) (o o2 : defs (ops k)).
Hypothesis W : wf_file f.
Hypothesis W2 : wf_file (rename_file new sy f).
Hypothesis E : parse_system k (print_file f) = Some T.
Hypothesis E2 : parse_system k (print_file (rename_file new sy f)) = Some T2.
Hypothesis F : fits new sy f.
Hypothesis C : compiled k env T o.
Hypothesis C2 : compiled k env T2 o2.

Lemma exponents_carried n l1 m1 l2 m2 : comes_out o n l1 m1 -> comes_out o2 (new n) l2 m2 -> m1 = m2 /\
  forall D, In (D, BaseDimension) (says f) -> vec_of (ops k) (laws k) l1 (base_dimension_of D) = vec_of (ops k) (laws k) l2 (base_dimension_of (new D)).
Proof.
  destruct F as (Kp & _ & Fields & _). destruct C as (R & _). destruct C2 as (R2 & _). clear C C2 F. intros C1 C2.
  rewrite parse_print in E, E2 by assumption.
  assert (Cl : forall n, (exists d, In (n, d) (says f)) -> exists d, In (n, d) (says f) /\ In (new n, renamed new d) (says (rename_file new sy f)) /\
     forall s, refers s d -> exists d', In (s, d') (says f)).
  { intros n' (d & Hd). exists d. split; [exact Hd|]. split; [now apply says_ren|]. intros s Hs.
    exact (said_closed k env f T o n' d s E R Hd Hs). }
  destruct (rename_all k new env f (rename_file new sy f) T T2 o o2 E E2 R R2 _ Cl n (comes_out_said k env f T o n l1 m1 E R C1)) as (x1 & x2 & m & K1 & K2 & V1 & V2 & Same).
  destruct (comes_out_one k env T o n _ _ _ _ R C1 K1) as [-> ->]. destruct (comes_out_one k env T2 o2 _ _ _ _ _ R2 C2 K2) as [-> ->].
  split; [reflexivity|]. intros D HD. unfold vec_of. rewrite (Same (base_dimension_of D) (base_dimension_of (new D))); [reflexivity|].
  intros D' _ HD'. now apply Fields.
Qed.

(** The base dimensions, in order. *)
Lemma fields_carried : exists bs, (forall D, In D bs -> In (D, BaseDimension) (says f)) /\
  df_base_dimensions o = map base_dimension_of bs /\ df_base_dimensions o2 = map (fun D => base_dimension_of (new D)) bs.
Proof.
  destruct C as (R & _). destruct C2 as (R2 & _). rewrite parse_print in E, E2 by assumption.
  pose proof (mean_file_ren k new sy f T E) as M. rewrite E2 in M. injection M as ->.
  destruct (accepted_all (ops k) (laws k) env _ o (generated_ok_expand _ T) R) as (_ & res & d & _ & _ & Eo & _).
  destruct (accepted_all (ops k) (laws k) env _ o2 (generated_ok_expand _ _) R2) as (_ & res2 & d2 & _ & _ & Eo2 & _).
  exists (map (fun d => de_name d) (filter is_base_dimension (u_dimensions T))). split; [|split].
  - intros D H. apply in_map_iff in H as (x & <- & H). apply filter_In in H as [H B]. apply (base_statement k f T x E H).
    unfold is_base_dimension in B. destruct (de_rhs x) as [[]|]; [reflexivity|discriminate].
  - rewrite Eo. cbn [out_of df_base_dimensions]. now rewrite map_map.
  - rewrite Eo2. cbn [out_of df_base_dimensions expand_templates u_dimensions ren_system]. rewrite map_map.
    induction (u_dimensions T) as [|x l IH]; [reflexivity|]. cbn [map filter].
    assert (Eb : is_base_dimension (ren_dimension (ops k) new x) = is_base_dimension x) by (unfold is_base_dimension; cbn [ren_dimension de_rhs]; now destruct (de_rhs x)).
    rewrite Eb. destruct (is_base_dimension x); [|exact IH]. cbn [map]. now rewrite IH.
Qed.

Lemma units_carried :
  (forall u, In u (df_units o) -> exists u2, In u2 (df_units o2) /\
     un_name u2 = new (un_name u) /\ un_mag u2 = un_mag u /\ un_symbol u2 = option_map sy (un_symbol u) /\ un_is_base u2 = un_is_base u) /\
  (forall u2, In u2 (df_units o2) -> exists u, In u (df_units o) /\
     un_name u2 = new (un_name u) /\ un_mag u2 = un_mag u /\ un_symbol u2 = option_map sy (un_symbol u) /\ un_is_base u2 = un_is_base u).
Proof.
  destruct F as (Kp & Inj & Fields & Ks & SymInj). destruct C as (R & _). destruct C2 as (R2 & _).
  exact (C93_units k env f T o new sy T2 o2 W W2 E R Kp Inj Fields Ks SymInj E2 R2).
Qed.

Lemma dimension_carried u u2 v v2 : In u (df_units o) -> In u2 (df_units o2) -> un_name u2 = new (un_name u) -> carried new f v v2 ->
  (unit_dimension k o u v <-> unit_dimension k o2 u2 v2).
Proof.
  intros Hu Hu2 Nu Hv. destruct (exponents_carried (un_name u) (un_dims u) (Some (un_mag u)) (un_dims u2) (Some (un_mag u2))) as [_ K].
  { right. left. eauto. } { right. left. eauto. }
  destruct fields_carried as (bs & Hb & Ef & Ef2). unfold unit_dimension. rewrite Ef, Ef2. split; intros H x Hx.
  - apply in_map_iff in Hx as (D & <- & HD). rewrite exponent_in_vec, <- K, (Hv D), <- exponent_in_vec by auto. apply H. apply in_map_iff. eauto.
  - apply in_map_iff in Hx as (D & <- & HD). rewrite exponent_in_vec, K, <- (Hv D), <- exponent_in_vec by auto. apply H. apply in_map_iff. eauto.
Qed.

Lemma symbol_carried v v2 name : carried new f v v2 -> coherent_symbol k env o (str name) v -> coherent_symbol k env o2 (str (sy name)) v2.
Proof.
  intros Hv (u & name' & Hu & Es & En & Em & Hd). apply str_inj in En. subst name'.
  destruct (proj1 units_carried u Hu) as (u2 & Hu2 & Nu & Mu & Su & _). exists u2, (sy name). split; [exact Hu2|]. split; [rewrite Su, Es; reflexivity|].
  split; [reflexivity|]. split; [now rewrite Mu|]. now apply (dimension_carried u u2 v v2 Hu Hu2 Nu Hv).
Qed.
Lemma symbol_back v v2 s2 : carried new f v v2 -> coherent_symbol k env o2 s2 v2 -> exists name, s2 = str (sy name) /\ coherent_symbol k env o (str name) v.
Proof.
  intros Hv (u2 & name2 & Hu2 & Es & -> & Em & Hd). destruct (proj2 units_carried u2 Hu2) as (u & Hu & Nu & Mu & Su & _).
  rewrite Es in Su. destruct (un_symbol u) as [name|] eqn:Eu; [|discriminate Su]. exists name. split; [cbn in Su; congruence|].
  exists u, name. split; [exact Hu|]. split; [exact Eu|]. split; [reflexivity|]. split; [now rewrite <- Mu|]. now apply (dimension_carried u u2 v v2 Hu Hu2 Nu Hv).
Qed.
Lemma no_symbol v v2 : carried new f v v2 -> (forall s, ~ coherent_symbol k env o s v) <-> (forall s, ~ coherent_symbol k env o2 s v2).
Proof.
  intros Hv. split; intros N s H.
  - destruct (symbol_back v v2 s Hv H) as (name & _ & K). exact (N _ K).
  - pose proof H as (u & name & _ & _ & -> & _). exact (N _ (symbol_carried v v2 name Hv H)).
Qed.
Lemma basis_carried D : In (D, BaseDimension) (says f) -> carried new f (basis (base_dimension_of D)) (basis (base_dimension_of (new D))).
Proof.
  intros HD D' HD'. destruct F as (_ & _ & Fields & _). unfold basis. pose proof (Fields D' D HD' HD) as K.
  destruct (String.eqb_spec (base_dimension_of (new D')) (base_dimension_of (new D))) as [A|A], (String.eqb_spec (base_dimension_of D') (base_dimension_of D)) as [B|B]; try reflexivity; tauto.
Qed.
End Facts.

(** ** C94 *)

(** Formatting the same quantity under the old and under the new names either panics both times or
    neither time. *)
Theorem C94_panics_together : forall k env f new sy T T2 o o2 X X2 v v2 value,
  wf_file f -> wf_file (rename_file new sy f) -> fits new sy f ->
  parse_system k (print_file f) = Some T -> parse_system k (print_file (rename_file new sy f)) = Some T2 ->
  compiled k env T o -> compiled k env T2 o2 ->
  denotes k (df_base_dimensions o) X v -> denotes k (df_base_dimensions o2) X2 v2 -> carried new f v v2 ->
  (debug (ops k) env (CodegenLiteral.lit k) (show k) o X value = Some None <->
   debug (ops k) env (CodegenLiteral.lit k) (show k) o2 X2 value = Some None).
Proof.
  intros k env f new sy T T2 o o2 X X2 v v2 value W W2 F E E2 C C2 HX HX2 Hv.
  rewrite (proj1 (C47_exactly k env T o X v value C HX)), (proj1 (C47_exactly k env T2 o2 X2 v2 value C2 HX2)).
  rewrite (no_symbol k env f new sy T T2 o o2 W W2 E E2 F C C2 v v2 Hv).
  destruct (fields_carried k env f new sy T T2 o o2 W W2 E E2 C C2) as (bs & Hb & Ef & Ef2). rewrite Ef, Ef2.
  split; intros [N (x & Hx & Hn & Hs)]; (split; [exact N|]); apply in_map_iff in Hx as (D & <- & HD).
  - exists (base_dimension_of (new D)). split; [apply in_map_iff; eauto|]. rewrite (Hv D (Hb D HD)). split; [exact Hn|].
    apply (no_symbol k env f new sy T T2 o o2 W W2 E E2 F C C2 _ _ (basis_carried f new sy F D (Hb D HD))). exact Hs.
  - exists (base_dimension_of D). split; [apply in_map_iff; eauto|]. rewrite <- (Hv D (Hb D HD)). split; [exact Hn|].
    apply (no_symbol k env f new sy T T2 o o2 W W2 E E2 F C C2 _ _ (basis_carried f new sy F D (Hb D HD))). exact Hs.
Qed.
Print Assumptions C94_panics_together.

(** What is printed is the same text with the new symbols, provided that the quantity's dimension and the
    base dimensions in it each have at most one unit of factor one with a symbol. *)
Theorem C94_printed : forall k env f new sy T T2 o o2 X X2 v v2 value t t2,
  wf_file f -> wf_file (rename_file new sy f) -> fits new sy f ->
  parse_system k (print_file f) = Some T -> parse_system k (print_file (rename_file new sy f)) = Some T2 ->
  compiled k env T o -> compiled k env T2 o2 ->
  denotes k (df_base_dimensions o) X v -> denotes k (df_base_dimensions o2) X2 v2 -> carried new f v v2 ->
  one_symbol k env o v ->
  (forall b, In b (df_base_dimensions o) -> v b <> ZQc 0 -> one_symbol k env o (basis b)) ->
  debug (ops k) env (CodegenLiteral.lit k) (show k) o X value = Some (Some t) ->
  debug (ops k) env (CodegenLiteral.lit k) (show k) o2 X2 value = Some (Some t2) ->
  (exists name, coherent_symbol k env o (str name) v /\ t = value ++ space :: str name /\ t2 = value ++ space :: str (sy name)) \/
  ((forall s, ~ coherent_symbol k env o s v) /\
   exists sym : string -> ident,
     (forall b, In b (df_base_dimensions o) -> v b <> ZQc 0 -> coherent_symbol k env o (str (sym b)) (basis b)) /\
     t = value ++ concat (map (power_text (fun b => str (sym b)) v) (df_base_dimensions o)) /\
     t2 = value ++ concat (map (power_text (fun b => str (sy (sym b))) v) (df_base_dimensions o))).
Proof.
  intros k env f new sy T T2 o o2 X X2 v v2 value t t2 W W2 F E E2 C C2 HX HX2 Hv One Ones H H2.
  destruct (C46_text k env T o X v value t C HX H) as [(s & Hs & ->)|(N & sym & Hsym & ->)].
  - left. pose proof Hs as (u & name & _ & _ & -> & _). exists name. split; [exact Hs|]. split; [reflexivity|].
    destruct (C46_text k env T2 o2 X2 v2 value t2 C2 HX2 H2) as [(s2 & Hs2 & ->)|(N2 & _)].
    + destruct (symbol_back k env f new sy T T2 o o2 W W2 E E2 F C C2 v v2 s2 Hv Hs2) as (name' & -> & K).
      pose proof (str_inj _ _ (One _ _ K Hs)) as ->. reflexivity.
    + exfalso. exact (N2 _ (symbol_carried k env f new sy T T2 o o2 W W2 E E2 F C C2 v v2 name Hv Hs)).
  - right. split; [exact N|]. pose proof (proj1 (no_symbol k env f new sy T T2 o o2 W W2 E E2 F C C2 v v2 Hv) N) as N2.
    assert (Sb : forall s, str (string_of_list_ascii s) = s) by (intros s; apply list_ascii_of_string_of_list_ascii).
    exists (fun b => string_of_list_ascii (sym b)). split; [intros b Hb Hn; rewrite Sb; now apply Hsym|].
    destruct (fields_carried k env f new sy T T2 o o2 W W2 E E2 C C2) as (bs & Hb & Ef & Ef2).
    split.
    + f_equal. f_equal. apply map_ext. intros b. unfold power_text. now rewrite Sb.
    + destruct (C46_text k env T2 o2 X2 v2 value t2 C2 HX2 H2) as [(s2 & Hs2 & _)|(_ & sym2 & Hsym2 & ->)]; [destruct (N2 _ Hs2)|].
      f_equal. f_equal. rewrite Ef2. rewrite Ef in Hsym, Ones |- *. rewrite Ef2 in Hsym2. rewrite !map_map.
      apply map_ext_in. intros D HD. unfold power_text. rewrite (Hv D (Hb D HD)).
      destruct (Qc_eq_dec (v (base_dimension_of D)) (ZQc 0)) as [Z|Nz]; [reflexivity|].
      assert (I1 : In (base_dimension_of D) (map base_dimension_of bs)) by (apply in_map_iff; eauto).
      assert (I2 : In (base_dimension_of (new D)) (map (fun D => base_dimension_of (new D)) bs)) by (apply in_map_iff; eauto).
      assert (Es : sym2 (base_dimension_of (new D)) = str (sy (string_of_list_ascii (sym (base_dimension_of D))))).
      { specialize (Hsym2 _ I2). rewrite (Hv D (Hb D HD)) in Hsym2.
        destruct (symbol_back k env f new sy T T2 o o2 W W2 E E2 F C C2 _ _ _ (basis_carried f new sy F D (Hb D HD)) (Hsym2 Nz)) as (name' & -> & K).
        pose proof (Ones _ I1 Nz _ _ K (Hsym _ I1 Nz)) as En. rewrite <- (Sb (sym _)) in En. now apply str_inj in En as ->. }
      now rewrite Es.
Qed.
Print Assumptions C94_printed.

(** With the symbols kept, exactly the same is printed (or both times the program panics). *)
Theorem C94_same_text : forall k env f new T T2 o o2 X X2 v v2 value,
  wf_file f -> wf_file (rename_file new (fun s => s) f) -> fits new (fun s => s) f ->
  parse_system k (print_file f) = Some T -> parse_system k (print_file (rename_file new (fun s => s) f)) = Some T2 ->
  compiled k env T o -> compiled k env T2 o2 ->
  denotes k (df_base_dimensions o) X v -> denotes k (df_base_dimensions o2) X2 v2 -> carried new f v v2 ->
  one_symbol k env o v ->
  (forall b, In b (df_base_dimensions o) -> v b <> ZQc 0 -> one_symbol k env o (basis b)) ->
  debug (ops k) env (CodegenLiteral.lit k) (show k) o X value = debug (ops k) env (CodegenLiteral.lit k) (show k) o2 X2 value.
Proof.
  intros k env f new T T2 o o2 X X2 v v2 value W W2 F E E2 C C2 HX HX2 Hv One Ones.
  pose proof (C94_panics_together k env f new _ T T2 o o2 X X2 v v2 value W W2 F E E2 C C2 HX HX2 Hv) as P.
  destruct (debug (ops k) env (CodegenLiteral.lit k) (show k) o X value) as [[t|]|] eqn:D1.
  - destruct (debug (ops k) env (CodegenLiteral.lit k) (show k) o2 X2 value) as [[t2|]|] eqn:D2.
    + destruct (C94_printed k env f new _ T T2 o o2 X X2 v v2 value t t2 W W2 F E E2 C C2 HX HX2 Hv One Ones D1 D2) as [(name & _ & -> & ->)|(_ & sym & _ & -> & ->)]; reflexivity.
    + discriminate (proj2 P eq_refl).
    + destruct (proj2 (C47_exactly k env T2 o2 X2 v2 value C2 HX2) D2).
  - symmetry. now apply P.
  - destruct (proj2 (C47_exactly k env T o X v value C HX) D1).
Qed.
Print Assumptions C94_same_text.

(** ** [field_file] in German: [2.5 m] and [2.5 sch] *)
Definition printed_check (f : slist stmt) (field symbol : ident) : bool :=
  match parse_system IntegerExponents (print_file f) with
  | Some T => match run_unit_system (ops IntegerExponents) env0 T with
    | Some (o, []) =>
        (match df_base_dimensions o with [b] => String.eqb b field | _ => false end)
        && struct_declaration_ok (df_base_dimensions o)
        && forallb (fun u => negb (Magnitude.is_one env0 (un_mag u)) || match un_symbol u with Some s => String.eqb s symbol | None => true end) (df_units o)
        && (match debug (ops IntegerExponents) env0 (CodegenLiteral.lit IntegerExponents) (show IntegerExponents) o [(field, 1%Z)] (str "2.5") with
            | Some (Some t) => text_eqb t (str "2.5 " ++ str symbol) | _ => false end)
        && (match debug (ops IntegerExponents) env0 (CodegenLiteral.lit IntegerExponents) (show IntegerExponents) o [(field, (-1)%Z)] (str "2.5") with
            | Some (Some t) => text_eqb t (str "2.5 " ++ str symbol ++ str "^-1") | _ => false end)
    | _ => false end
  | None => false
  end.
Lemma field_prints : printed_check field_file "length" "m" = true.
Proof. vm_compute. reflexivity. Qed.
Lemma german_prints : printed_check (rename_file to_german other_symbol field_file) "laenge" "sch" = true.
Proof. vm_compute. reflexivity. Qed.
Lemma printed_ok f field symbol : printed_check f field symbol = true -> exists T o,
  parse_system IntegerExponents (print_file f) = Some T /\ compiled IntegerExponents env0 T o /\ df_base_dimensions o = [field] /\
  (forall v, one_symbol IntegerExponents env0 o v) /\
  debug (ops IntegerExponents) env0 (CodegenLiteral.lit IntegerExponents) (show IntegerExponents) o [(field, 1%Z)] (str "2.5") = Some (Some (str "2.5 " ++ str symbol)) /\
  debug (ops IntegerExponents) env0 (CodegenLiteral.lit IntegerExponents) (show IntegerExponents) o [(field, (-1)%Z)] (str "2.5") = Some (Some (str "2.5 " ++ str symbol ++ str "^-1")).
Proof.
  unfold printed_check. destruct (parse_system IntegerExponents (print_file f)) as [T|] eqn:E; [|discriminate].
  destruct (run_unit_system (ops IntegerExponents) env0 T) as [[o [|]]|] eqn:R; try discriminate.
  intros H. apply andb_true_iff in H as [H H5]. apply andb_true_iff in H as [H H4]. apply andb_true_iff in H as [H H3]. apply andb_true_iff in H as [H1 H2].
  exists T, o. split; [reflexivity|]. split; [|split; [|split; [|split]]].
  - split; [exact R|]. split; [exact (integer_literals_ok _ T E)|]. split; [exact (parsed_i64_exponents _ _ T E)|exact H2].
  - destruct (df_base_dimensions o) as [|b [|]]; try discriminate H1. apply String.eqb_eq in H1. now subst.
  - assert (K : forall s v, coherent_symbol IntegerExponents env0 o s v -> s = str symbol).
    { intros s v (u & name & Hu & Es & -> & Em & _). rewrite forallb_forall in H3. specialize (H3 u Hu). rewrite Es in H3.
      apply is_one_iff in Em. rewrite Em in H3. cbn in H3. apply String.eqb_eq in H3. now subst. }
    intros v s t Hs Ht. rewrite (K s v Hs), (K t v Ht). reflexivity.
  - destruct (debug _ _ _ _ o [(field, 1%Z)] _) as [[t|]|]; try discriminate H4. apply text_eqb_eq in H4. now subst.
  - destruct (debug _ _ _ _ o [(field, (-1)%Z)] _) as [[t|]|]; try discriminate H5. apply text_eqb_eq in H5. now subst.
Qed.

Example C94_applies : exists T T2 o o2 X X2 v v2,
  wf_file field_file /\ wf_file (rename_file to_german other_symbol field_file) /\ fits to_german other_symbol field_file /\
  parse_system IntegerExponents (print_file field_file) = Some T /\
  parse_system IntegerExponents (print_file (rename_file to_german other_symbol field_file)) = Some T2 /\
  compiled IntegerExponents env0 T o /\ compiled IntegerExponents env0 T2 o2 /\
  denotes IntegerExponents (df_base_dimensions o) X v /\ denotes IntegerExponents (df_base_dimensions o2) X2 v2 /\
  carried to_german field_file v v2 /\ one_symbol IntegerExponents env0 o v /\
  (forall b, In b (df_base_dimensions o) -> v b <> ZQc 0 -> one_symbol IntegerExponents env0 o (basis b)) /\
  debug (ops IntegerExponents) env0 (CodegenLiteral.lit IntegerExponents) (show IntegerExponents) o X (str "2.5") = Some (Some (str "2.5 m^-1")) /\
  debug (ops IntegerExponents) env0 (CodegenLiteral.lit IntegerExponents) (show IntegerExponents) o2 X2 (str "2.5") = Some (Some (str "2.5 sch^-1")).
Proof.
  destruct (printed_ok _ _ _ field_prints) as (T & o & E & C & Ef & One & _ & D).
  destruct (printed_ok _ _ _ german_prints) as (T2 & o2 & E2 & C2 & Ef2 & _ & _ & D2).
  destruct C93_renamed_applies as (T' & o' & W & W2 & _ & _ & Kp & Inj & Fields & Ks & SymInj & _).
  exists T, T2, o, o2, [("length", (-1)%Z)], [("laenge", (-1)%Z)], (fun _ => ZQc (-1)), (fun _ => ZQc (-1)).
  split; [exact W|]. split; [exact W2|]. split; [exact (conj Kp (conj Inj (conj Fields (conj Ks SymInj))))|].
  split; [exact E|]. split; [exact E2|]. split; [exact C|]. split; [exact C2|]. rewrite Ef, Ef2.
  assert (St : forall b, denotes IntegerExponents [b] [(b, (-1)%Z)] (fun _ => ZQc (-1))).
  { intros b. split; [reflexivity|]. intros x e [H|[]]. injection H as _ <-. split; [exact I|reflexivity]. }
  split; [apply St|]. split; [apply St|]. split; [intros x _; reflexivity|]. split; [apply One|]. split; [intros b _ _; apply One|].
  split; [exact D|exact D2].
Qed.

(** With the symbols kept ([C94_same_text]). *)
Example C94_same_text_applies : exists T2 o2,
  wf_file (rename_file to_german (fun s => s) field_file) /\ fits to_german (fun s => s) field_file /\
  parse_system IntegerExponents (print_file (rename_file to_german (fun s => s) field_file)) = Some T2 /\
  compiled IntegerExponents env0 T2 o2 /\ df_base_dimensions o2 = ["laenge"] /\
  debug (ops IntegerExponents) env0 (CodegenLiteral.lit IntegerExponents) (show IntegerExponents) o2 [("laenge", (-1)%Z)] (str "2.5") = Some (Some (str "2.5 m^-1")).
Proof.
  destruct (printed_ok (rename_file to_german (fun s => s) field_file) "laenge" "m" ltac:(vm_compute; reflexivity)) as (T2 & o2 & E2 & C2 & Ef2 & _ & _ & D2).
  destruct C93_renamed_applies as (_ & _ & _ & _ & _ & _ & Kp & Inj & Fields & _).
  exists T2, o2. split.
  - split; [first [discriminate|intros _; discriminate|easy]|]. cbn [sl_items rename_file field_file map rename_stmt rename_attr]. unfold wf_stmt, wf_ident.
    repeat (first [apply accept_name; reflexivity | apply Forall_nil | constructor | discriminate | reflexivity]).
  - split; [|split; [exact E2|split; [exact C2|split; [exact Ef2|exact D2]]]].
    split; [exact Kp|]. split; [exact Inj|]. split; [exact Fields|]. split; [intros l i ann rhs _ p s _ _; reflexivity|intros s t _ _ H; exact H].
Qed.

(** [one_symbol] is needed: with a second unit of factor one, the name decides which symbol is printed. *)
Definition ell_file : slist stmt := {| sl_trailing := true; sl_items :=
  [SQuantityType [] "Quantity"; SDimensionType [] "Dimension"; SDimension [] "Length" None;
   SUnit [USymbol "m"; UBase "Length"] "meter" None None;
   SUnit [USymbol "el"] "ell" None (Some (SxOne (SfVal (AtIdent "meter"))))] |}.
Definition z_ell (n : ident) : ident := if String.eqb n "ell" then "zell" else n.
Definition prints (f : slist stmt) : option (option (option text)) :=
  match parse_system IntegerExponents (print_file f) with
  | Some T => match run_unit_system (ops IntegerExponents) env0 T with
    | Some (o, []) => Some (debug (ops IntegerExponents) env0 (CodegenLiteral.lit IntegerExponents) (show IntegerExponents) o [("length", 1%Z)] (str "2.5"))
    | _ => None end
  | None => None
  end.
Example C94_needs_one_symbol :
  prints ell_file = Some (Some (Some (str "2.5 el"))) /\
  prints (rename_file z_ell (fun s => s) ell_file) = Some (Some (Some (str "2.5 m"))) /\
  fits z_ell (fun s => s) ell_file.
Proof.
  split; [vm_compute; reflexivity|]. split; [vm_compute; reflexivity|]. unfold fits.
  assert (Sa : forall n d, In (n, d) (says ell_file) -> n = "Length" \/ n = "meter" \/ n = "ell").
  { intros n d H. vm_compute in H. repeat (destruct H as [H|H]; [injection H as <- _; tauto|]). destruct H. }
  split; [|split; [|split; [|split]]].
  - intros l i ann rhs H p a Hp Ha. cbn [sl_items ell_file In] in H.
    do 3 (destruct H as [H|H]; [discriminate H|]). destruct H as [H|[H|[]]]; injection H as <- <- <- <-; vm_compute in Hp; destruct Hp.
  - intros n d n' d' H H' En. apply Sa in H, H'. destruct H as [->|[->| ->]], H' as [->|[->| ->]]; (reflexivity || discriminate En).
  - assert (K : forall D, In (D, BaseDimension) (says ell_file) -> D = "Length").
    { intros D H. vm_compute in H. repeat (destruct H as [H|H]; [first [discriminate H|injection H as <-; reflexivity]|]). destruct H. }
    intros D D' H H'. apply K in H, H'. subst. split; reflexivity.
  - intros l i ann rhs _ p s _ _. reflexivity.
  - intros s t _ _ H. exact H.
Qed.
