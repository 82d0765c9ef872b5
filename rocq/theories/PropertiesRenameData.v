(** * Data written and read under other names: C95 *)
From Coq Require Import String Ascii List Bool ZArith QArith Qcanon Lia.
From Verif Require Import MachineInt Ratio F64 Magnitude Exponent ExponentFacts SMap Snake Expression DimensionMath DimensionMathFacts Types PrefixSpec ExpansionSpec
  Resolve ResolveLoop ResolveChecks SystemSpec ResolveFacts Expansion CodegenDimension CodegenDimensionFacts CodegenLiteral ResolveEquations Setting SystemFacts ExampleSystems Parse Grammar ParseFacts ParsedSystems
  Accuracy PropertiesDimension PropertiesExponents PropertiesParse PropertiesSystem LocalSpec
  RenameSpec RenameFacts RenameAccept RenameFile PropertiesLocal PropertiesRename Storage Raw Text TextFacts CodegenLiteral Debug TextSystem PropertiesDebug
  Serde SerdeFacts PropertiesSerde PropertiesRenameText.
Import ListNotations.
Local Close Scope Q_scope.
Local Close Scope Qc_scope.
Local Close Scope Z_scope.
Local Open Scope string_scope.
Local Open Scope list_scope.

(** ** The generated structs, field by field *)
Section Rows.
Context (k : mode) (g g2 : ident -> string).
Notation X := (ops k).
(** Two values of the generated structs with the same exponents, in the fields [g D] and [g2 D]. *)
Inductive rows : list ident -> dimval X -> dimval X -> Prop :=
| rows_nil : rows [] [] []
| rows_cons D r bs es es2 : rows bs es es2 -> rows (D :: bs) ((g D, r) :: es) ((g2 D, r) :: es2).

Lemma rows_eqb bs a a2 : rows bs a a2 -> forall b b2, rows bs b b2 -> dim_eqb X a b = dim_eqb X a2 b2.
Proof.
  induction 1 as [|D r bs es es2 H IH]; intros b b2 Hb; inversion Hb; subst; [reflexivity|]. cbn [dim_eqb].
  rewrite !String.eqb_refl. rewrite (IH _ _ ltac:(eassumption)). reflexivity.
Qed.
Lemma rows_get bs a a2 : rows bs a a2 -> NoDup (map g bs) -> NoDup (map g2 bs) -> forall D, In D bs -> sget (g D) a = sget (g2 D) a2.
Proof.
  induction 1 as [|D r bs es es2 H IH]; intros N N2 D' HD; [destruct HD|]. cbn [map] in N, N2. inversion N; inversion N2; subst. cbn [sget].
  destruct HD as [->|HD]; [now rewrite !String.eqb_refl|].
  destruct (String.eqb_spec (g D') (g D)) as [E|_]; [exfalso; match goal with K : ~ In (g D) _ |- _ => apply K end; rewrite <- E; now apply in_map|].
  destruct (String.eqb_spec (g2 D') (g2 D)) as [E|_]; [exfalso; match goal with K : ~ In (g2 D) _ |- _ => apply K end; rewrite <- E; now apply in_map|].
  now apply IH.
Qed.
Definition orows bs (a a2 : option (dimval X)) : Prop :=
  match a, a2 with Some a, Some a2 => rows bs a a2 | None, None => True | _, _ => False end.

Lemma mapM_rows (F F2 : string -> option (string * X)) bs :
  (forall D, In D bs -> exists r : option X, F (g D) = option_map (pair (g D)) r /\ F2 (g2 D) = option_map (pair (g2 D)) r) ->
  orows bs (mapM F (map g bs)) (mapM F2 (map g2 bs)).
Proof.
  induction bs as [|D bs IH]; intros H; cbn [map mapM]; [constructor|].
  destruct (H D (or_introl eq_refl)) as ([r|] & -> & ->); cbn [option_map]; [|exact I].
  specialize (IH (fun D' HD => H D' (or_intror HD))). unfold orows in *.
  destruct (mapM F (map g bs)), (mapM F2 (map g2 bs)); try exact IH. now constructor.
Qed.

Context (bs : list ident).
Hypothesis N : NoDup (map g bs).
Hypothesis N2 : NoDup (map g2 bs).

Lemma none_rows : orows bs (dim_none X (map g bs)) (dim_none X (map g2 bs)).
Proof.
  rewrite (dim_none_eq X _ N), (dim_none_eq X _ N2). cbn [orows]. rewrite !map_map. clear N N2.
  induction bs as [|D l IH]; cbn [map]; now constructor.
Qed.
Lemma mul_rows a a2 e : rows bs a a2 -> orows bs (dim_mul X (map g bs) a e) (dim_mul X (map g2 bs) a2 e).
Proof.
  intros H. unfold dim_mul. rewrite (method1_eq X _ N), (method1_eq X _ N2). unfold entries1. apply mapM_rows.
  intros D HD. rewrite (rows_get bs a a2 H N N2 D HD). destruct (sget (g2 D) a2) as [v|]; [|exists None; auto].
  exists (e_mul_int X v e). destruct (e_mul_int X v e); auto.
Qed.
Lemma add_rows a a2 b b2 : rows bs a a2 -> rows bs b b2 -> orows bs (dim_add X (map g bs) a b) (dim_add X (map g2 bs) a2 b2).
Proof.
  intros H K. unfold dim_add. rewrite (method2_eq X _ N), (method2_eq X _ N2). unfold entries2. apply mapM_rows.
  intros D HD. rewrite (rows_get bs a a2 H N N2 D HD), (rows_get bs b b2 K N N2 D HD).
  destruct (sget (g2 D) a2) as [v|]; [|exists None; auto]. destruct (sget (g2 D) b2) as [w|]; [|exists None; auto].
  exists (e_add X v w). destruct (e_add X v w); auto.
Qed.
Lemma denotes_rows a a2 v v2 : denotes k (map g bs) a v -> denotes k (map g2 bs) a2 v2 -> (forall D, In D bs -> v2 (g2 D) = v (g D)) -> rows bs a a2.
Proof.
  clear N N2. revert a a2. induction bs as [|D l IH]; intros a a2 [Sa Va] [Sa2 Va2] Hv; unfold shaped in *.
  - destruct a; [|discriminate]. destruct a2; [|discriminate]. constructor.
  - destruct a as [|[f e] a]; [discriminate|]. destruct a2 as [|[f2 e2] a2]; [discriminate|]. cbn [map fst] in Sa, Sa2.
    injection Sa as -> Sa. injection Sa2 as -> Sa2.
    destruct (Va _ _ (or_introl eq_refl)) as [V E]. destruct (Va2 _ _ (or_introl eq_refl)) as [V2 E2].
    assert (e = e2) by (apply (l_inj _ (laws k)); auto; rewrite E, E2, (Hv D (or_introl eq_refl)); reflexivity). subst e2.
    constructor. apply IH.
    + split; [exact Sa|]. intros f x H. apply Va. now right.
    + split; [exact Sa2|]. intros f x H. apply Va2. now right.
    + intros D' HD. apply Hv. now right.
Qed.

(** ** Reading *)
Context (us us2 : list (runtime_unit X)) (env : fenv).
Hypothesis Look : forall s, match get_unit_by_symbol X us s, get_unit_by_symbol X us2 s with
  | Some r, Some r2 => rows bs (ru_dim r) (ru_dim r2) /\ ru_mag r2 = ru_mag r
  | None, None => True
  | _, _ => False end.

Definition same_read {A} (a a2 : outcome (dimval X * A)) : Prop :=
  match a, a2 with
  | Ok (d, x), Ok (d2, x2) => rows bs d d2 /\ x = x2
  | Err, Err => True
  | Panic, Panic => True
  | _, _ => False
  end.

Lemma single_rows w : same_read (read_single_unit_str X (map g bs) us (code_power X env) w) (read_single_unit_str X (map g2 bs) us2 (code_power X env) w).
Proof.
  unfold read_single_unit_str. set (p := if existsb _ w then _ else _). destruct p as [[unit e]| |]; cbn [andthen same_read]; try exact I.
  pose proof (Look unit) as K. destruct (get_unit_by_symbol X us unit) as [r|], (get_unit_by_symbol X us2 unit) as [r2|]; cbn [or_err andthen]; try exact I; try (exfalso; exact K).
  destruct K as [K ->]. pose proof (mul_rows _ _ e K) as M.
  destruct (dim_mul X (map g bs) (ru_dim r) e), (dim_mul X (map g2 bs) (ru_dim r2) e); cbn [orows or_panic andthen same_read] in *; try exact I; try (exfalso; exact M). now split.
Qed.
Lemma units_rows ws : forall d d2 x, rows bs d d2 ->
  same_read (read_units X (map g bs) us f64_mul (code_power X env) (d, x) ws) (read_units X (map g2 bs) us2 f64_mul (code_power X env) (d2, x) ws).
Proof.
  induction ws as [|w ws IH]; intros d d2 x H; cbn [read_units]; [now split|].
  pose proof (single_rows w) as K. destruct (read_single_unit_str X (map g bs) us (code_power X env) w) as [[c y]| |], (read_single_unit_str X (map g2 bs) us2 (code_power X env) w) as [[c2 y2]| |];
    cbn [same_read andthen fst snd] in *; try exact I; try (exfalso; exact K).
  destruct K as [K <-]. pose proof (add_rows _ _ _ _ H K) as M.
  destruct (dim_add X (map g bs) d c), (dim_add X (map g2 bs) d2 c2); cbn [orows or_panic andthen same_read] in *; try exact I; try (exfalso; exact M). now apply IH.
Qed.
Lemma read_rows ws : same_read (code_read_unit_str X (map g bs) us env ws) (code_read_unit_str X (map g2 bs) us2 env ws).
Proof.
  unfold code_read_unit_str, read_unit_str. pose proof none_rows as M.
  destruct (dim_none X (map g bs)), (dim_none X (map g2 bs)); cbn [orows or_panic andthen same_read] in *; try exact I; try (exfalso; exact M). now apply units_rows.
Qed.
Lemma number_rows a a2 x : rows bs a a2 -> visit_number X (map g bs) a x = visit_number X (map g2 bs) a2 x.
Proof.
  intros H. unfold visit_number. pose proof none_rows as M.
  destruct (dim_none X (map g bs)), (dim_none X (map g2 bs)); cbn [orows or_panic andthen] in *; [|exfalso; exact M|exfalso; exact M|reflexivity].
  now rewrite (rows_eqb _ _ _ H _ _ M).
Qed.
Lemma deserialize_rows s a a2 e : rows bs a a2 -> deserialize X (map g bs) us env s a e = deserialize X (map g2 bs) us2 env s a2 e.
Proof.
  intros H. destruct s as [f|v], e as [t|z|z|x|]; cbn [deserialize]; try reflexivity; try (now apply number_rows).
  - unfold visit_str_float. destruct (split_ws (trim t)) as [|n ws]; [reflexivity|]. destruct (parse_raw f n) as [y|]; cbn [or_err andthen]; [|reflexivity].
    pose proof (read_rows ws) as K.
    destruct (code_read_unit_str X (map g bs) us env ws) as [[d x]| |], (code_read_unit_str X (map g2 bs) us2 env ws) as [[d2 x2]| |]; cbn [same_read andthen] in *; try destruct K; try reflexivity.
    subst x2. unfold get_quantity_if_dimensions_match. destruct (raw_mul y (f64_as f x)); cbn [or_panic andthen]; [|reflexivity].
    now rewrite (rows_eqb bs d d2 ltac:(assumption) a a2 H).
  - unfold visit_str_vector. destruct (cut ")" (trim t)) as [[vp up]|]; cbn [or_err andthen]; [|reflexivity].
    destruct (cut "(" vp) as [[v0 vp']|]; cbn [or_err andthen]; [|reflexivity].
    destruct (Nat.eqb (length (split_ws vp')) (num_dims v)); [|reflexivity].
    destruct (parse_components (component v) (split_ws vp')) as [y|]; cbn [or_err andthen]; [|reflexivity].
    pose proof (read_rows (split_ws up)) as K.
    destruct (code_read_unit_str X (map g bs) us env (split_ws up)) as [[d x]| |], (code_read_unit_str X (map g2 bs) us2 env (split_ws up)) as [[d2 x2]| |]; cbn [same_read andthen] in *; try destruct K; try reflexivity.
    subst x2. unfold get_quantity_if_dimensions_match. destruct (raw_mul (f64_as (component v) x) y); cbn [or_panic andthen]; [|reflexivity].
    now rewrite (rows_eqb bs d d2 ltac:(assumption) a a2 H).
Qed.
End Rows.
Arguments rows {k}.

(** ** C95 *)

(** With the symbols kept, any value handed over by a data format is read the same under the old names and
    under the new ones: the same stored value, the same error or the same panic. *)
Theorem C95_read : forall k env f new T T2 o o2 us us2 s X X2 v v2 e,
  wf_file f -> wf_file (rename_file new (fun s => s) f) -> fits new (fun s => s) f ->
  parse_system k (print_file f) = Some T -> parse_system k (print_file (rename_file new (fun s => s) f)) = Some T2 ->
  readable_system k env T o us -> readable_system k env T2 o2 us2 ->
  denotes k (df_base_dimensions o) X v -> denotes k (df_base_dimensions o2) X2 v2 -> carried new f v v2 ->
  deserialize (ops k) (df_base_dimensions o) us env s X e = deserialize (ops k) (df_base_dimensions o2) us2 env s X2 e.
Proof.
  intros k env f new T T2 o o2 us us2 s X X2 v v2 e W W2 F E E2 (C & Hid & Us) (C2 & Hid2 & Us2) HX HX2 Hv.
  destruct (fields_carried k env f new _ T T2 o o2 W W2 E E2 C C2) as (bs & Hb & Ef & Ef2).
  pose proof (nodup_fields k env T o C) as N. pose proof (nodup_fields k env T2 o2 C2) as N2.
  destruct (units_carried k env f new _ T T2 o o2 W W2 E E2 F C C2) as [Fwd Bwd].
  assert (Pair : forall u u2 r r2, In u (df_units o) -> In u2 (df_units o2) -> un_name u2 = new (un_name u) -> un_mag u2 = un_mag u ->
     entry_of k env o u r -> entry_of k env o2 u2 r2 ->
     rows base_dimension_of (fun D => base_dimension_of (new D)) bs (ru_dim r) (ru_dim r2) /\ ru_mag r2 = ru_mag r).
  { intros u u2 r r2 Hu Hu2 Nu Mu (_ & _ & _ & Em & Ed) (_ & _ & _ & Em2 & Ed2). split; [|congruence].
    destruct (exponents_carried k env f new _ T T2 o o2 W W2 E E2 F C C2 (un_name u) (un_dims u) (Some (un_mag u)) (un_dims u2) (Some (un_mag u2))) as [_ K].
    { right. left. eauto. } { right. left. eauto. }
    destruct C as (R & Hl & Hi & Hs). destruct C2 as (R2 & Hl2 & Hi2 & Hs2).
    destruct (unit_literal k env T o R Hl Hi Hs u Hu) as (d & Ed' & Sd & _). rewrite Ed in Ed'. injection Ed' as <-.
    destruct (unit_literal k env T2 o2 R2 Hl2 Hi2 Hs2 u2 Hu2) as (d2 & Ed2' & Sd2 & _). rewrite Ed2 in Ed2'. injection Ed2' as <-.
    rewrite Ef in Sd. rewrite Ef2 in Sd2. eapply denotes_rows; [exact Sd|exact Sd2|]. intros D HD. symmetry. apply K. now apply Hb. }
  assert (Look : forall t, match get_unit_by_symbol (ops k) us t, get_unit_by_symbol (ops k) us2 t with
    | Some r, Some r2 => rows base_dimension_of (fun D => base_dimension_of (new D)) bs (ru_dim r) (ru_dim r2) /\ ru_mag r2 = ru_mag r
    | None, None => True
    | _, _ => False end).
  { intros t. destruct (get_unit_by_symbol (ops k) us t) as [r|] eqn:Er.
    - destruct (lookup_known k env o us Us t r Er) as (u & name & Hu & Es & ->).
      destruct (lookup_symbol k env T o C us Us u name Hu Es) as (r' & Er' & En). assert (r' = r) by congruence. subst r'.
      destruct (Fwd u Hu) as (u2 & Hu2 & Nu & Mu & Su & _). rewrite Es in Su. cbn [option_map] in Su.
      destruct (lookup_symbol k env T2 o2 C2 us2 Us2 u2 name Hu2 Su) as (r2 & -> & En2). exact (Pair u u2 r r2 Hu Hu2 Nu Mu En En2).
    - destruct (get_unit_by_symbol (ops k) us2 t) as [r2|] eqn:Er2; [|exact I].
      destruct (lookup_known k env o2 us2 Us2 t r2 Er2) as (u2 & name & Hu2 & Es & ->).
      destruct (Bwd u2 Hu2) as (u & Hu & Nu & Mu & Su & _). rewrite Es in Su.
      destruct (un_symbol u) as [name'|] eqn:Eu; [|discriminate Su]. cbn [option_map] in Su. assert (name' = name) by congruence. subst name'.
      destruct (lookup_symbol k env T o C us Us u name Hu Eu) as (r & Er' & _). congruence. }
  rewrite Ef in *. rewrite Ef2 in *. apply deserialize_rows; [exact N|exact N2|exact Look|].
  apply (denotes_rows k _ _ bs X X2 v v2 HX HX2). intros D HD. apply Hv. now apply Hb.
Qed.
Print Assumptions C95_read.

(** And the same text is written, under the conditions of [C94_same_text]. *)
Theorem C95_written : forall k env f new T T2 o o2 X X2 v v2 fmt32 fmt64 value,
  wf_file f -> wf_file (rename_file new (fun s => s) f) -> fits new (fun s => s) f ->
  parse_system k (print_file f) = Some T -> parse_system k (print_file (rename_file new (fun s => s) f)) = Some T2 ->
  compiled k env T o -> compiled k env T2 o2 ->
  denotes k (df_base_dimensions o) X v -> denotes k (df_base_dimensions o2) X2 v2 -> carried new f v v2 ->
  one_symbol k env o v ->
  (forall b, In b (df_base_dimensions o) -> v b <> ZQc 0 -> one_symbol k env o (basis b)) ->
  serialize (ops k) env (CodegenLiteral.lit k) (show k) fmt32 fmt64 o X value =
  serialize (ops k) env (CodegenLiteral.lit k) (show k) fmt32 fmt64 o2 X2 value.
Proof.
  intros k env f new T T2 o o2 X X2 v v2 fmt32 fmt64 value W W2 F E E2 C C2 HX HX2 Hv One Ones. unfold serialize.
  now rewrite (C94_same_text k env f new T T2 o o2 X X2 v v2 (display fmt32 fmt64 value) W W2 F E E2 C C2 HX HX2 Hv One Ones).
Qed.
Print Assumptions C95_written.

(** ** [field_file] with the German names and the old symbols: ["2.5 km"] is 2500 in both *)
Definition read_check (f : slist stmt) (field : ident) : bool :=
  match parse_system IntegerExponents (print_file f) with
  | Some T => match run_unit_system (ops IntegerExponents) env0 T with
    | Some (o, []) =>
        (match df_base_dimensions o with [b] => String.eqb b field | _ => false end)
        && struct_declaration_ok (df_base_dimensions o)
        && forallb symbol_ok (all_symbols IntegerExponents o)
        && match serde_units (ops IntegerExponents) env0 (CodegenLiteral.lit IntegerExponents) o with
           | Some us =>
               match deserialize (ops IntegerExponents) (df_base_dimensions o) us env0 (Float F64) [(field, 1%Z)] (EStr (str "2.5 km")) with
               | Ok (RF64 x) => f64_eqb x (f64_of_Z 2500)
               | _ => false
               end
           | None => false
           end
    | _ => false end
  | None => false
  end.
Lemma read_ok f field : read_check f field = true -> exists T o us x,
  parse_system IntegerExponents (print_file f) = Some T /\ readable_system IntegerExponents env0 T o us /\ df_base_dimensions o = [field] /\
  deserialize (ops IntegerExponents) (df_base_dimensions o) us env0 (Float F64) [(field, 1%Z)] (EStr (str "2.5 km")) = Ok (RF64 x) /\
  f64_eqb x (f64_of_Z 2500) = true.
Proof.
  unfold read_check. destruct (parse_system IntegerExponents (print_file f)) as [T|] eqn:E; [|discriminate].
  destruct (run_unit_system (ops IntegerExponents) env0 T) as [[o [|]]|] eqn:R; try discriminate.
  intros H. apply andb_true_iff in H as [H H4]. apply andb_true_iff in H as [H H3]. apply andb_true_iff in H as [H1 H2].
  destruct (serde_units _ _ _ o) as [us|] eqn:Eu; [|discriminate H4].
  destruct (deserialize _ _ us env0 _ _ _) as [[|x| |]| |] eqn:Ed; try discriminate H4.
  exists T, o, us, x. split; [reflexivity|]. split; [|split; [|split; [exact Ed|exact H4]]].
  - split; [|split; [now apply identifiers_check|exact Eu]].
    split; [exact R|]. split; [exact (integer_literals_ok _ T E)|]. split; [exact (parsed_i64_exponents _ _ T E)|exact H2].
  - destruct (df_base_dimensions o) as [|b [|]]; try discriminate H1. apply String.eqb_eq in H1. now subst.
Qed.
Lemma field_reads : read_check field_file "length" = true.
Proof. vm_compute. reflexivity. Qed.
Lemma german_reads : read_check (rename_file to_german (fun s => s) field_file) "laenge" = true.
Proof. vm_compute. reflexivity. Qed.

Example C95_applies : exists T T2 o o2 us us2 X X2 v v2 x,
  wf_file field_file /\ wf_file (rename_file to_german (fun s => s) field_file) /\ fits to_german (fun s => s) field_file /\
  parse_system IntegerExponents (print_file field_file) = Some T /\
  parse_system IntegerExponents (print_file (rename_file to_german (fun s => s) field_file)) = Some T2 /\
  readable_system IntegerExponents env0 T o us /\ readable_system IntegerExponents env0 T2 o2 us2 /\
  denotes IntegerExponents (df_base_dimensions o) X v /\ denotes IntegerExponents (df_base_dimensions o2) X2 v2 /\
  carried to_german field_file v v2 /\
  deserialize (ops IntegerExponents) (df_base_dimensions o) us env0 (Float F64) X (EStr (str "2.5 km")) = Ok (RF64 x) /\
  f64_eqb x (f64_of_Z 2500) = true.
Proof.
  destruct (read_ok _ _ field_reads) as (T & o & us & x & E & H & Ef & D & Q).
  destruct (read_ok _ _ german_reads) as (T2 & o2 & us2 & x2 & E2 & H2 & Ef2 & _).
  destruct C93_renamed_applies as (_ & _ & W & _). destruct C94_same_text_applies as (_ & _ & W2 & Fi & _).
  exists T, T2, o, o2, us, us2, [("length", 1%Z)], [("laenge", 1%Z)], (fun _ => ZQc 1), (fun _ => ZQc 1), x.
  split; [exact W|]. split; [exact W2|]. split; [exact Fi|]. split; [exact E|]. split; [exact E2|]. split; [exact H|]. split; [exact H2|].
  assert (St : forall b, denotes IntegerExponents [b] [(b, 1%Z)] (fun _ => ZQc 1)).
  { intros b. split; [reflexivity|]. intros y e [K|[]]. injection K as _ <-. split; [exact I|reflexivity]. }
  rewrite Ef2. split; [rewrite Ef; apply St|]. split; [apply St|]. split; [intros y _; reflexivity|]. split; [exact D|exact Q].
Qed.
