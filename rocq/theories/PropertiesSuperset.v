(** * The rational-dimensions build supports a superset: C76

    src/lib.rs:356: "The unit system generated with `rational-dimensions` supports a superset of
    features of a unit system generated without them." *)
From Coq Require Import String List Bool ZArith Lia.
From Verif Require Import MachineInt Ratio F64 Magnitude Exponent SMap Expression DimensionMath Types Resolve
  SystemSpec Setting CodegenDimension Storage Operators OperatorSpec OperatorFacts FloatMethods Parse Grammar ParseFacts
  ExampleSystems Accuracy Simulation SupersetFacts PropertiesParse PropertiesOperators.
Import ListNotations.
Local Open Scope string_scope.
Local Open Scope list_scope.

(** ** Specification *)
(** The exponent [z] of the integer build is [z/1] in the rational build. *)
Definition as_rational (d : list (string * exT (ops IntegerExponents))) : list (string * exT (ops RationalExponents)) :=
  map (fun kv => (fst kv, mkRatio (snd kv) 1)) d.
(** The exponents written in an expression and in a whole system. *)
Fixpoint exponents {T} (x : expr T Z) : list Z :=
  match x with EVal v => factor_exponents v | EBin l r _ => exponents l ++ factor_exponents r end
with factor_exponents {T} (v : factor T Z) : list Z :=
  match v with FVal _ => [] | FPow _ e => [e] | FParen x => exponents x end.
Definition def_exponents {B C} (d : definition (ops IntegerExponents) B C) : list Z :=
  match d with DefBase _ => [] | DefExpr x => exponents x end.
Definition system_exponents (T : unresolved (ops IntegerExponents) (unit_template (ops IntegerExponents))) : list Z :=
  flat_map (fun d => def_exponents (de_rhs d)) (u_dimensions T) ++
  flat_map (fun u => def_exponents (ut_definition u)) (u_units T) ++
  flat_map (fun c : constant_entry (ops IntegerExponents) => exponents (ce_rhs c)) (u_constants T).

(** The two systems define the same things: the same names, symbols and base units in the same order,
    with the same exponents. *)
Record same_system (o : defs (ops IntegerExponents)) (o' : defs (ops RationalExponents)) : Prop := {
  same_types : df_dimension_type o' = df_dimension_type o /\ df_quantity_type o' = df_quantity_type o;
  same_base_dimensions : df_base_dimensions o' = df_base_dimensions o;
  same_dimensions : map (fun d => (d_name d, d_dims d)) (df_dimensions o') =
                    map (fun d => (d_name d, as_rational (d_dims d))) (df_dimensions o);
  same_units : map (fun u => (un_name u, un_symbol u, un_is_base u, un_dims u)) (df_units o') =
               map (fun u => (un_name u, un_symbol u, un_is_base u, as_rational (un_dims u))) (df_units o);
  same_constants : map (fun c => (c_name c, c_dims c)) (df_constants o') =
                   map (fun c => (c_name c, as_rational (c_dims c))) (df_constants o) }.
Record same_factors {k k'} (o : defs (ops k)) (o' : defs (ops k')) : Prop := {
  same_unit_factors : map (fun u => un_mag u) (df_units o') = map (fun u => un_mag u) (df_units o);
  same_constant_values : map (fun c => c_mag c) (df_constants o') = map (fun c => c_mag c) (df_constants o) }.

Lemma forall2_map {A B C} (f : A -> C) (g : B -> C) (R : A -> B -> Prop) l l' :
  (forall a b, R a b -> g b = f a) -> Forall2 R l l' -> map g l' = map f l.
Proof. intros K. induction 1; cbn [map]; [reflexivity|]. now rewrite (K _ _ H), IHForall2. Qed.
Lemma same_system_of M o o' : same_output (ops IntegerExponents) (ops RationalExponents) rint M o o' -> same_system o o'.
Proof.
  intros [A B C D U K]. split; auto.
  - eapply forall2_map; [|exact D]. intros a b (-> & ->). reflexivity.
  - eapply forall2_map; [|exact U]. intros a b (-> & -> & -> & -> & _). reflexivity.
  - eapply forall2_map; [|exact K]. intros a b (-> & -> & _). reflexivity.
Qed.

(** ** Systems *)
(** Every text of a system that the macro runs through with integer exponents is run through with
    rational exponents: it is parsed, the macro does not panic, the diagnostics are the same, in the
    same order (so it is accepted in the one build if in the other), and the same names, symbols, base
    units and exponents are defined — whatever [powi] and [powf] are. *)
Theorem C76_systems : forall env env' ts T o ds,
  parse_system IntegerExponents ts = Some T ->
  run_unit_system (ops IntegerExponents) env T = Some (o, ds) ->
  exists T' o', parse_system RationalExponents ts = Some T' /\
    run_unit_system (ops RationalExponents) env' T' = Some (o', ds) /\ same_system o o'.
Proof.
  intros env env' ts T o ds E R. apply C54_parser_is_the_grammar in E as (f & W & <- & E).
  destruct (mean_file_rat f T E) as [E' A].
  destruct (run_sim _ _ _ env env' _ _ _ (simulates_any env env') T o ds A R) as (o' & R' & S').
  eexists. exists o'. split; [|split; [exact R'|exact (same_system_of _ _ _ S')]].
  rewrite C54_parse_print by exact W. exact E'.
Qed.
Print Assumptions C76_systems.

Lemma exponents_allowed {T} (P : Z -> Prop) :
  (forall x : expr T Z, Forall P (exponents x) -> allowed (ops IntegerExponents) P any x) /\
  (forall v : factor T Z, Forall P (factor_exponents v) -> fallowed (ops IntegerExponents) P any v).
Proof.
  apply expr_factor_ind.
  - intros v IH F. exact (IH F).
  - intros l IHl r IHr op F. change (Forall P (exponents l ++ factor_exponents r)) in F.
    apply Forall_app in F as [F1 F2]. exact (conj (IHl F1) (IHr F2)).
  - intros t _. exact I.
  - intros t e F. split; [exact I|]. inversion F; auto.
  - intros x IH F. exact (IH F).
Qed.
Lemma system_allowed P T : Forall P (system_exponents T) -> templates_allowed (ops IntegerExponents) P T.
Proof.
  intros F. unfold system_exponents in F. rewrite !Forall_app in F. destruct F as (F1 & F2 & F3).
  assert (K : forall A (g : A -> list Z) l a, Forall P (flat_map g l) -> In a l -> Forall P (g a)).
  { intros A g l a Fl Ha. rewrite Forall_forall in *. intros z Hz. apply Fl. apply in_flat_map. eauto. }
  split; [|split]; rewrite Forall_forall; intros a Ha.
  - specialize (K _ _ _ a F1 Ha). cbv beta in K. unfold def_exponents in K. destruct (de_rhs a) as [b|x]; [exact I|]. exact (proj1 (exponents_allowed P) x K).
  - specialize (K _ _ _ a F2 Ha). cbv beta in K. unfold def_exponents in K. destruct (ut_definition a) as [b|x]; [exact I|]. exact (proj1 (exponents_allowed P) x K).
  - specialize (K _ _ _ a F3 Ha). exact (proj1 (exponents_allowed P) _ K).
Qed.

(** If [powf] raises to the whole powers written in the text as [powi] does (and these exponents fit an
    [i32]), the factors of the units and the values of the constants are the same floats. *)
Theorem C76_factors : forall env ts T o ds,
  parse_system IntegerExponents ts = Some T ->
  Forall (fun z => (- 2 ^ 31 <= z < 2 ^ 31)%Z /\ forall x, f_powf env x (f64_of_Z z) = f_powi env x z) (system_exponents T) ->
  run_unit_system (ops IntegerExponents) env T = Some (o, ds) ->
  exists T' o', parse_system RationalExponents ts = Some T' /\
    run_unit_system (ops RationalExponents) env T' = Some (o', ds) /\ same_system o o' /\ same_factors o o'.
Proof.
  intros env ts T o ds E P R. apply C54_parser_is_the_grammar in E as (f & W & <- & E).
  destruct (mean_file_rat f T E) as [E' _]. apply (system_allowed (whole_power env)) in P.
  destruct (run_sim _ _ _ env env _ _ _ (simulates_equal env) T o ds P R) as (o' & R' & S').
  eexists. exists o'. split; [|split; [exact R'|split; [exact (same_system_of _ _ _ S')|]]].
  - rewrite C54_parse_print by exact W. exact E'.
  - destruct S' as [_ _ _ _ U K]. split.
    + eapply forall2_map; [|exact U]. intros a b (_ & _ & _ & _ & ->). reflexivity.
    + eapply forall2_map; [|exact K]. intros a b (_ & _ & ->). reflexivity.
Qed.
Print Assumptions C76_factors.

(** ** Programs *)
Definition rational_base (b : base_ty (ops IntegerExponents)) : base_ty (ops RationalExponents) :=
  match b with TyQ s d => TyQ s (as_rational d) | TyS s => TyS s end.
Definition rational_ty (t : ty (ops IntegerExponents)) : ty (ops RationalExponents) := (fst t, rational_base (snd t)).
Definition rational_out (o : option (sty * dimval (ops IntegerExponents))) : option (sty * dimval (ops RationalExponents)) :=
  option_map (fun sd => (fst sd, as_rational (snd sd))) o.
Definition rational_res (r : res_ty (ops IntegerExponents)) : res_ty (ops RationalExponents) :=
  match r with ResQ s d => ResQ s (as_rational d) | ResRaw s => ResRaw s | ResBool => ResBool end.
(** The exponents are [i64]s. *)
Definition i64_exponents (d : dimval (ops IntegerExponents)) : Prop := Forall (fun kv => (- 2 ^ 63 <= snd kv < 2 ^ 63)%Z) d.
Definition i64_ty (b : base_ty (ops IntegerExponents)) : Prop := match b with TyQ _ d => i64_exponents d | TyS _ => True end.
(** No exponent is the least [i64]. *)
Definition negatable (b : base_ty (ops IntegerExponents)) : Prop :=
  match b with TyQ _ d => Forall (fun kv => (snd kv <> - 2 ^ 63)%Z) d | TyS _ => True end.

Lemma valid_of d : i64_exponents d -> valid d.
Proof.
  unfold i64_exponents, valid. rewrite !Forall_forall. intros K kv Hk. specialize (K kv Hk).
  unfold i64, in_i64, i64_min, i64_max. apply andb_true_iff. rewrite !Z.leb_le. lia.
Qed.

Definition C76_operators_full : Prop := forall fields raw_op raw_copy ft op tl tr out,
  storages_ok raw_op raw_copy (storage_types ft) -> i64_ty (snd tl) -> i64_ty (snd tr) ->
  compiles (ops IntegerExponents) fields raw_op raw_copy ft op tl tr out ->
  compiles (ops RationalExponents) fields raw_op raw_copy ft op (rational_ty tl) (rational_ty tr) (rational_out out).

(** Every operator expression that compiles with integer exponents compiles with rational ones and has
    the corresponding result type, if no quantity with an exponent of -2^63 is divided by. *)
Theorem C76_operators_partial : forall fields raw_op raw_copy ft op tl tr out,
  storages_ok raw_op raw_copy (storage_types ft) -> i64_ty (snd tl) -> i64_ty (snd tr) ->
  (op = TDiv -> negatable (snd tr)) ->
  compiles (ops IntegerExponents) fields raw_op raw_copy ft op tl tr out ->
  compiles (ops RationalExponents) fields raw_op raw_copy ft op (rational_ty tl) (rational_ty tr) (rational_out out).
Proof.
  intros fields raw_op raw_copy ft op [r1 b1] [r2 b2] out OK V1 V2 N C.
  apply (compiles_iff_spec _ _ _ _ _ _ _ _ _ OK) in C. apply (compiles_iff_spec _ _ _ _ _ _ _ _ _ OK).
  cbn [snd] in V1, V2, N. unfold rational_ty. cbn [fst snd].
  assert (D0 : forall d, dimensionless (ops IntegerExponents) fields d -> dimensionless (ops RationalExponents) fields (as_rational d))
    by (intros d; apply none_rat).
  destruct b1 as [s1 d1|s1], b2 as [s2 d2|s2]; cbn [spec rational_base] in *; [| | |exact C].
  - destruct C as (o & S0 & C). exists o. split; [exact S0|]. cbn [i64_ty negatable] in *. apply valid_of in V1, V2.
    destruct op.
    1,2: destruct C as (? & ? & -> & ->); auto.
    1: { destruct C as (? & ? & d & E & ->). repeat split; auto. exists (as_rational d). split; [|reflexivity]. now apply add_rat. }
    1: { destruct C as (? & ? & d & E & ->). repeat split; auto. exists (as_rational d). split; [|reflexivity].
         apply sub_rat; [exact V1|exact V2|exact (N eq_refl)|exact E]. }
    1,2: destruct C as (? & ? & -> & ->); auto.
    1,2: destruct C as (? & ? & ? & ->); auto.
    1,2: destruct C as (? & ? & ? & -> & ->); auto.
  - destruct C as (o & S0 & C). exists o. split; [exact S0|].
    destruct op.
    1,2: destruct C as (? & ? & ? & ? & ->); repeat split; auto.
    1,2: destruct C as (? & ? & ? & ->); repeat split; auto.
    1,2: destruct C as (? & ? & ? & ? & ->); repeat split; auto.
    1,2: destruct C as (? & ? & ? & ? & ->); repeat split; auto.
    1,2: destruct C as (? & ? & ? & ? & ->); repeat split; auto.
  - destruct C as (o & S0 & Hs & C). exists o. split; [exact S0|]. split; [exact Hs|]. apply valid_of in V2.
    destruct op.
    1,2: destruct C as (? & ? & ? & ? & ->); repeat split; auto.
    1: destruct C as (? & ? & ->); repeat split; auto.
    1: { destruct C as (? & ? & d & E & ->). repeat split; auto. exists (as_rational d). split; [|reflexivity]. now apply neg_rat. }
    1,2,3,4: destruct C as (? & ? & ? & ? & ->); repeat split; auto.
    1,2: destruct C as (? & ? & ? & ->); repeat split; auto.
Qed.
Print Assumptions C76_operators_partial.

(** The same for the methods of quantities, and for [min], [max], [clamp]. *)
Theorem C76_methods : forall fields ft math m s d r,
  i64_exponents d -> method_ok (ops IntegerExponents) fields ft math m s d r ->
  method_ok (ops RationalExponents) fields ft math m s (as_rational d) (rational_res r).
Proof.
  intros fields ft math m s d r V. apply valid_of in V. destruct m; cbn [method_ok].
  1,2,3: intros (E & ->); split; [now apply none_rat|reflexivity].
  1,2: intros ->; reflexivity.
  1: intros (? & ? & E & ->); repeat split; auto; now apply none_rat.
  1,2: intros (? & d' & E & ->); split; [assumption|]; exists (as_rational d'); split; [now apply mul_rat|reflexivity].
  1: intros (? & ? & d' & E & ->); split; [assumption|]; split; [assumption|]; exists (as_rational d'); split; [now apply mul_rat|reflexivity].
  1: intros (? & ? & d' & E & ->); split; [assumption|]; split; [assumption|]; exists (as_rational d'); split; [now apply div2_rat|reflexivity].
  1: intros (? & ? & d' & E & ->); split; [assumption|]; split; [assumption|]; exists (as_rational d'); split; [now apply div3_rat|reflexivity].
  1: intros (? & ->); auto.
  1,2,3,4,5: intros (? & ->); auto.
  intros (? & ->); auto.
Qed.
Print Assumptions C76_methods.

Theorem C76_min_max_clamp : forall fields ft m s d q r,
  arg_method_ok (ops IntegerExponents) fields ft m s d q r ->
  arg_method_ok (ops RationalExponents) fields ft m s (as_rational d) (rational_base q) (rational_res r).
Proof.
  intros fields ft m s d q r (A & B & ->). split; [exact A|]. split; [|reflexivity].
  destruct B as [->|(src & -> & n & E & F)]; [left; reflexivity|]. right. exists src. split; [reflexivity|].
  exists (as_rational n). split; [now apply none_rat|]. congruence.
Qed.
Print Assumptions C76_min_max_clamp.

(** ** The claim is false for the least exponent *)
(** [a / b] with [a] of dimension Length^-1 and [b] of Length^(-2^63) compiles with integer exponents,
    but [Ratio::sub] negates the right side first, and that overflows. *)
Definition one_field (z : Z) : base_ty (ops IntegerExponents) := @TyQ (ops IntegerExponents) (Known (Float F64)) [("length", z)].
Theorem C76_refuted : ~ C76_operators_full.
Proof.
  intros K. specialize (K ["length"] std_raw_op std_raw_copy all_features TDiv
    (Value, one_field (-1)) (Value, one_field (- 2 ^ 63)) (Some (Known (Float F64), [("length", (2 ^ 63 - 1)%Z)]))
    (std_storages_ok all_features)).
  assert (V : forall z, (- 2 ^ 63 <= z < 2 ^ 63)%Z -> i64_ty (one_field z)).
  { intros z Hz. constructor; [exact Hz|constructor]. }
  specialize (K (V (-1)%Z ltac:(lia)) (V (- 2 ^ 63)%Z ltac:(lia))).
  rewrite !(compiles_iff_spec _ _ _ _ _ _ _ _ _ (std_storages_ok all_features)) in K.
  destruct K as (o & _ & _ & _ & d & E & _).
  - exists (Known (Float F64)). split; [repeat split; reflexivity|]. split; [now left|]. split; [now left|].
    eexists. split; [|reflexivity]. vm_compute. reflexivity.
  - vm_compute in E. discriminate E.
Qed.
Print Assumptions C76_refuted.

(** ** A case *)
(** [quantity_type Quantity; dimension_type Dimension; dimension Length; dimension Area = Length^2;
     #[base(Length)] #[symbol(m)] unit meters; unit acres: Area = 4046.8564224 * meters^2;
     constant PLOT = 3 acres / meters^1;] *)
Definition land_file : slist stmt := {| sl_trailing := true; sl_items := [
  SQuantityType [] "Quantity"; SDimensionType [] "Dimension"; SDimension [] "Length" None;
  SDimension [] "Area" (Some (SxOne (SfPow (AtIdent "Length") (SxInt (SInt false 2)))));
  SUnit [UBase "Length"; USymbol "m"] "meters" None None;
  SUnit [] "acres" (Some "Area") (Some (SxBin (SxOne (SfVal (AtLit (SDec false 40468564224 (-7))))) ByStar
    (SfPow (AtIdent "meters") (SxInt (SInt false 2)))));
  SConstant [] "PLOT" None (SxBin (SxBin (SxOne (SfVal (AtLit (SInt false 3)))) ByJuxtaposition (SfVal (AtIdent "acres"))) BySlash
    (SfPow (AtIdent "meters") (SxInt (SInt false 2)))) ] |}.
(** A platform with [powf x 2 = powi x 2 = x * x]. *)
Definition env_square : fenv := mkFenv (fun x z => if Z.eqb z 2 then f64_mul x x else x)
  (fun x y => if f64_eqb y (f64_of_Z 2) then f64_mul x x else x).
Lemma land_exponents : forall T, parse_system IntegerExponents (print_file land_file) = Some T ->
  system_exponents T = [2; 2; 2]%Z.
Proof.
  intros T E. assert (K : option_map system_exponents (parse_system IntegerExponents (print_file land_file)) = Some [2; 2; 2]%Z)
    by (vm_compute; reflexivity).
  rewrite E in K. injection K as K. exact K.
Qed.
Definition accepted_with (env : fenv) (f : slist stmt) : bool :=
  match parse_system IntegerExponents (print_file f) with
  | Some T => match run_unit_system (ops IntegerExponents) env T with Some (o, []) => true | _ => false end
  | None => false
  end.
Example C76_applies : exists T o,
  parse_system IntegerExponents (print_file land_file) = Some T /\
  run_unit_system (ops IntegerExponents) env_square T = Some (o, []) /\
  Forall (fun z => (- 2 ^ 31 <= z < 2 ^ 31)%Z /\ forall x, f_powf env_square x (f64_of_Z z) = f_powi env_square x z) (system_exponents T).
Proof.
  assert (A : accepted_with env_square land_file = true) by (vm_compute; reflexivity). unfold accepted_with in A.
  destruct (parse_system IntegerExponents (print_file land_file)) as [T|] eqn:E; [|discriminate A].
  destruct (run_unit_system (ops IntegerExponents) env_square T) as [[o [|]]|] eqn:R; try discriminate A.
  exists T, o. split; [reflexivity|]. split; [exact R|]. rewrite (land_exponents T E).
  assert (P : (- 2 ^ 31 <= 2 < 2 ^ 31)%Z /\ forall x, f_powf env_square x (f64_of_Z 2) = f_powi env_square x 2).
  { split; [lia|]. intros x. cbn [env_square f_powf f_powi].
    assert (Q : f64_eqb (f64_of_Z 2) (f64_of_Z 2) = true) by (vm_compute; reflexivity).
    unfold env_square, f_powf, f_powi. rewrite Q. reflexivity. }
  constructor; [exact P|constructor; [exact P|constructor; [exact P|constructor]]].
Qed.
(** [Length / &Time] in both builds. *)
Definition f64_int (l t : Z) : base_ty (ops IntegerExponents) := @TyQ (ops IntegerExponents) (Known (Float F64)) [("length", l); ("time", t)].
Definition f64_rat (l t : ratio) : base_ty (ops RationalExponents) := @TyQ (ops RationalExponents) (Known (Float F64)) [("length", l); ("time", t)].
Example C76_operators_apply :
  compiles (ops IntegerExponents) ["length"; "time"] std_raw_op std_raw_copy all_features TDiv
    (Value, f64_int 1 0) (Reference, f64_int 0 1) (Some (Known (Float F64), [("length", 1%Z); ("time", (-1)%Z)])) /\
  compiles (ops RationalExponents) ["length"; "time"] std_raw_op std_raw_copy all_features TDiv
    (Value, f64_rat (mkRatio 1 1) (mkRatio 0 1)) (Reference, f64_rat (mkRatio 0 1) (mkRatio 1 1))
    (Some (Known (Float F64), [("length", mkRatio 1 1); ("time", mkRatio (-1) 1)])).
Proof.
  assert (C : compiles (ops IntegerExponents) ["length"; "time"] std_raw_op std_raw_copy all_features TDiv
    (Value, f64_int 1 0) (Reference, f64_int 0 1) (Some (Known (Float F64), [("length", 1%Z); ("time", (-1)%Z)]))).
  { apply (compiles_iff_spec _ _ _ _ _ _ _ _ _ (std_storages_ok all_features)).
    exists (Known (Float F64)). split; [repeat split; reflexivity|]. split; [now left|]. split; [now right|].
    eexists. split; [|reflexivity]. vm_compute. reflexivity. }
  split; [exact C|]. apply C76_operators_partial in C; [exact C|apply std_storages_ok| | |].
  - constructor; [cbn [snd]; lia|constructor; [cbn [snd]; lia|constructor]].
  - constructor; [cbn [snd]; lia|constructor; [cbn [snd]; lia|constructor]].
  - intros _. constructor; [cbn [snd]; lia|constructor; [cbn [snd]; lia|constructor]].
Qed.
