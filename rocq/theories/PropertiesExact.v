(** * C73: one exact meaning; C74: usable factors *)
From Coq Require Import String List Bool ZArith QArith Qreals Reals Lra Lia.
From Flocq Require Import Core IEEE754.Binary.
From Verif Require Import MachineInt Ratio F64 Magnitude Exponent Expression Types PrefixSpec ExpansionSpec Resolve
  SystemSpec Setting ExampleSystems Parse Grammar ParseFacts Accuracy RoundingSpec RoundingFacts AccuracyFacts
  PropertiesParse ResolveFacts ResolveEquations Expansion SystemFacts PropertiesSystem Sources SiTree PropertiesSources PropertiesSI PropertiesAccuracy ExactFacts.
Import ListNotations.
Close Scope Q_scope. Close Scope R_scope.
Local Open Scope string_scope.
Local Open Scope list_scope.

(** The definitions of units and constants use whole exponents only. *)
Definition whole_exponents (f : slist stmt) : Prop := forall n x, In (n, XExpr x) (file_defs f) -> int_x x.
Lemma integer_whole f (T : template IntegerExponents) : mean_file IntegerExponents f = Some T -> whole_exponents f.
Proof. intros M n x H. destruct (source_decl f T n _ M H) as (y & _ & _ & _ & I & _). exact (I eq_refl). Qed.
Lemma whole_defs f : whole_exponents f -> forall n d, In (n, d) (file_defs f) -> int_def d.
Proof. intros H n [|x|j i] Hd; [exact Logic.I|exact (H n x Hd)|exact Logic.I]. Qed.

(** The unit and constant definitions of an accepted file, read as equations between rational
    numbers, have a solution, and only one: the exact values C66, C71 and C72 speak about exist and
    are determined by the text.  (Division by zero counts as zero here.)  With rational exponents a
    fractional power of a unit need not be a rational number, so existence is stated for whole exponents. *)
Theorem C73_one_meaning : forall k env f T o,
  wf_file f -> parse_system k (print_file f) = Some T ->
  run_unit_system (ops k) env T = Some (o, []) ->
  (k = IntegerExponents \/ whole_exponents f -> exists G, exact_solution G f) /\
  (forall G G', exact_solution G f -> exact_solution G' f ->
   forall n d, In (n, d) (file_defs f) -> (G n == G' n)%Q).
Proof.
  intros k env f T o W E R. rewrite parse_print in E by exact W. split.
  - intros Wh. apply (solution_exists env f T o E R). apply whole_defs. destruct Wh as [Ek|Wh]; [|exact Wh]. destruct k; [exact (integer_whole f T E)|discriminate Ek].
  - exact (solution_unique env f T o E R).
Qed.
Print Assumptions C73_one_meaning.

(** Every unit and constant of the output has a definition in the text and conversely, under the same
    name, and no name is defined twice. *)
Theorem C73_names : forall k env f T o,
  wf_file f -> parse_system k (print_file f) = Some T ->
  run_unit_system (ops k) env T = Some (o, []) ->
  NoDup (map fst (file_defs f)) /\
  forall n, In n (map un_name (df_units o) ++ map c_name (df_constants o)) <-> In n (map fst (file_defs f)).
Proof.
  intros k env f T o W E R. rewrite parse_print in E by exact W. pose proof (file_names f T E) as P.
  pose proof (accepted_wf env T o R) as Wf. split.
  - apply (Permutation.Permutation_NoDup (Permutation.Permutation_sym P)). pose proof (wf_names _ _ Wf) as N. unfold decls in N.
    rewrite !map_app, !map_map in N. clear - N. revert N. generalize (map (fun x => decl_name (DDimension x)) (u_dimensions (declared T))).
    intros l. induction l as [|a l IH]; [auto|]. cbn [app]. intros N. inversion N; subst. auto.
  - intros n.
    destruct (unit_results _ (laws k) env _ o (generated_ok_expand _ T) R) as (U1 & _ & U3).
    pose proof (constant_results _ (laws k) env _ o (generated_ok_expand _ T) R) as Cr.
    rewrite declared_expand in *.
    assert (K : forall n, In n (map fst (file_defs f)) <-> In n (map ue_name (u_units (declared T)) ++ map ce_name (u_constants T))).
    { intros m. split; apply Permutation.Permutation_in; [exact P|now apply Permutation.Permutation_sym]. }
    rewrite K, !in_app_iff, !in_map_iff. split.
    + intros [(u & <- & Hu)|(c & <- & Hc)].
      * left. destruct (U3 u Hu) as (e & He & En). eauto.
      * right. destruct (proj1 (Cr (c_name c)) (ex_intro _ c (conj Hc eq_refl))) as (e & He & En). exists e. auto.
    + intros [(e & <- & He)|(e & <- & He)].
      * left. destruct (U1 e He) as (u & Hu & En). eauto.
      * right. destruct (proj2 (Cr (ce_name e)) (ex_intro _ e (conj He eq_refl))) as (c & Hc & En). eauto.
Qed.
Print Assumptions C73_names.
Example C73_applies : exists T o, wf_file acre_file /\ parse_system IntegerExponents (print_file acre_file) = Some T /\
  run_unit_system (ops IntegerExponents) env0 T = Some (o, []).
Proof. destruct C71_applies as (T & o & _ & _ & W & _ & _ & E & R & _). eauto. Qed.

(** ** C74 *)
(** Every unit of an accepted file has a finite, non-zero factor. *)
Definition C74_statement : Prop := forall f T o n v,
  wf_file f -> parse_system IntegerExponents (print_file f) = Some T ->
  run_unit_system (ops IntegerExponents) env0 T = Some (o, []) ->
  denotes_fac IntegerExponents env0 o n v -> is_finite 53 1024 v = true /\ B2R 53 1024 v <> 0%R.

(** [unit x = a * b * meter;] *)
Definition scaled_file (a b : slit) : slist stmt := {| sl_trailing := false; sl_items :=
  [SQuantityType [] "Quantity"; SDimensionType [] "Dimension"; SDimension [] "Length" None;
   SUnit [UBase "Length"; USymbol "m"] "meter" None None;
   SUnit [] "x" None (Some (SxBin (SxBin (SxOne (SfVal (AtLit a))) ByStar (SfVal (AtLit b))) ByStar (SfVal (AtIdent "meter"))))] |}.
Lemma scaled_wf a b : wf_file (scaled_file a b).
Proof.
  split; [easy|]. cbn [sl_items scaled_file]. unfold wf_stmt, wf_ident.
  repeat (first [apply accept_name; reflexivity | apply Forall_nil | constructor | discriminate | reflexivity]).
Qed.
Definition has_factor (c : f64 -> bool) (a b : slit) : bool :=
  match parse_system IntegerExponents (print_file (scaled_file a b)) with
  | Some T => match run_unit_system (ops IntegerExponents) env0 T with
              | Some (o, []) => existsb (fun u => String.eqb (un_name u) "x" && c (into_f64 env0 (un_mag u))) (df_units o)
              | _ => false
              end
  | None => false
  end.
Lemma has_factor_ok c a b : has_factor c a b = true -> exists T o v,
  parse_system IntegerExponents (print_file (scaled_file a b)) = Some T /\
  run_unit_system (ops IntegerExponents) env0 T = Some (o, []) /\
  denotes_fac IntegerExponents env0 o "x" v /\ c v = true.
Proof.
  unfold has_factor. destruct (parse_system IntegerExponents (print_file (scaled_file a b))) as [T|]; [|discriminate].
  destruct (run_unit_system (ops IntegerExponents) env0 T) as [[o [|]]|] eqn:R; try discriminate. intros H.
  apply existsb_exists in H as (u & Hu & H). apply andb_true_iff in H as [Hn Hc]. apply String.eqb_eq in Hn.
  exists T, o, (into_f64 env0 (un_mag u)). repeat split; auto. left. eauto.
Qed.
Definition is_zero (v : f64) : bool := match v with B754_zero _ _ _ => true | _ => false end.
Definition not_finite (v : f64) : bool := negb (is_finite 53 1024 v).

(** Refuted: [0 * 1 * meter] is accepted with the factor 0, [1e200 * 1e200 * meter] with an infinite
    one, and [1e-200 * 1e-200 * meter], whose exact value is positive, with the factor 0. *)
Theorem C74_refuted : ~ C74_statement /\
  (exists T o v, parse_system IntegerExponents (print_file (scaled_file (SDec false 1 200) (SDec false 1 200))) = Some T /\
     run_unit_system (ops IntegerExponents) env0 T = Some (o, []) /\
     denotes_fac IntegerExponents env0 o "x" v /\ is_finite 53 1024 v = false) /\
  (exists T o v, parse_system IntegerExponents (print_file (scaled_file (SDec false 1 (-200)) (SDec false 1 (-200)))) = Some T /\
     run_unit_system (ops IntegerExponents) env0 T = Some (o, []) /\
     denotes_fac IntegerExponents env0 o "x" v /\ B2R 53 1024 v = 0%R).
Proof.
  assert (Z : forall v, is_zero v = true -> B2R 53 1024 v = 0%R) by (intros [| | |]; easy).
  split; [|split].
  - intros St. destruct (has_factor_ok is_zero (SInt false 0) (SInt false 1) ltac:(vm_compute; reflexivity)) as (T & o & v & E & R & V & C).
    destruct (St _ T o "x" v (scaled_wf _ _) E R V) as [_ H]. apply H. now apply Z.
  - destruct (has_factor_ok not_finite (SDec false 1 200) (SDec false 1 200) ltac:(vm_compute; reflexivity)) as (T & o & v & E & R & V & C).
    exists T, o, v. repeat split; auto. unfold not_finite in C. now destruct (is_finite 53 1024 v).
  - destruct (has_factor_ok is_zero (SDec false 1 (-200)) (SDec false 1 (-200)) ltac:(vm_compute; reflexivity)) as (T & o & v & E & R & V & C).
    exists T, o, v. repeat split; auto.
Qed.
Print Assumptions C74_refuted.

(** It holds where C71 applies: every factor is finite, and of the sign of the exact value, which is not zero. *)
Theorem C74_partial : forall k env lo f T o G C,
  good_platform env lo -> (lo <= -953)%Z -> accurate_pow k env ->
  wf_file f -> parse_system k (print_file f) = Some T ->
  run_unit_system (ops k) env T = Some (o, []) ->
  budget G C f ->
  forall n v, denotes_fac k env o n v ->
    is_finite 53 1024 v = true /\
    ((0 < G n)%Q /\ (0 < B2R 53 1024 v)%R \/ (G n < 0)%Q /\ (B2R 53 1024 v < 0)%R).
Proof.
  intros k env lo f T o G C P Low A W E R B n v V. rewrite parse_print in E by exact W.
  assert (Few : forall s, small (C s)) by exact (proj2 B).
  destruct (factors_near k env lo P Low A G C Few f T o E R B n v V) as [F (t & Bt & Ev)]. split; [exact F|].
  assert (Nz : Q2R (G n) <> 0%R).
  { assert (In n (map fst (file_defs f))).
    { destruct (C73_names k env f T o W ltac:(now rewrite parse_print) R) as [_ K]. apply K. rewrite in_app_iff, !in_map_iff.
      destruct V as [(u & Hu & Eu & _)|(c & Hc & Ec & _)]; eauto. }
    apply in_map_iff in H as ([n' d] & En & Hd). cbn [fst] in En. subst n'.
    destruct (proj1 B n d Hd) as (q & c & Rd & Eq & _). rewrite (Qeq_eqR _ _ Eq).
    destruct (rounds_moderate G C) as [Mx _]. destruct Rd as [|x q m Rx|i Mi|j i _ _ Mq].
    - unfold Q2R. cbn. lra.
    - apply moderate_nonzero. exact (Mx x q m Rx).
    - now apply moderate_nonzero.
    - now apply moderate_nonzero. }
  pose proof (pw (C n)) as Pw. assert (Pt : (0 < t)%R) by lra. rewrite Ev.
  destruct (Rtotal_order (Q2R (G n)) 0) as [L|[Z|L]]; [right|contradiction|left].
  - split; [|nra]. apply Rlt_Qlt. now rewrite AccuracyFacts.Q2R_0.
  - split; [|nra]. apply Rlt_Qlt. now rewrite AccuracyFacts.Q2R_0.
Qed.
Print Assumptions C74_partial.

(** ** C71 for the bundled SI system, in both builds *)
Lemma si_near k env lo : good_platform env lo -> (lo <= -953)%Z -> accurate_pow k env ->
  forall T o, parse_system k si_source = Some T -> run_unit_system (ops k) env T = Some (o, []) ->
  forall G, exact_solution G si_file -> forall n v, denotes_fac k env o n v -> approx 21 (Q2R (G n)) v.
Proof.
  intros P Low A T o E R G S n v V. destruct si_budget as [B Le]. rewrite <- si_printed in E. pose proof E as M. rewrite parse_print in M by exact si_wf.
  assert (Few : forall s, small (tC si_table s)) by exact (proj2 B).
  pose proof (factors_near k env lo P Low A _ _ Few si_file T o M R B n v V) as K.
  assert (Hn : In n (map fst (file_defs si_file))).
  { apply (proj2 (C73_names k env si_file T o si_wf E R)). apply in_app_iff. rewrite !in_map_iff.
    destruct V as [(u & Hu & Eu & _)|(c & Hc & Ec & _)]; eauto. }
  apply in_map_iff in Hn as ((n' & d) & En & Hd). cbn [fst] in En. subst n'.
  apply (approx_mono (tC si_table n)); [apply Le|]. eapply approx_eq; [|exact K].
  exact (proj2 (C73_one_meaning k env si_file T o si_wf E R) _ _ (C71_budget_is_exact _ _ _ B) S n d Hd).
Qed.
Theorem C71_si : forall k env lo, good_platform env lo -> (lo <= -953)%Z -> accurate_pow k env ->
  exists T o, parse_system k si_source = Some T /\ run_unit_system (ops k) env T = Some (o, []) /\
  forall G, exact_solution G si_file -> forall n v, denotes_fac k env o n v ->
    is_finite 53 1024 v = true /\
    (Rabs (B2R 53 1024 v - Q2R (G n)) <= 42 * bpow radix2 (-53) * Rabs (Q2R (G n)))%R.
Proof.
  intros k env lo P Low A. destruct (C64_accepted k env) as (T & o & E & R & _). exists T, o. split; [exact E|]. split; [exact R|].
  intros G S n v V. destruct (si_near k env lo P Low A T o E R G S n v V) as [F N]. split; [exact F|].
  pose proof (RoundingFacts.near_error 21 _ _ ltac:(lia) N) as K. replace 42%R with (2 * INR 21)%R by (cbn; lra). exact K.
Qed.
Print Assumptions C71_si.
