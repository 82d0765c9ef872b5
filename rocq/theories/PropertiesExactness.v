(** * Exactly when the properties that fail do hold: C42, C45, C67, C69 *)
From Coq Require Import String Ascii List Bool ZArith QArith Qcanon Lia.
From Verif Require Import MachineInt Ratio RatioFacts F64 Magnitude Exponent ExponentFacts SMap Snake Expression DimensionMath
  DimensionMathFacts Types PrefixSpec ExpansionSpec Resolve ResolveLoop ResolveChecks SystemSpec ResolveFacts ResolveEquations ResolveAccept
  ResolveReports Expansion Setting SystemFacts ExampleSystems PropertiesSystem CodegenDimension CodegenDimensionFacts PropertiesDimension
  RemovalFacts AnnotationFacts PropertiesReports NumericFacts ReportFacts SnakeFacts.
From Coq Require Import Reals Lra.
From Flocq Require Import Core.Core IEEE754.Binary.
From Verif Require Import PropertiesNumeric.
Import ListNotations.
Close Scope R_scope.
Close Scope Q_scope. Close Scope Qc_scope.
Local Open Scope string_scope.
Local Open Scope list_scope.
Local Open Scope Z_scope.

(** ** C42: two fractions give the same ratio exactly if they are equal as numbers *and* their denominators
    have the same sign. *)
Theorem C42_exactly : forall n1 d1 n2 d2 r1 r2, d1 <> 0 -> d2 <> 0 ->
  rnew Checked n1 d1 = Some r1 -> rnew Checked n2 d2 = Some r2 ->
  (r1 = r2 <-> n1 * d2 = n2 * d1 /\ 0 < d1 * d2).
Proof.
  intros n1 d1 n2 d2 r1 r2 N1 N2 H1 H2. split.
  - intros <-. apply rnew_checked_Some in H1 as (P1 & E1 & F1 & _), H2 as (P2 & E2 & F2 & _).
    set (g1 := Z.gcd n1 d1) in *. set (g2 := Z.gcd n2 d2) in *. clearbody g1 g2. subst n1 d1 n2 d2. split; [ring|].
    assert (denom r1 <> 0) by nia. assert (0 < denom r1 * denom r1) by nia.
    replace (denom r1 * g1 * (denom r1 * g2)) with (denom r1 * denom r1 * (g1 * g2)) by ring.
    apply Z.mul_pos_pos; [assumption|]. apply Z.mul_pos_pos; assumption.
  - intros [E P]. exact (rnew_same_sign n1 d1 n2 d2 r1 r2 P H1 H2 E).
Qed.
Print Assumptions C42_exactly.
Example C42_exactly_applies :
  rnew Checked 6 4 = Some (mkRatio 3 2) /\ rnew Checked 3 2 = Some (mkRatio 3 2) /\ rnew Checked (-6) (-4) = Some (mkRatio (-3) (-2)).
Proof. repeat split. Qed.

(** ** C45: the factor of [unit a = u^e] is computed with the low 32 bits of [e], its dimension with [e]. *)
Theorem C45_actual : forall env lo (T : unresolved (int_exp Checked) (unit_template (int_exp Checked))) o n u a (e : Z),
  good_platform env lo ->
  run_unit_system (int_exp Checked) env T = Some (o, []) ->
  In n (u_units T) -> ut_definition n = DefExpr (EVal (FPow (Other (un_name u)) (e : int_exp Checked))) ->
  In u (df_units o) -> In a (df_units o) -> un_name a = ut_name n ->
  (exists e', (2 ^ 32 | e' - e) /\ - 2 ^ 31 <= e' < 2 ^ 31 /\
     into_f64 env (un_mag a) = stored env (f_powi env (into_f64 env (un_mag u)) e')) /\
  forall b, vec_of _ int_laws (un_dims a) b = (vec_of _ int_laws (un_dims u) b * ZQc e)%Qc.
Proof.
  intros env lo T o n u a e [Hlo Hp] Hr Hn Hd Hu Ha En.
  set (x := DUnit (expand_one n None None)).
  assert (Hx : In x (decls (expand_templates T))) by (apply (expanded_In (int_exp Checked)); auto).
  assert (En' : decl_name x = un_name a) by (symmetry; exact En).
  split.
  - exists (as_i32 e). split; [apply wrap_congr; lia|]. split; [apply (wrap_bound 32); lia|].
    destruct (fac_equations _ int_laws env (pow_int env) lo _ o (pow_int_law Checked env) ltac:(lia) Hp
              (generated_ok_expand _ T) Hr x Hx ltac:(easy)) as [_ E].
    specialize (E (into_f64 env (un_mag a))). rewrite En' in E.
    assert (Ra : fac_result (int_exp Checked) env o (un_name a) (into_f64 env (un_mag a))).
    { left. exists a. auto. }
    apply E in Ra. unfold x in Ra. simpl in Ra. rewrite Hd in Ra.
    inversion Ra as [f v Hf| |]; subst. inversion Hf as [| | |m p v Hv|]; subst.
    assert (Ev : v = into_f64 env (un_mag u)).
    { eapply fac_result_functional; [exact Hr|exact Hv|]. left. exists u. auto. }
    subst v. reflexivity.
  - assert (Vd : exponents_valid (int_exp Checked) int_laws (expand_templates T)).
    { intros y p _ _. exact Logic.I. }
    destruct (dim_equations _ int_laws env _ o (generated_ok_expand _ T) Vd Hr x Hx) as [_ E].
    specialize (E (vec_of _ int_laws (un_dims a))). rewrite En' in E.
    assert (Ra : dim_result (int_exp Checked) int_laws o (un_name a) (vec_of _ int_laws (un_dims a))).
    { right; left. exists a. repeat split; auto. now apply vec_is_iff. }
    apply E in Ra. unfold x in Ra. simpl in Ra. rewrite Hd in Ra.
    inversion Ra as [f v Hf| |]; subst. inversion Hf as [| | |m p v1 v Hv Ev|]; subst.
    intros b. rewrite Ev.
    assert (Eu : v1 b = vec_of _ int_laws (un_dims u) b).
    { eapply (dim_result_functional _ int_laws env); [exact Hr|exact Hv|].
      right; left. exists u. repeat split; auto. now apply vec_is_iff. }
    rewrite Eu. reflexivity.
Qed.
Print Assumptions C45_actual.
(** [unit a = kilometer^4294967296]. *)
Example C45_actual_applies : exists o a u n,
  good_platform env0 (-1023) /\ run_unit_system (int_exp Checked) env0 big_power = Some (o, []) /\
  In n (u_units big_power) /\ ut_definition n = DefExpr (EVal (FPow (Other (un_name u)) (4294967296 : int_exp Checked))) /\
  In u (df_units o) /\ In a (df_units o) /\ un_name a = ut_name n.
Proof.
  destruct big_power_result as (o & a & u & Er & Ia & Na & Iu & Nu & _ & _).
  exists o, a, u, (nth 2 (u_units big_power) (meter IntegerExponents)). split; [apply good0|]. split; [exact Er|].
  split; [simpl; auto|]. split; [now rewrite Nu|]. split; [exact Iu|]. split; [exact Ia|exact Na].
Qed.

(** ** C67: a build without overflow checks evaluates every dimension the checked build evaluates, and where
    the checked build rejects the program it always goes on with a wrong one. *)
Section Release.
Context (fields : list string).
Notation dimension := (list (string * Z)).
Definition release_result2 (op : Z -> Z -> Z) (a b : dimension) (release checked : option dimension) : Prop :=
  exists c, release = Some c /\ map fst c = fields /\
    (forall f x y z, In (f, x) a -> In (f, y) b -> In (f, z) c -> (2 ^ 64 | z - op x y) /\ - 2 ^ 63 <= z < 2 ^ 63) /\
    (checked = Some c <-> forall f x y z, In (f, x) a -> In (f, y) b -> In (f, z) c -> z = op x y) /\
    (checked <> Some c -> checked = None).
Definition release_result1 (op : Z -> Z) (a : dimension) (release checked : option dimension) : Prop :=
  exists c, release = Some c /\ map fst c = fields /\
    (forall f x z, In (f, x) a -> In (f, z) c -> (2 ^ 64 | z - op x) /\ - 2 ^ 63 <= z < 2 ^ 63) /\
    (checked = Some c <-> forall f x z, In (f, x) a -> In (f, z) c -> z = op x) /\
    (checked <> Some c -> checked = None).
End Release.

Lemma release2 fields op a b : NoDup fields -> map fst a = fields -> map fst b = fields ->
  release_result2 fields op a b (entries2 (int_exp Wrapping) fields (fun x y => fit Wrapping (op x y)) a b)
    (entries2 (int_exp Checked) fields (fun x y => fit Checked (op x y)) a b).
Proof.
  intros N Ha Hb.
  assert (Na : NoDup (map fst a)) by congruence. assert (Nb : NoDup (map fst b)) by congruence.
  destruct (proj2 (entries2_defined (int_exp Wrapping) fields N (fun x y => fit Wrapping (op x y)) a b Ha Hb)) as [c Hc].
  { intros f x y _ _. apply fit_wrapping_total. }
  exists c. split; [exact Hc|].
  destruct (entries2_spec (int_exp Wrapping) fields N _ _ _ _ Hc) as [Sc Gc]. unfold shaped in Sc. split; [exact Sc|].
  assert (Nc : NoDup (map fst c)) by congruence.
  assert (K : forall f x y z, In (f, x) a -> In (f, y) b -> In (f, z) c -> fit Wrapping (op x y) = Some z).
  { intros f x y z Hx Hy Hz. apply (sget_nodup c f z Nc) in Hz. apply Gc in Hz as (_ & x' & y' & Ex & Ey & Ez).
    apply (sget_nodup a f x Na) in Hx. apply (sget_nodup b f y Nb) in Hy. cbn [exT int_exp] in *. rewrite Hx in Ex. rewrite Hy in Ey. injection Ex as <-. injection Ey as <-. exact Ez. }
  assert (Q : entries2 (int_exp Checked) fields (fun x y => fit Checked (op x y)) a b = Some c <->
              forall f x y z, In (f, x) a -> In (f, y) b -> In (f, z) c -> z = op x y).
  { split.
    - intros H f x y z Hx Hy Hz. destruct (entries2_spec (int_exp Checked) fields N _ _ _ _ H) as [_ G].
      apply (sget_nodup c f z Nc) in Hz. apply G in Hz as (_ & x' & y' & Ex & Ey & Ez).
      apply (sget_nodup a f x Na) in Hx. apply (sget_nodup b f y Nb) in Hy.
      apply fit_checked_Some in Ez as [-> _]. cbn [exT int_exp] in *. rewrite Hx in Ex. rewrite Hy in Ey. injection Ex as <-. injection Ey as <-. reflexivity.
    - intros H.
      destruct (proj2 (entries2_defined (int_exp Checked) fields N (fun x y => fit Checked (op x y)) a b Ha Hb)) as [d Hd].
      { intros f x y Hx Hy.
        assert (Hf : In f (map fst c)) by (rewrite Sc, <- Ha; exact (in_map fst _ _ Hx)).
        apply in_map_iff in Hf as ([f' z] & Ef & Hz). cbn in Ef. subst f'. exists z.
        pose proof (K f x y z Hx Hy Hz) as E. pose proof (H f x y z Hx Hy Hz) as Ez. apply fit_range in E.
        rewrite Ez in *. now apply fit_in. }
      rewrite Hd. f_equal. destruct (entries2_spec (int_exp Checked) fields N _ _ _ _ Hd) as [Sd Gd].
      apply (shaped_ext (int_exp Checked) fields N d c Sd Sc). intros f Hf.
      destruct (sget f d) as [v|] eqn:E.
      + symmetry. apply Gc. apply Gd in E as (I1 & x & y & Ex & Ey & Ez). split; [exact I1|]. exists x, y.
        split; [exact Ex|]. split; [exact Ey|]. cbv beta in *. now apply fit_checked_agrees.
      + exfalso. unfold shaped in Sd. rewrite <- Sd in Hf.
        assert (Nd : NoDup (map fst d)) by congruence.
        destruct (sget_self_map d f Nd Hf) as (w & Ew & _). cbn [exT int_exp] in *. congruence. }
  split; [|split; [exact Q|]].
  - intros f x y z Hx Hy Hz. pose proof (K f x y z Hx Hy Hz) as E. split; [exact (fit_wrapping_congr _ _ E)|].
    apply fit_range in E. now apply in_i64_iff.
  - intros H. destruct (entries2 (int_exp Checked) fields (fun x y => fit Checked (op x y)) a b) as [d|] eqn:E; [|reflexivity].
    exfalso. apply H. f_equal. destruct (entries2_spec (int_exp Checked) fields N _ _ _ _ E) as [Sd Gd].
    apply (shaped_ext (int_exp Checked) fields N d c Sd Sc). intros f Hf.
    destruct (sget f d) as [v|] eqn:Ed.
    + symmetry. apply Gc. apply Gd in Ed as (I1 & x & y & Ex & Ey & Ez). split; [exact I1|]. exists x, y.
      split; [exact Ex|]. split; [exact Ey|]. cbv beta in *. now apply fit_checked_agrees.
    + exfalso. unfold shaped in Sd. rewrite <- Sd in Hf.
      assert (Nd : NoDup (map fst d)) by congruence.
      destruct (sget_self_map d f Nd Hf) as (w & Ew & _). cbn [exT int_exp] in *. congruence.
Qed.
Lemma release1 fields op a : NoDup fields -> map fst a = fields ->
  release_result1 fields op a (entries1 (int_exp Wrapping) fields (fun x => fit Wrapping (op x)) a)
    (entries1 (int_exp Checked) fields (fun x => fit Checked (op x)) a).
Proof.
  intros N Ha.
  assert (R : forall m, entries1 (int_exp m) fields (fun x => fit m (op x)) a = entries2 (int_exp m) fields (fun x _ => fit m (op x)) a a).
  { intros m. unfold entries1, entries2. clear N Ha. induction fields as [|f fs IH]; [reflexivity|]. cbn [mapM exT int_exp]. 
    cbn [exT int_exp] in IH. rewrite IH. destruct (sget f a); reflexivity. }
  rewrite !R. destruct (release2 fields (fun x _ => op x) a a N Ha Ha) as (c & E1 & E2 & E3 & E4 & E5).
  assert (Na : NoDup (map fst a)) by congruence.
  exists c. split; [exact E1|]. split; [exact E2|]. split; [intros f x z Hx Hz; exact (E3 f x x z Hx Hx Hz)|]. split; [|exact E5].
  rewrite E4. split; [intros H f x z Hx Hz; exact (H f x x z Hx Hx Hz)|intros H f x y z Hx _ Hz; exact (H f x z Hx Hz)].
Qed.

Theorem C67_exactly : forall fields (a b : list (string * Z)) n,
  NoDup fields -> map fst a = fields -> map fst b = fields ->
  release_result2 fields Z.add a b (dim_add (int_exp Wrapping) fields a b) (dim_add (int_exp Checked) fields a b) /\
  release_result2 fields Z.sub a b (dim_sub (int_exp Wrapping) fields a b) (dim_sub (int_exp Checked) fields a b) /\
  release_result1 fields Z.opp a (dim_neg (int_exp Wrapping) fields a) (dim_neg (int_exp Checked) fields a) /\
  release_result1 fields (fun x => x * n) a (dim_mul (int_exp Wrapping) fields a n) (dim_mul (int_exp Checked) fields a n).
Proof.
  intros fields a b n N Ha Hb. unfold dim_add, dim_sub, dim_neg, dim_mul. rewrite !method2_eq, !method1_eq by exact N.
  split; [exact (release2 fields Z.add a b N Ha Hb)|]. split; [exact (release2 fields Z.sub a b N Ha Hb)|].
  split; [exact (release1 fields Z.opp a N Ha)|exact (release1 fields (fun x => x * n) a N Ha)].
Qed.
Print Assumptions C67_exactly.

(** A checked and an unchecked build differ on [Length^(2^62) * Length^(2^62)]. *)
Example C67_exactly_applies :
  let a := [("length", 2 ^ 62); ("time", 1)] in
  dim_add (int_exp Wrapping) ["length"; "time"] a a = Some [("length", - 2 ^ 63); ("time", 2)] /\
  dim_add (int_exp Checked) ["length"; "time"] a a = None.
Proof. split; reflexivity. Qed.

(** ** C69: what is reported about a system that is otherwise well formed: one report for every declaration
    (every prefixed and aliased name of a unit is one, and carries the unit's annotation) whose annotation
    is not satisfied in the sense of C31/C32, and nothing else. *)
Theorem C69_exactly : forall k env (T : template k) o ds,
  run_unit_system (ops k) env T = Some (o, ds) -> literals_ok k T -> well_formed (declared T) ->
  exists xs, NoDup xs /\
    (forall x, In x xs <-> In x (decls (declared T)) /\ exists a, annotation x = Some a /\
       ~ ((exists d, In d (u_dimensions T) /\ de_name d = a) /\
          forall b, built_from (declared T) a b -> built_from (declared T) (decl_name x) b /\
            forall v w, denotes_dim k o a v -> denotes_dim k o (decl_name x) w -> w b = v b)) /\
    Forall2 (fun x d => exists a, annotation x = Some a /\ annotation_report (declared T) a d) xs ds.
Proof.
  intros k env T o ds H [_ Hv] W. pose proof (generated_ok_expand _ T) as Gn. unfold run_unit_system in H.
  rewrite <- !declared_expand in *.
  exact (all_reports _ (laws k) env _ o ds Gn H W Hv).
Qed.
Print Assumptions C69_exactly.

(** A system is well formed exactly if nothing but annotations is reported about it. *)
Theorem C69_other_reports : forall k env (T : template k) o ds,
  run_unit_system (ops k) env T = Some (o, ds) -> literals_ok k T ->
  (well_formed (declared T) <-> forallb about_annotation ds = true).
Proof.
  intros k env T o ds H Lt. split.
  - intros W. destruct (C69_exactly k env T o ds H Lt W) as (xs & _ & _ & F). apply forallb_forall. clear H.
    induction F as [|x d xs ds (a & _ & Rp) F IH]; [intros d []|]. intros d' [<-|Hd]; [|exact (IH d' Hd)].
    destruct Rp; reflexivity.
  - intros E. pose proof (generated_ok_expand _ T) as Gn. unfold run_unit_system in H. rewrite <- !declared_expand in *.
    exact (well_formed_reports _ env _ o ds Gn H E).
Qed.
Print Assumptions C69_other_reports.

(** The system of the refutation is well formed: its seventeen reports are those of [a] and of its sixteen
    prefixed names. *)
Example C69_exactly_applies : forall k, exists o ds,
  run_unit_system (ops k) env0 (violating k) = Some (o, ds) /\ literals_ok k (violating k) /\
  well_formed (declared (violating k)) /\ violation_reports "Time" ds = 17%nat /\ length ds = 17%nat.
Proof.
  intros k.
  assert (B : match run_unit_system (ops k) env0 (violating k) with
              | Some (_, ds) => Nat.eqb (violation_reports "Time" ds) 17 && forallb about_annotation ds && Nat.eqb (length ds) 17
              | None => false end = true) by (destruct k; vm_compute; reflexivity).
  destruct (run_unit_system (ops k) env0 (violating k)) as [[o ds]|] eqn:E; [|discriminate].
  rewrite !andb_true_iff in B. destruct B as [[B1 B2] B3]. exists o, ds. split; [reflexivity|].
  assert (Lt : literals_ok k (violating k)).
  { apply template_literals. repeat apply conj.
    - intros t e [<-|[<-|[<-|[]]]] E'; try discriminate E'; inversion E'; subst; clear E'; simpl; split; try easy;
        intros c H; repeat destruct H as [H|H]; try easy; inversion H; subst; try (eexists; reflexivity); apply (l_of_i32 _ (laws k)).
    - intros c Hc. exact (match Hc with end).
    - intros d e [<-|[<-|[<-|[]]]] E'; try discriminate E'; inversion E'; subst; clear E'; simpl. easy. }
  split; [exact Lt|]. split; [exact (proj2 (C69_other_reports k env0 _ o ds E Lt) B2)|]. now rewrite !Nat.eqb_eq in *.
Qed.

(** ** C59: exactly which base dimensions get the same field: their names differ at most in the case of the
    first letter and in spelling a capital [X] inside the name as [_x]. *)
Inductive same_spelling : list ascii -> list ascii -> Prop :=
| same_nil : same_spelling [] []
| same_char c l l' : same_spelling l l' -> same_spelling (c :: l) (c :: l')
| same_left c l l' : is_upper c = true -> same_spelling l l' -> same_spelling (c :: l) ("_"%char :: to_lower c :: l')
| same_right c l l' : is_upper c = true -> same_spelling l l' -> same_spelling ("_"%char :: to_lower c :: l) (c :: l').
Inductive colliding : string -> string -> Prop :=
| collide_empty : colliding "" ""
| collide_names c c' a b : to_lower c = to_lower c' -> same_spelling (list_ascii_of_string a) (list_ascii_of_string b) ->
    colliding (String c a) (String c' b).

Lemma lower_not_upper c : is_upper (to_lower c) = false.
Proof. destruct c as [[] [] [] [] [] [] [] []]; reflexivity. Qed.
Lemma same_spelling_iff : forall l l', snake_list false l = snake_list false l' <-> same_spelling l l'.
Proof.
  intros l l'. split.
  - remember (length l + length l')%nat as n eqn:En. assert (Hn : (length l + length l' <= n)%nat) by lia. clear En.
    revert l l' Hn. induction n as [|n IH]; intros [|c l] [|d l'] Hn H; cbn [length] in Hn; try lia; try constructor; cbn [snake_list] in H.
    + destruct (is_upper d); discriminate H.
    + destruct (is_upper c); discriminate H.
    + rewrite !andb_true_r in H. destruct (is_upper c) eqn:Uc, (is_upper d) eqn:Ud; cbn [app] in H; injection H as H1 H2.
      * assert (c = d) by (apply to_lower_inj; congruence). subst d. apply same_char, IH; [lia|exact H2].
      * rewrite (to_lower_lower d Ud) in H1. subst d. destruct l' as [|e l']; [discriminate H2|]. cbn [snake_list negb] in H2.
        destruct (is_upper e) eqn:Ue; cbn [andb app] in H2; injection H2 as H3 H4.
        -- exfalso. exact (to_lower_upper c Uc H3).
        -- rewrite (to_lower_lower e Ue) in H3. subst e. apply same_left; [exact Uc|]. apply IH; [cbn [length] in Hn; lia|exact H4].
      * rewrite (to_lower_lower c Uc) in H1. subst c. destruct l as [|e l]; [discriminate H2|]. cbn [snake_list negb] in H2.
        destruct (is_upper e) eqn:Ue; cbn [andb app] in H2; injection H2 as H3 H4.
        -- exfalso. symmetry in H3. exact (to_lower_upper d Ud H3).
        -- rewrite (to_lower_lower e Ue) in H3. subst e. apply same_right; [exact Ud|]. apply IH; [cbn [length] in Hn; lia|exact H4].
      * assert (c = d) by (apply to_lower_inj; congruence). subst d. apply same_char, IH; [lia|exact H2].
  - induction 1 as [|c l l' _ IH|c l l' U _ IH|c l l' U _ IH]; cbn [snake_list negb]; [reflexivity|now rewrite IH| |];
      rewrite U, lower_not_upper, (to_lower_lower (to_lower c)) by apply lower_not_upper;
      change (is_upper "_"%char) with false; cbn [andb app]; rewrite IH; reflexivity.
Qed.
Theorem C59_exactly : forall a b, base_dimension_of a = base_dimension_of b <-> colliding a b.
Proof.
  intros a b. unfold base_dimension_of. rewrite !snakecase_list. split.
  - intros H. apply list_of_string_inj in H. destruct a as [|c a], b as [|d b]; cbn [list_ascii_of_string snake_list] in H; [constructor| | |].
    + rewrite !andb_false_r in H. discriminate H.
    + rewrite !andb_false_r in H. discriminate H.
    + rewrite !andb_false_r in H. cbn [app] in H. injection H as H1 H2. constructor; [exact H1|now apply same_spelling_iff].
  - intros [|c d a' b' E H]; [reflexivity|]. cbn [list_ascii_of_string snake_list]. rewrite !andb_false_r. cbn [app].
    apply same_spelling_iff in H. now rewrite E, H.
Qed.
Print Assumptions C59_exactly.
Example C59_exactly_applies : colliding "LuminousIntensity" "luminous_intensity" /\ ~ colliding "Length" "Time".
Proof.
  split; [apply C59_exactly; reflexivity|]. intros H. apply C59_exactly in H. discriminate H.
Qed.

(** ** C38: exactly which finite factors survive storing: zero, and those that are not smaller than the
    platform's limit. *)
Theorem C38_exactly : forall env lo x, good_platform env lo -> is_finite 53 1024 x = true ->
  (into_f64 env (from_f64 x) = x <-> B2R 53 1024 x = 0%R \/ (bpow radix2 (lo + 52) <= Rabs (B2R 53 1024 x))%R).
Proof.
  intros env lo x Gp F. rewrite (C37_roundtrip env lo x Gp), F. destruct (Rlt_bool_spec (Rabs (B2R 53 1024 x)) (bpow radix2 (lo + 52))) as [H|H].
  - split.
    + intros E. left. rewrite <- E. reflexivity.
    + intros [E|E]; [|exfalso; exact (Rlt_not_le _ _ H E)].
      destruct x as [s|s|s pl Hp|s m e B]; try discriminate F; [reflexivity|].
      exfalso. revert E. cbn [B2R]. intros E. apply (f_equal (fun r => Rabs r)) in E. rewrite Rabs_R0 in E.
      apply (F2R_neq_0 radix2 (Float radix2 (cond_Zopp s (Zpos m)) e)); [destruct s; discriminate|].
      destruct (Rcase_abs (F2R (Float radix2 (cond_Zopp s (Zpos m)) e))) as [L0|L0]; unfold Rabs in E; destruct (Rcase_abs _) in E; lra.
  - split; [intros _; now right|reflexivity].
Qed.
Print Assumptions C38_exactly.
