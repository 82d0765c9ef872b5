(** * Programs over vector quantities: an instance of C79, and its hypotheses met *)
From Coq Require Import String List Bool ZArith QArith Qabs Qreals Reals Lra Lia.
From Flocq Require Import Core IEEE754.Binary IEEE754.Bits.
From Verif Require Import MachineInt Ratio F64 FloatOps DecimalFacts NumericFacts FloatFacts Magnitude MagnitudeFacts Exponent Expression Types PrefixSpec
  ExpansionSpec Resolve CodegenDimension Storage Operators Raw UnitOps FloatMethods
  SystemSpec Setting ExampleSystems Parse Grammar ParseFacts Accuracy FloatAccuracy RoundingSpec RoundingFacts AccuracyFacts
  ConversionFacts PropertiesParse FastCheck ResolveFacts ResolveEquations Expansion SystemFacts PropertiesSystem PropertiesSI
  Sources SiTree PropertiesSources Platform PropertiesUnits PropertiesMethods PropertiesAccuracy PropertiesConversion
  Vector Programs FloatPrograms TrackSpec TrackFacts TrackVector TrackRun PropertiesPrograms.
Import ListNotations.
Close Scope Q_scope. Close Scope R_scope.
Local Open Scope string_scope.
Local Open Scope list_scope.
Notation tracks64 units := (tracks (bpow radix2 (-53)) (-990) 990 units F64).

(** [(vec1 * n1).dot(vec2 * n2).value_in(n3)] *)
Definition dot_program {k} (v : vector_type) : prog k :=
  ValueIn (CallVec v VDot (Cons (NumberTimes (Var 0) (U 0)) (Cons (NumberTimes (Var 1) (U 1)) Nil))) (U 2).
Definition total (l : list R) : R := fold_right Rplus 0%R l.

Section Instance.
Context (k : mode) (env : fenv) (lo : Z) (M : math) (f : slist stmt) (T : template k) (o : defs (ops k)) (G : ident -> Q) (C : ident -> nat).
Context (P : good_platform env lo) (Low : (lo <= -953)%Z) (A : accurate_pow k env) (GM : good_math M) (GP : good_powers M).
Context (W : wf_file f) (E : parse_system k (print_file f) = Some T).
Context (R : run_unit_system (ops k) env T = Some (o, [])) (B : budget G C f).
Notation u := (bpow radix2 (-53)).

Lemma sized_good a : sized (-990) 990 a -> good_size (-990) 990 (Rabs a).
Proof. intros [-> |S]; [left; apply Rabs_R0|now right]. Qed.
Lemma total_pos l : (0 <= total (map Rabs l))%R.
Proof. induction l as [|x l IH]; [apply Rle_refl|]. cbn [map total fold_right]. fold (total (map Rabs l)). pose proof (Rabs_pos x). lra. Qed.

(** A vector in units [n]. *)
Lemma track_vec rho i j xs n names : nth_error rho j = Some (given64 (RVec64 xs)) -> nth_error names i = Some n ->
  Forall (fun x => sized (-990) 990 (v64 x * Q2R (G n))%R) xs ->
  tracks64 (double_units G C names) rho (NumberTimes (k := k) (Var j) (U i))
    (EV (map (fun x => ((v64 x * Q2R (G n))%R, Rabs (v64 x * Q2R (G n)), C n + 1)) xs)).
Proof.
  intros Hj Hi Sz. apply k_vec_times with (bs := map (fun x => (v64 x, Rabs (v64 x), 0%nat)) xs) (f := Q2R (G n)) (m := C n);
    [now constructor|exists n; auto|].
  clear Hj. induction Sz as [|x xs Hx _ IH]; [constructor|]. cbn [map]. constructor; [|exact IH]. unfold unit_combines.
  rewrite <- Rabs_mult. split; [reflexivity|]. split; [apply few64; pose proof (proj2 B n); lia|now apply sized_good].
Qed.
(** Adding up what is left: [m + length] roundings. *)
Lemma track_total ps : forall x s m, (Z.of_nat (m + length ps) <= 2 ^ 45)%Z -> (0 <= s)%R ->
  good_size (-990) 990 s -> Forall (sized (-990) 990) ps -> (s + total (map Rabs ps) <= bpow radix2 990)%R -> forall n, (n <= m)%nat ->
  adds_up u (-990) 990 (x, s, m) (map (fun p => (p, Rabs p, n)) ps) ((x + total ps)%R, (s + total (map Rabs ps))%R, m + length ps).
Proof.
  induction ps as [|p ps IH]; intros x s m Hm Ps Sz Hp Up n Hn; cbn [map total fold_right length] in *.
  - rewrite !Rplus_0_r, Nat.add_0_r. constructor.
  - fold (total ps) in *. fold (total (map Rabs ps)) in *. inversion Hp as [|p' ps' Hh Ht]; subst.
    pose proof (Rabs_pos p). pose proof (total_pos ps).
    assert (G1 : good_size (-990) 990 (s + Rabs p)).
    { destruct Sz as [-> |[L _]]; destruct (sized_good p Hh) as [-> |[L' _]].
      - left. ring.
      - right. rewrite Rplus_0_l. split; [exact L'|lra].
      - right. rewrite Rplus_0_r. split; [exact L|lra].
      - right. split; lra. }
    apply a_more with (d := ((x + p)%R, (s + Rabs p)%R, Nat.max m n + 1)).
    + apply c_add; [now left|]. split; [apply few64; lia|exact G1].
    + replace (Nat.max m n + 1)%nat with (m + 1)%nat by lia. rewrite <- !Rplus_assoc. replace (m + S (length ps))%nat with (m + 1 + length ps)%nat by lia.
      apply IH; try assumption; try lia; lra.
Qed.

Theorem C79_dot : forall v n1 n2 n3 m1 m2 m3 xs ys, component v = F64 -> length xs = num_dims v -> length ys = num_dims v ->
  named o n1 m1 -> named o n2 m2 -> named o n3 m3 -> ~ (G n3 == 0)%Q ->
  Forall (fun x => is_finite 53 1024 x = true) xs -> Forall (fun y => is_finite 53 1024 y = true) ys ->
  let products := map (fun p => B2R 53 1024 (fst p) * Q2R (G n1) * (B2R 53 1024 (snd p) * Q2R (G n2)))%R (combine xs ys) in
  let size := total (map Rabs products) in let g := Q2R (G n3) in
  (* nothing overflows or underflows *)
  Forall (fun x => sized (-990) 990 (B2R 53 1024 x * Q2R (G n1))%R) xs -> Forall (fun y => sized (-990) 990 (B2R 53 1024 y * Q2R (G n2))%R) ys ->
  Forall (sized (-990) 990) products -> (size <= bpow radix2 990)%R -> sized (-990) 990 (size / g)%R ->
  exists z, frun stop env M [m1; m2; m3] [FNum (RVec64 xs); FNum (RVec64 ys)] (dot_program (k := k) v) = Some (FNum (RF64 z)) /\
    is_finite 53 1024 z = true /\
    (Rabs (B2R 53 1024 z - total products / g) <= 2 * INR (C n1 + C n2 + C n3 + num_dims v + 3) * u * (size / Rabs g))%R.
Proof.
  intros v n1 n2 n3 m1 m2 m3 xs ys Hv Lx Ly H1 H2 H3 Nz Fx Fy products size g S1 S2 S3 Su S4.
  assert (Nz' : g <> 0%R).
  { intros Z. apply Nz. apply eqR_Qeq. unfold g in Z. rewrite Z. symmetry. apply AccuracyFacts.Q2R_0. }
  pose proof (proj2 B n1) as C1. pose proof (proj2 B n2) as C2. pose proof (proj2 B n3) as C3.
  assert (Dv : (2 <= num_dims v <= 3)%nat) by (destruct v; cbn; lia).
  pose (names := [n1; n2; n3]). pose (rho := map given64 [RVec64 xs; RVec64 ys]).
  pose proof (track_vec rho 0 0 xs n1 names eq_refl eq_refl S1) as T1.
  pose proof (track_vec rho 1 1 ys n2 names eq_refl eq_refl S2) as T2.
  assert (Z3 : each3 (combines u (-990) 990 TMul)
    (map (fun x => ((v64 x * Q2R (G n1))%R, Rabs (v64 x * Q2R (G n1)), C n1 + 1)) xs)
    (map (fun x => ((v64 x * Q2R (G n2))%R, Rabs (v64 x * Q2R (G n2)), C n2 + 1)) ys)
    (map (fun p => (p, Rabs p, C n1 + 1 + (C n2 + 1) + 1)) products)).
  { assert (L : length xs = length ys) by congruence. unfold products in *. clear -S3 L B C1 C2.
    revert ys S3 L. induction xs as [|x xs IH]; intros [|y ys] S3 L; try discriminate L; [constructor|].
    cbn [combine map fst snd] in *. inversion S3 as [|a l Ha Hl]; subst. constructor; [|apply IH; [exact Hl|cbn [length] in L; lia]].
    rewrite (Rabs_mult (v64 x * Q2R (G n1))). apply c_mul; [now left|]. rewrite <- Rabs_mult. split; [apply few64; lia|now apply sized_good]. }
  assert (Lp : length products = num_dims v) by (unfold products; rewrite map_length, combine_length; lia).
  destruct products as [|p ps] eqn:Ep; [cbn in Lp; lia|].
  assert (D : dots u (-990) 990
    (map (fun x => ((v64 x * Q2R (G n1))%R, Rabs (v64 x * Q2R (G n1)), C n1 + 1)) xs)
    (map (fun x => ((v64 x * Q2R (G n2))%R, Rabs (v64 x * Q2R (G n2)), C n2 + 1)) ys)
    (total (p :: ps), size, C n1 + 1 + (C n2 + 1) + 1 + length ps)).
  { eexists. eexists. split; [exact Z3|]. cbn [map]. inversion S3 as [|a l Ha Hl]; subst.
    apply (track_total ps p (Rabs p) (C n1 + 1 + (C n2 + 1) + 1)); [cbn [length] in Lp; lia|apply Rabs_pos|now apply sized_good|exact Hl|exact Su|lia]. }
  assert (T3 : tracks64 (double_units G C names) rho
    (CallVec v VDot (Cons (NumberTimes (k := k) (Var 0) (U 0)) (Cons (NumberTimes (Var 1) (U 1)) Nil)))
    (EN (total (p :: ps)) size (C n1 + 1 + (C n2 + 1) + 1 + length ps))).
  { eapply k_vec_method; [exact Hv|constructor; [exact T1|constructor; [exact T2|constructor]]|]. exact (v_dot _ _ _ _ _ _ _ D). }
  assert (Ps : (0 <= size)%R) by apply total_pos.
  assert (T4 : tracks64 (double_units G C names) rho (dot_program (k := k) v)
    (EN (total (p :: ps) / g) (size / Rabs g) (C n1 + 1 + (C n2 + 1) + 1 + length ps + C n3 + 1))).
  { eapply k_over with (v := U 2); [right; left; reflexivity|exact T3|exists n3; auto|exact Nz'|].
    split; [apply few64; cbn [length] in Lp; lia|]. pose proof (sized_good _ S4) as K. unfold Rdiv in K |- *. rewrite Rabs_mult, Rabs_inv, Rabs_pos_eq in K by exact Ps. exact K. }
  destruct (C79_vectors k env lo M f T o G C P Low A GM GP W E R B names [m1; m2; m3]
    (Forall2_cons _ _ H1 (Forall2_cons _ _ H2 (Forall2_cons _ _ H3 (Forall2_nil _))))
    (fun _ _ => None) [RVec64 xs; RVec64 ys] _ _ (Forall_cons (RVec64 xs) Fx (Forall_cons (RVec64 ys) Fy (Forall_nil _))) T4) as (_ & w & Rw & z & -> & Fz & Oz).
  exists z. split; [exact Rw|]. split; [exact Fz|].
  replace (C n1 + C n2 + C n3 + num_dims v + 3)%nat with (C n1 + 1 + (C n2 + 1) + 1 + length ps + C n3 + 1)%nat by (cbn [length] in Lp; lia).
  apply Oz. apply few64. cbn [length] in Lp. lia.
Qed.
End Instance.
Print Assumptions C79_dot.

(** ** The hypotheses can be met *)
(** [let q = DVec3::new(2., 2., 2.) * inch; if q != -q { q.dot(q).value_in(acre) } else { 2. }]: off by at
    most 20 roundings. *)
Definition inches_program {k} : prog k :=
  Let (NumberTimes (Var 0) (U 1))
    (If (Compare Ne (Var 0) (Neg (Var 0)))
        (ValueIn (CallVec DVec3 VDot (Cons (Var 0) (Cons (Var 0) Nil))) (U 0)) (Var 2)).
Example C79_vectors_apply : forall k, exists T o G C ma mi x s,
  wf_file acre_file /\ good_platform env_whole (-1023) /\ accurate_pow k env_whole /\ good_math math0 /\ good_powers math0 /\
  parse_system k (print_file acre_file) = Some T /\
  run_unit_system (ops k) env_whole T = Some (o, []) /\ budget G C acre_file /\
  Forall2 (named o) ["acre"; "inch"] [ma; mi] /\ Forall finite64 [RVec64 [two; two; two]; RF64 two] /\
  tracks64 (double_units G C ["acre"; "inch"]) (map given64 [RVec64 [two; two; two]; RF64 two]) (inches_program (k := k)) (EN x s 20).
Proof.
  intros k. destruct (C71_applies_both k) as (T & o & G & C & W & P & A & E & R & B & G1 & G2 & C1 & C2).
  assert (K : match parse_system k (print_file acre_file) with
    Some t => existsb (names_itemb "acre") (decls (declared t)) && existsb (names_itemb "inch") (decls (declared t))
    | None => false end = true) by (destruct k; vm_compute; reflexivity).
  rewrite E in K. apply andb_true_iff in K as [K1 K2].
  destruct (named_exists env_whole (-1023) T o _ P R K1) as [ma Ma]. destruct (named_exists env_whole (-1023) T o _ P R K2) as [mi Mi].
  exists T, o, G, C, ma, mi. do 2 eexists. do 3 (split; [assumption|]). split; [exact math0_good|]. split; [exact math0_powers|].
  do 3 (split; [assumption|]). split; [exact (Forall2_cons _ _ Ma (Forall2_cons _ _ Mi (Forall2_nil _)))|].
  destruct two_value as [F2 V2].
  split; [exact (Forall_cons (RVec64 [two; two; two]) (Forall_cons _ F2 (Forall_cons _ F2 (Forall_cons _ F2 (Forall_nil _))))
    (Forall_cons (RF64 two) F2 (Forall_nil _)))|].
  pose (units := double_units G C ["acre"; "inch"]). fold units.
  assert (Ua : units (U 0) (Q2R (G "acre")) 10%nat) by (exists "acre"; auto).
  assert (Ui : units (U 1) (Q2R (G "inch")) 2%nat) by (exists "inch"; auto).
  rewrite G2 in Ua. rewrite G1 in Ui. cbn [map given64]. unfold input64. rewrite V2.
  set (a := Q2R (316160658 # 78125)) in *. set (i := Q2R (127 # 5000)) in *.
  assert (Va : a = (316160658 / 78125)%R) by reflexivity. assert (Vi : i = (127 / 5000)%R) by reflexivity.
  assert (Aa : Rabs a = a) by (apply Rabs_pos_eq; rewrite Va; lra). assert (Ai : Rabs i = i) by (apply Rabs_pos_eq; rewrite Vi; lra).
  assert (A2 : Rabs 2 = 2%R) by (apply Rabs_pos_eq; lra). rewrite A2.
  pose (q := ((2 * i)%R, (2 * Rabs i)%R, 3%nat) : bound). pose (q' := ((- (2 * i))%R, (2 * Rabs i)%R, 3%nat) : bound).
  apply k_let with (e := EV [q; q; q]).
  { eapply k_vec_times; [now constructor|exact Ui|]. assert (K : unit_combines (bpow radix2 (-53)) (-990) 990 i 2 (2%R, 2%R, 0%nat) q).
    { split; [reflexivity|]. rewrite Ai. apply fine_size; [lia|rewrite Vi; lra]. }
    exact (Forall2_cons _ _ K (Forall2_cons _ _ K (Forall2_cons _ _ K (Forall2_nil _)))). }
  apply k_if with (v := true).
  - apply k_vec_unequal with (bs := [q; q; q]) (cs := [q'; q'; q']).
    + now constructor.
    + eapply k_vec_neg; [now constructor|]. assert (K : negated q q') by reflexivity.
      exact (Forall2_cons _ _ K (Forall2_cons _ _ K (Forall2_cons _ _ K (Forall2_nil _)))).
    + assert (K : clearly (bpow radix2 (-53)) q q').
      { left. unfold Rminus. rewrite Ropp_involutive. rewrite Ai.
        pose proof (error64 3 (2 * i) ltac:(lia) ltac:(rewrite Vi; lra)) as K'. cbn [INR] in K'.
        rewrite Rabs_pos_eq by (rewrite Vi; lra).
        assert (U : (0 < bpow radix2 (-53) <= / 1000)%R).
        { split; [apply bpow_gt_0|]. apply Rle_trans with (bpow radix2 (-10)); [apply bpow_le; lia|cbn; lra]. }
        rewrite Vi in *. set (w := bpow radix2 (-53)) in *. lra. }
      exact (Forall2_cons _ _ K (Forall2_cons _ _ K (Forall2_cons _ _ K (Forall2_nil _)))).
    + split; [|reflexivity]. intros _ H. cbn [map fst q q'] in H. injection H as H. rewrite Vi in H. lra.
  - eapply k_over with (v := U 0) (n := 9%nat) (m := 10%nat); [right; now left| |exact Ua|rewrite Va; lra|].
    + eapply k_vec_method with (es := [EV [q; q; q]; EV [q; q; q]]); [reflexivity|constructor; [now constructor|constructor; [now constructor|constructor]]|].
      pose (y := (2 * i * (2 * i))%R). pose (z := (2 * Rabs i * (2 * Rabs i))%R).
      apply (v_dot _ _ _ _ _ _ ((y + y + y)%R, (z + z + z)%R, 9%nat)). do 2 eexists.
      assert (K : combines (bpow radix2 (-53)) (-990) 990 TMul q q (y, z, 7%nat)).
      { apply (c_mul _ _ _ TMul _ _ 3 _ _ 3); [now left|]. rewrite Ai. apply fine_size; [lia|rewrite Vi; lra]. }
      split; [constructor; [exact K|]; constructor; [exact K|]; constructor; [exact K|constructor]|].
      eapply a_more; [apply (c_add _ _ _ TAdd _ _ 7 _ _ 7); [now left|]; unfold z; rewrite Ai; apply fine_size; [lia|rewrite Vi; lra]|].
      eapply a_more; [apply (c_add _ _ _ TAdd _ _ 8 _ _ 7); [now left|]; unfold z; rewrite Ai; apply fine_size; [lia|rewrite Vi; lra]|]. constructor.
    + rewrite Aa, Ai. apply fine_size; [lia|]. rewrite Va, Vi. cbn [fst snd]. lra.
Qed.
