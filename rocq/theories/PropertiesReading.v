(** * Reading quantities from text is accurate: C85 *)
From Coq Require Import String Ascii List Bool ZArith QArith Qcanon Qabs Qreals Reals Lra Lia.
From Flocq Require Import Core IEEE754.Binary IEEE754.Bits.
From Verif Require Import Parse Grammar ParseFacts Accuracy RoundingSpec RoundingFacts AccuracyFacts ConversionFacts.
From Verif Require Import MachineInt Ratio F64 DecimalFacts NumericFacts FloatFacts Magnitude Exponent Expression Types PrefixSpec
  ExpansionSpec Resolve CodegenDimension CodegenLiteral Raw SystemSpec Setting ExampleSystems PropertiesParse PropertiesSystem PropertiesAccuracy
  Storage Text TextFacts Debug TextSystem PropertiesDebug Serde SerdeFacts PropertiesSerde FloatOps NumberFormat PropertiesNumbers
  PropertiesSI SiTree Sources PropertiesSources PropertiesConversion CodegenDimensionFacts PropertiesDimension Snake Expansion PropertiesExponents PropertiesExact ExponentFacts ParsedSystems ResolveEquations ResolveFacts SystemFacts.
Import ListNotations.
Local Close Scope R_scope.
Local Close Scope Q_scope.
Local Close Scope Qc_scope.
Local Open Scope list_scope.
Local Open Scope Z_scope.

(** ** Specification *)
(** [reading G C o ws q n]: the words [ws] are powers of units, read from the left; their exact product
    is [q], and computing it takes [n] roundings: one for every product, [2 * |e|] for a power [e], whose
    operand's roundings count [|e|] times. *)
Inductive reading {k} (G : ident -> Q) (C : ident -> nat) (o : defs (ops k)) : list text -> Q -> nat -> Prop :=
| no_units : reading G C o [] 1%Q 0
| one_more ws q n w u e : reading G C o ws q n -> unit_word k o w (u, e) ->
    moderate (G (un_name u)) -> Z.abs e < 2 ^ 31 -> moderate (G (un_name u) ^ e)%Q -> moderate (q * G (un_name u) ^ e)%Q ->
    reading G C o (ws ++ [w]) (q * G (un_name u) ^ e)%Q
      (n + (Z.abs_nat e * C (un_name u) + 2 * Z.abs_nat e) + 1).

(** ** Proofs *)
Lemma nearest_zero x : nearest 0 x -> is_finite 53 1024 x = true /\ B2R 53 1024 x = 0%R.
Proof.
  unfold nearest. assert (E : rnd64 0 = 0%R) by (apply round_0; apply valid_rnd_N).
  rewrite E, Rabs_R0, Rlt_bool_true by apply bpow_gt_0. auto.
Qed.
Lemma nearest_near r x : sized (-1000) 1000 r -> nearest r x -> is_finite 53 1024 x = true /\ nearp 53 1 r (B2R 53 1024 x).
Proof.
  intros [->|[L H]] Hx.
  - destruct (nearest_zero x Hx) as [F ->]. split; [exact F|]. pose proof (w0 53 ltac:(lia)) as W. pose proof (wpow 53 ltac:(lia) 1) as P.
    exists 1%R. split; [|ring]. split; [lra|]. apply Rle_trans with (/ 1)%R; [lra|]. apply Rinv_le_contravar; lra.
  - apply (nearest_approx r x); [|exact Hx]. split.
    + eapply Rle_trans; [|exact L]. apply bpow_le. lia.
    + eapply Rle_trans; [exact H|]. apply bpow_le. lia.
Qed.
Lemma nearest_near32 r x : sized (-120) 120 r -> nearest32 r x -> is_finite 24 128 x = true /\ nearp 24 1 r (B2R 24 128 x).
Proof.
  intros Sr Hx. assert (Rg : range32 r).
  { apply (range32_by 0 r r); [cbn; pose proof (w0 24 ltac:(lia)); lra|apply nearp_0|exact Sr]. }
  unfold nearest32 in Hx. rewrite Rlt_bool_true in Hx by exact (rnd_small 24 128 eq_refl eq_refl _ Rg). destruct Hx as [F E].
  split; [exact F|]. destruct (rnd_error 24 128 eq_refl _ Rg) as (e & Be & Ee). rewrite E. unfold rnd32.
  match goal with |- nearp 24 1 r ?y => replace y with (r * (1 + e))%R by (rewrite <- Ee; reflexivity) end.
  apply nearp_round; [lia|exact Be].
Qed.

Section Reading.
Context (k : mode) (env : fenv) (lo : Z).
Hypothesis Plat : good_platform env lo.
Hypothesis Low : (lo <= -953)%Z.
Hypothesis Acc : accurate_pow k env.
Context (T : unresolved (ops k) (unit_template (ops k))) (o : defs (ops k)) (us : list (runtime_unit (ops k))).
Hypothesis H : readable_system k env T o us.
Context (G : ident -> Q) (C : ident -> nat).
Hypothesis Near : forall u, In u (df_units o) -> moderate (G (un_name u)) ->
  approx (C (un_name u)) (Q2R (G (un_name u))) (into_f64 env (un_mag u)).

Lemma power_approx m q v z : approx m (Q2R q) v -> Q2R q <> 0%R -> Z.abs z < 2 ^ 31 -> moderate (q ^ z)%Q ->
  small (Z.abs_nat z * m + 2 * Z.abs_nat z) ->
  approx (Z.abs_nat z * m + 2 * Z.abs_nat z) (Q2R (q ^ z)) (unit_power k env v z).
Proof.
  intros [F N] Nz Hz M Hs.
  pose proof (near_powerRZ z m _ _ N) as Np. rewrite <- Q2R_power in Np by exact Nz.
  pose proof M as [L U]. assert (Hs' : (Z.of_nat (Z.abs_nat z * m) <= 2 ^ 45)%Z).
  { unfold small in Hs. revert Hs. generalize (Z.abs_nat z * m)%nat (2 * Z.abs_nat z)%nat. intros. lia. }
  pose proof (near_bounds _ _ _ Hs' Np) as [B1 B2].
  assert (K : approx (Z.abs_nat z * m + 2 * Z.abs_nat z) (Q2R (q ^ z))
     (match k with IntegerExponents => f_powi env v z | RationalExponents => f_powf env v (f64_of_Z z) end)).
  { destruct (Acc v z F Hz) as [F' N'].
    - split.
      + apply Rle_trans with (bpow radix2 (-901)); [apply bpow_le; lia|]. eapply Rle_trans; [|exact B1].
        change (-900)%Z with (1 + -901)%Z in L. rewrite bpow_plus in L. change (bpow radix2 1) with 2%R in L. lra.
      + eapply Rle_trans; [exact B2|]. apply Rle_trans with (bpow radix2 901); [|apply bpow_le; lia].
        change 901%Z with (1 + 900)%Z. rewrite bpow_plus. change (bpow radix2 1) with 2%R. lra.
    - destruct k; (split; [exact F'|exact (near_trans _ _ _ _ _ Np N')]). }
  unfold unit_power. rewrite (stored_same env lo Plat Low _ _ _ Hs M K). exact K.
Qed.

Lemma reading_terms ws q n : reading G C o ws q n -> (Z.of_nat n <= 2 ^ 40)%Z -> forall terms, text_terms k o ws terms ->
  approx n (Q2R q) (product k env terms).
Proof.
  destruct H as (Cm & Hid & _).
  induction 1 as [|ws q n w u e R IH Hw M Hz Mp Mq]; intros Hn terms Ht.
  - inversion Ht. subst. split; [exact (proj1 one_R)|]. change (Q2R 1) with (1 * / 1)%R. rewrite Rinv_1, Rmult_1_r.
    unfold product. cbn [fold_left]. rewrite (proj2 one_R). apply near_0.
  - apply Forall2_app_inv_l in Ht as (t1 & t2 & H1 & H2 & ->). inversion H2 as [|w' ue ws' l Hu H3 E1 E2]. subst. inversion H3. subst.
    assert (ue = (u, e)) by exact (unit_word_unique k env T o Cm Hid w _ _ Hu Hw). subst ue.
    unfold product. rewrite fold_left_app. cbn [fold_left fst snd]. fold (product k env t1). rewrite Q2R_mult.
    set (a := (Z.abs_nat e * C (un_name u) + 2 * Z.abs_nat e)%nat) in *.
    apply approx_mul.
    + lia.
    + apply IH; [lia|exact H1].
    + apply power_approx; [|now apply moderate_nonzero|exact Hz|exact Mp|unfold small; fold a; lia]. apply Near; [exact (proj1 Hw)|exact M].
    + rewrite <- Q2R_mult. now apply moderate_wide.
Qed.

Lemma scale64 x r p q n : nearest r x -> sized (-1000) 1000 r -> (Z.of_nat n <= 2 ^ 40)%Z -> approx n (Q2R q) p ->
  sized (-1000) 1000 (r * Q2R q) ->
  is_finite 53 1024 (f64_mul x p) = true /\
  (Rabs (B2R 53 1024 (f64_mul x p) - r * Q2R q) <= 2 * INR (n + 2) * bpow radix2 (-53) * Rabs (r * Q2R q))%R.
Proof.
  intros Hx Sr Hn [Fp Np] Sq. destruct (nearest_near r x Sr Hx) as [Fx Nx]. change (nearp 53 n (Q2R q) (B2R 53 1024 p)) in Np.
  assert (Sm : forall k, (Z.of_nat k <= 2 ^ 42)%Z -> (INR k * bpow radix2 (-53) <= / 8)%R) by (intros m Hm; apply few; lia).
  pose proof (nearp_mul 53 ltac:(lia) 1 n _ _ _ _ Nx Np) as A.
  destruct (f64_mul_error x p Fx Fp) as (Fz & e & Be & Ez); [apply (range64_by _ _ _ (Sm (1 + n)%nat ltac:(lia)) A Sq)|].
  split; [exact Fz|]. apply (nearp_error 53 ltac:(lia) (n + 2)); [apply Sm; lia|].
  replace (n + 2)%nat with (1 + n + 1)%nat by lia. rewrite Ez.
  eapply nearp_trans; [lia|exact A|]. apply nearp_round; [lia|exact Be].
Qed.
Lemma scale32 x r p q n : nearest32 r x -> sized (-120) 120 r -> (Z.of_nat n <= 2 ^ 29)%Z -> approx n (Q2R q) p ->
  sized (-120) 120 (Q2R q) -> sized (-120) 120 (r * Q2R q) ->
  (is_finite 24 128 (f32_mul x (f64_to_f32 p)) = true /\
   Rabs (B2R 24 128 (f32_mul x (f64_to_f32 p)) - r * Q2R q) <= 8 * bpow radix2 (-24) * Rabs (r * Q2R q))%R.
Proof.
  intros Hx Sr Hn Np Sq Se. destruct (nearest_near32 r x Sr Hx) as [Fx Nx]. destruct (single_factor n (Q2R q) p Hn Np Sq) as [Fp Np'].
  assert (S' : (bpow radix2 (- (24)) <= / 64)%R) by (change (/ 64)%R with (bpow radix2 (-6)); apply bpow_le; lia).
  assert (Sm : forall k, (k <= 6)%nat -> (INR k * bpow radix2 (- (24)) <= / 8)%R).
  { intros m Hm. apply le_INR in Hm. replace (INR 6) with 6%R in Hm by (cbn; lra).
    pose proof (pos_INR m). pose proof (bpow_ge_0 radix2 (- (24))). set (w := bpow radix2 (- (24))) in *. nra. }
  pose proof (nearp_mul 24 ltac:(lia) 1 2 _ _ _ _ Nx Np') as A.
  destruct (f32_mul_error x (f64_to_f32 p) Fx Fp) as (Fz & e & Be & Ez); [apply (range32_by _ _ _ (Sm 3%nat ltac:(lia)) A Se)|].
  split; [exact Fz|]. replace 8%R with (2 * INR 4)%R by (cbn; lra). apply (nearp_error 24 ltac:(lia) 4); [apply Sm; lia|].
  rewrite Ez. apply (nearp_trans 24 ltac:(lia) 3 1 _ _ _ A). apply nearp_round; [lia|exact Be].
Qed.

Lemma read64 D v s w ws q n r : well_written w -> split_ws s = print_number w :: ws -> reading G C o ws q n -> (Z.of_nat n <= 2 ^ 40)%Z ->
  sized (-1000) 1000 (number_value w) -> sized (-1000) 1000 (number_value w * Q2R q) ->
  denotes k (df_base_dimensions o) D v ->
  deserialize (ops k) (df_base_dimensions o) us env (Float F64) D (EStr s) = Ok r ->
  exists y, r = RF64 y /\ is_finite 53 1024 y = true /\
    (Rabs (B2R 53 1024 y - number_value w * Q2R q) <= 2 * INR (n + 2) * bpow radix2 (-53) * Rabs (number_value w * Q2R q))%R.
Proof.
  intros W Es Hr Hn Sn Sq HD E. apply (C50_text k env lo T o us F64 D v s r Plat H HD) in E as (_ & nu & ws' & x & terms & Es' & Ep & Ht & _ & Em).
  rewrite Es in Es'. injection Es' as <- <-. destruct (C50_number_text w W) as ((x' & Ex & Nx) & _).
  cbn [parse_raw] in Ep. rewrite Ex in Ep. injection Ep as <-. cbn [f64_as raw_mul] in Em. injection Em as <-.
  eexists. split; [reflexivity|]. apply scale64; auto. now apply (reading_terms ws).
Qed.
Lemma read32 D v s w ws q n r : well_written w -> split_ws s = print_number w :: ws -> reading G C o ws q n -> (Z.of_nat n <= 2 ^ 29)%Z ->
  sized (-120) 120 (number_value w) -> sized (-120) 120 (Q2R q) -> sized (-120) 120 (number_value w * Q2R q) ->
  denotes k (df_base_dimensions o) D v ->
  deserialize (ops k) (df_base_dimensions o) us env (Float F32) D (EStr s) = Ok r ->
  exists y, r = RF32 y /\ is_finite 24 128 y = true /\
    (Rabs (B2R 24 128 y - number_value w * Q2R q) <= 8 * bpow radix2 (-24) * Rabs (number_value w * Q2R q))%R.
Proof.
  intros W Es Hr Hn Sn Sf Sq HD E. apply (C50_text k env lo T o us F32 D v s r Plat H HD) in E as (_ & nu & ws' & x & terms & Es' & Ep & Ht & _ & Em).
  rewrite Es in Es'. injection Es' as <- <-. destruct (C50_number_text w W) as (_ & (x' & Ex & Nx)).
  cbn [parse_raw] in Ep. rewrite Ex in Ep. injection Ep as <-. cbn [f64_as raw_mul] in Em. injection Em as <-.
  eexists. split; [reflexivity|]. apply (scale32 _ _ _ _ n); auto. apply (reading_terms ws); auto. lia.
Qed.


(** Components of vectors: the factor is on the left. *)
Lemma scale64c x r p q n : nearest r x -> sized (-1000) 1000 r -> (Z.of_nat n <= 2 ^ 40)%Z -> approx n (Q2R q) p ->
  sized (-1000) 1000 (r * Q2R q) ->
  is_finite 53 1024 (f64_mul p x) = true /\
  (Rabs (B2R 53 1024 (f64_mul p x) - r * Q2R q) <= 2 * INR (n + 2) * bpow radix2 (-53) * Rabs (r * Q2R q))%R.
Proof.
  intros Hx Sr Hn [Fp Np] Sq. destruct (nearest_near r x Sr Hx) as [Fx Nx]. change (nearp 53 n (Q2R q) (B2R 53 1024 p)) in Np.
  assert (Sm : forall k, (Z.of_nat k <= 2 ^ 42)%Z -> (INR k * bpow radix2 (-53) <= / 8)%R) by (intros m Hm; apply few; lia).
  pose proof (nearp_mul 53 ltac:(lia) n 1 _ _ _ _ Np Nx) as A. rewrite (Rmult_comm (Q2R q) r) in A.
  destruct (f64_mul_error p x Fp Fx) as (Fz & e & Be & Ez); [apply (range64_by _ _ _ (Sm (n + 1)%nat ltac:(lia)) A Sq)|].
  split; [exact Fz|]. apply (nearp_error 53 ltac:(lia) (n + 2)); [apply Sm; lia|].
  replace (n + 2)%nat with (n + 1 + 1)%nat by lia. rewrite Ez.
  eapply nearp_trans; [lia|exact A|]. apply nearp_round; [lia|exact Be].
Qed.
Lemma scale32c x r p q n : nearest32 r x -> sized (-120) 120 r -> (Z.of_nat n <= 2 ^ 29)%Z -> approx n (Q2R q) p ->
  sized (-120) 120 (Q2R q) -> sized (-120) 120 (r * Q2R q) ->
  (is_finite 24 128 (f32_mul (f64_to_f32 p) x) = true /\
   Rabs (B2R 24 128 (f32_mul (f64_to_f32 p) x) - r * Q2R q) <= 8 * bpow radix2 (-24) * Rabs (r * Q2R q))%R.
Proof.
  intros Hx Sr Hn Np Sq Se. destruct (nearest_near32 r x Sr Hx) as [Fx Nx]. destruct (single_factor n (Q2R q) p Hn Np Sq) as [Fp Np'].
  assert (S' : (bpow radix2 (- (24)) <= / 64)%R) by (change (/ 64)%R with (bpow radix2 (-6)); apply bpow_le; lia).
  assert (Sm : forall k, (k <= 6)%nat -> (INR k * bpow radix2 (- (24)) <= / 8)%R).
  { intros m Hm. apply le_INR in Hm. replace (INR 6) with 6%R in Hm by (cbn; lra).
    pose proof (pos_INR m). pose proof (bpow_ge_0 radix2 (- (24))). set (w := bpow radix2 (- (24))) in *. nra. }
  pose proof (nearp_mul 24 ltac:(lia) 2 1 _ _ _ _ Np' Nx) as A. rewrite (Rmult_comm (Q2R q) r) in A.
  destruct (f32_mul_error (f64_to_f32 p) x Fp Fx) as (Fz & e & Be & Ez); [apply (range32_by _ _ _ (Sm 3%nat ltac:(lia)) A Se)|].
  split; [exact Fz|]. replace 8%R with (2 * INR 4)%R by (cbn; lra). apply (nearp_error 24 ltac:(lia) 4); [apply Sm; lia|].
  rewrite Ez. apply (nearp_trans 24 ltac:(lia) 3 1 _ _ _ A). apply nearp_round; [lia|exact Be].
Qed.

(** [(n1 n2 ..) units] *)
Lemma read_vector D v s vt nums units ws q n r : trim s = "("%char :: nums ++ ")"%char :: units -> ~ In ")"%char nums ->
  split_ws nums = map print_number ws -> Forall well_written ws ->
  reading G C o (split_ws units) q n ->
  (Z.of_nat n <= match component vt with F64 => 2 ^ 40 | F32 => 2 ^ 29 end)%Z ->
  let limit := match component vt with F64 => 1000 | F32 => 120 end in
  Forall (fun w => sized (- limit) limit (number_value w) /\ sized (- limit) limit (number_value w * Q2R q)) ws ->
  sized (- limit) limit (Q2R q) ->
  denotes k (df_base_dimensions o) D v ->
  deserialize (ops k) (df_base_dimensions o) us env (Vector vt) D (EStr s) = Ok r ->
  match component vt with
  | F64 => exists ys, r = RVec64 ys /\ Forall2 (fun w y => is_finite 53 1024 y = true /\
      (Rabs (B2R 53 1024 y - number_value w * Q2R q) <= 2 * INR (n + 2) * bpow radix2 (-53) * Rabs (number_value w * Q2R q))%R) ws ys
  | F32 => exists ys, r = RVec32 ys /\ Forall2 (fun w y => is_finite 24 128 y = true /\
      (Rabs (B2R 24 128 y - number_value w * Q2R q) <= 8 * bpow radix2 (-24) * Rabs (number_value w * Q2R q))%R) ws ys
  end.
Proof.
  intros Et Nb En W Hr Hn limit Sn Sf HD E.
  apply (C52_partial k env lo T o us vt D v s r Plat H HD) in E as (_ & ig & nums' & units' & x & terms & Et' & Ni1 & Ni2 & Nn & _ & Hc & Ht & _ & Em).
  assert (Eq : ig = [] /\ nums' = nums /\ units' = units).
  { rewrite Et in Et'.
    assert (E1 : cut ")" ("("%char :: nums ++ ")"%char :: units) = Some ("("%char :: nums, units)).
    { apply cut_iff. split; [reflexivity|]. intros [I|I]; [discriminate I|auto]. }
    assert (E2 : cut ")" ("("%char :: nums ++ ")"%char :: units) = Some (ig ++ "("%char :: nums', units')).
    { apply cut_iff. split; [rewrite Et', <- app_assoc; reflexivity|]. rewrite in_app_iff. intros [I|[I|I]]; [auto|discriminate I|auto]. }
    assert (E3 : "("%char :: nums = ig ++ "("%char :: nums') by congruence.
    assert (E4 : units = units') by congruence. destruct ig as [|c ig]; [cbn [app] in E3; split; [reflexivity|]; split; congruence|].
    exfalso. apply Ni1. left. cbn [app] in E3. congruence. }
  destruct Eq as (-> & -> & ->). rewrite En in Hc. clear Et' Et Ni1 Ni2 Nn Nb.
  assert (Hn' : (Z.of_nat n <= 2 ^ 40)%Z) by (destruct (component vt); lia).
  pose proof (reading_terms _ q n Hr Hn' terms Ht) as Ap. set (p := product k env terms) in *. clearbody p. subst limit.
  destruct (component vt); cbn [components_of] in Hc; destruct Hc as (xs & -> & Hc); cbn [f64_as raw_mul] in Em; injection Em as <-;
    eexists; (split; [reflexivity|]).
  - revert Hc W Sn. clear - Ap Sf Hn. revert xs. induction ws as [|w ws IH]; intros xs Hc W Sn; inversion Hc as [|a b l l' Hx Hc' E1 E2]; subst; [constructor|].
    inversion W as [|? ? W1 W2]; subst. inversion Sn as [|? ? [S1 S2] S3]; subst. cbn [map]. constructor; [|auto].
    destruct (C50_number_text w W1) as (_ & (x' & Ex & Nx)). assert (b = x') by congruence. subst b. now apply (scale32c _ _ _ _ n).
  - revert Hc W Sn. clear - Ap Hn. revert xs. induction ws as [|w ws IH]; intros xs Hc W Sn; inversion Hc as [|a b l l' Hx Hc' E1 E2]; subst; [constructor|].
    inversion W as [|? ? W1 W2]; subst. inversion Sn as [|? ? [S1 S2] S3]; subst. cbn [map]. constructor; [|auto].
    destruct (C50_number_text w W1) as ((x' & Ex & Nx) & _). assert (b = x') by congruence. subst b. now apply scale64c.
Qed.
End Reading.

(** ** The theorems *)
(** Text with units of any accepted file, read as a double, e.g. [12.5 km^2 h^-1]: the result is finite
    and within the stated number of roundings of the number that is written times the exact product. *)
Theorem C85_text : forall k env lo f T o us G C,
  good_platform env lo -> lo <= -953 -> accurate_pow k env ->
  wf_file f -> parse_system k (print_file f) = Some T -> readable_system k env T o us -> budget G C f ->
  forall D v s w ws q n r,
  well_written w -> split_ws s = print_number w :: ws -> reading G C o ws q n -> (Z.of_nat n <= 2 ^ 40)%Z ->
  let exact := (number_value w * Q2R q)%R in
  sized (-1000) 1000 (number_value w) -> sized (-1000) 1000 exact ->
  denotes k (df_base_dimensions o) D v ->
  deserialize (ops k) (df_base_dimensions o) us env (Float F64) D (EStr s) = Ok r ->
  exists y, r = RF64 y /\ is_finite 53 1024 y = true /\
    (Rabs (B2R 53 1024 y - exact) <= 2 * INR (n + 2) * bpow radix2 (-53) * Rabs exact)%R.
Proof.
  intros k env lo f T o us G C P Low A W E H B. rewrite parse_print in E by exact W.
  pose proof H as ((R & _) & _).
  pose proof (factors_near k env lo P Low A G C (proj2 B) f T o E R B) as K.
  intros D v s w ws q n r Ww Es Hr Hn exact S1 S2 HD. apply (read64 k env lo P Low A T o us H G C) with (v := v) (ws := ws); auto.
  intros u Hu _. apply K. left. exists u. auto.
Qed.
Print Assumptions C85_text.

(** The same as a single. *)
Theorem C85_text_single : forall k env lo f T o us G C,
  good_platform env lo -> lo <= -953 -> accurate_pow k env ->
  wf_file f -> parse_system k (print_file f) = Some T -> readable_system k env T o us -> budget G C f ->
  forall D v s w ws q n r,
  well_written w -> split_ws s = print_number w :: ws -> reading G C o ws q n -> (Z.of_nat n <= 2 ^ 29)%Z ->
  let exact := (number_value w * Q2R q)%R in
  sized (-120) 120 (number_value w) -> sized (-120) 120 (Q2R q) -> sized (-120) 120 exact ->
  denotes k (df_base_dimensions o) D v ->
  deserialize (ops k) (df_base_dimensions o) us env (Float F32) D (EStr s) = Ok r ->
  exists y, r = RF32 y /\ is_finite 24 128 y = true /\
    (Rabs (B2R 24 128 y - exact) <= 8 * bpow radix2 (-24) * Rabs exact)%R.
Proof.
  intros k env lo f T o us G C P Low A W E H B. rewrite parse_print in E by exact W.
  pose proof H as ((R & _) & _).
  pose proof (factors_near k env lo P Low A G C (proj2 B) f T o E R B) as K.
  intros D v s w ws q n r Ww Es Hr Hn exact S1 S2 S3 HD. apply (read32 k env lo P Low A T o us H G C) with (v := v) (ws := ws) (n := n); auto.
  intros u Hu _. apply K. left. exists u. auto.
Qed.
Print Assumptions C85_text_single.

(** Vectors, e.g. [(1 2.5 -3) km]: the same for every component. *)
Theorem C85_vector : forall k env lo f T o us G C,
  good_platform env lo -> lo <= -953 -> accurate_pow k env ->
  wf_file f -> parse_system k (print_file f) = Some T -> readable_system k env T o us -> budget G C f ->
  forall D v s vt nums units ws q n r,
  trim s = "("%char :: nums ++ ")"%char :: units -> ~ In ")"%char nums ->
  split_ws nums = map print_number ws -> Forall well_written ws ->
  reading G C o (split_ws units) q n ->
  (Z.of_nat n <= match component vt with F64 => 2 ^ 40 | F32 => 2 ^ 29 end)%Z ->
  let limit := match component vt with F64 => 1000 | F32 => 120 end in
  Forall (fun w => sized (- limit) limit (number_value w) /\ sized (- limit) limit (number_value w * Q2R q)) ws ->
  sized (- limit) limit (Q2R q) ->
  denotes k (df_base_dimensions o) D v ->
  deserialize (ops k) (df_base_dimensions o) us env (Vector vt) D (EStr s) = Ok r ->
  match component vt with
  | F64 => exists ys, r = RVec64 ys /\ Forall2 (fun w y => is_finite 53 1024 y = true /\
      (Rabs (B2R 53 1024 y - number_value w * Q2R q) <= 2 * INR (n + 2) * bpow radix2 (-53) * Rabs (number_value w * Q2R q))%R) ws ys
  | F32 => exists ys, r = RVec32 ys /\ Forall2 (fun w y => is_finite 24 128 y = true /\
      (Rabs (B2R 24 128 y - number_value w * Q2R q) <= 8 * bpow radix2 (-24) * Rabs (number_value w * Q2R q))%R) ws ys
  end.
Proof.
  intros k env lo f T o us G C P Low A W E H B. rewrite parse_print in E by exact W.
  pose proof H as ((R & _) & _).
  pose proof (factors_near k env lo P Low A G C (proj2 B) f T o E R B) as K.
  intros D v s vt nums units ws q n r Et Nb En Ww Hr Hn limit S1 S2 HD.
  apply (read_vector k env lo P Low A T o us H G C) with (v := v) (nums := nums) (units := units); auto.
  intros u Hu _. apply K. left. exists u. auto.
Qed.
Print Assumptions C85_vector.

(** ** The bundled SI system can be written and read *)
Definition si_symbol_ok (s : string) : bool :=
  match str s with
  | [] => false
  | cs => forallb (fun c => b_in 48 57 c || b_in 65 90 c || b_in 97 122 c || b_is 206 c || b_is 188 c || b_is 169 c) cs
  end.
Lemma si_symbol_text s : si_symbol_ok s = true -> symbol_text s.
Proof.
  unfold si_symbol_ok, symbol_text. intros Hk. destruct (str s) as [|c cs] eqn:E; [discriminate|].
  rewrite forallb_forall in Hk.
  assert (B : forall x, In x (c :: cs) ->
    (48 <= byte x <= 57 \/ 65 <= byte x <= 90 \/ 97 <= byte x <= 122 \/ byte x = 206 \/ byte x = 188 \/ byte x = 169)%N).
  { intros x Hx. apply Hk in Hx. rewrite !orb_true_iff in Hx.
    destruct Hx as [[[[[Hx|Hx]|Hx]|Hx]|Hx]|Hx];
      try (apply b_in_range in Hx; lia); apply b_is_eq in Hx; lia. }
  split.
  - split; [discriminate|]. clear E. intros u v t Ev Hv. rewrite Ev in B.
    assert (B' : forall x, In x v -> (33 <= byte x <= 126 \/ byte x = 206 \/ byte x = 188 \/ byte x = 169)%N).
    { intros x Hx. assert (I : In x (u ++ v)) by (apply in_or_app; now right). specialize (B x I). lia. }
    destruct v as [|x v]; [congruence|]. specialize (B' x (or_introl eq_refl)).
    destruct B' as [Hg|Hg]; [now apply graphic_ws|].
    cbn [app]. unfold ws_len, b_in, b_is.
    destruct Hg as [-> |[-> | ->]]; simpl; destruct (v ++ t) as [|? [|? ?]]; reflexivity.
  - intros x Hx Hs. apply B in Hx. simpl in Hs.
    assert (Hb : In (byte x) [94; 40; 41; 91; 93; 44]%N).
    { destruct Hs as [<-|[<-|[<-|[<-|[<-|[<-|[]]]]]]]; vm_compute; tauto. }
    simpl in Hb. lia.
Qed.
Definition names_check k (ts : list tok) : bool :=
  match parse_system k ts with
  | Some T =>
      forallb (fun e => match ue_symbol e with Some s => si_symbol_ok s | None => true end) (u_units (expand_templates T)) &&
      struct_declaration_ok (map (fun d => base_dimension_of (de_name d)) (filter is_base_dimension (u_dimensions T)))
  | None => false
  end.
Lemma si_names : names_check IntegerExponents si_source = true.
Proof. vm_cast_no_check (eq_refl true). Qed.

Theorem C85_si_readable : forall powf env, env = env_rt powf \/ env = env_nt powf ->
  exists T o us, parse_system IntegerExponents si_source = Some T /\ readable_system IntegerExponents env T o us.
Proof.
  intros powf env He. destruct (C66_si_factors powf env He) as (T & o & E & R & K).
  pose proof si_names as N. unfold names_check in N. rewrite E in N. apply andb_true_iff in N as [N1 N2].
  pose proof R as R'. unfold run_unit_system in R'.
  destruct (SystemFacts.unit_results _ (laws IntegerExponents) env _ o (generated_ok_expand _ T) R') as (_ & U2 & U3).
  assert (Cm : compiled IntegerExponents env T o).
  { split; [exact R|]. split; [exact (si_literals _ T E)|]. split; [exact (PropertiesExponents.parsed_i64_exponents _ _ T E)|].
    apply resolve_some in R' as (res & d8 & _ & -> & _). exact N2. }
  assert (Hid : identifiers IntegerExponents o).
  { intros u name Hu Es. destruct (U3 u Hu) as (e & Hin & En). destruct (U2 e u Hin Hu En) as [Sy _].
    rewrite forallb_forall in N1. specialize (N1 e Hin). rewrite <- Sy, Es in N1. now apply si_symbol_text. }
  pose proof E as E'. rewrite <- si_printed in E'.
  destruct (PropertiesExact.C73_one_meaning _ env _ T o si_wf E' R) as [X _]. destruct (X (or_introl eq_refl)) as (G & HG).
  destruct Cm as (C1 & C2 & C3 & C4).
  destruct (proj2 (runtime_units_defined IntegerExponents env T o C1 C2 C3 C4 (df_units o) (incl_refl _))) as (us & Eu).
  { intros u s Hu _. apply (K G HG (un_name u)). left. exists u. auto. }
  exists T, o, us. split; [exact E|]. split; [|split; [exact Hid|exact Eu]]. split; [|split; [|split]]; assumption.
Qed.
Print Assumptions C85_si_readable.

(** The bundled SI system, whose factors have five roundings each. *)
Theorem C85_si : forall powf env, env = env_rt powf \/ env = env_nt powf ->
  exists T o us, parse_system IntegerExponents si_source = Some T /\
  readable_system IntegerExponents env T o us /\
  forall G, exact_solution G si_file -> forall D v s w ws q n r,
  well_written w -> split_ws s = print_number w :: ws -> reading G (fun _ => 5%nat) o ws q n -> (Z.of_nat n <= 2 ^ 40)%Z ->
  let exact := (number_value w * Q2R q)%R in
  sized (-1000) 1000 (number_value w) -> sized (-1000) 1000 exact ->
  denotes IntegerExponents (df_base_dimensions o) D v ->
  deserialize (ops IntegerExponents) (df_base_dimensions o) us env (Float F64) D (EStr s) = Ok r ->
  exists y, r = RF64 y /\ is_finite 53 1024 y = true /\
    (Rabs (B2R 53 1024 y - exact) <= 2 * INR (n + 2) * bpow radix2 (-53) * Rabs exact)%R.
Proof.
  intros powf env He. destruct (C85_si_readable powf env He) as (T & o & us & E & H). exists T, o, us.
  split; [exact E|]. split; [exact H|].
  assert (K : forall G, exact_solution G si_file -> forall n f, denotes_fac IntegerExponents env o n f ->
    is_finite 53 1024 f = true /\ (Rabs (B2R 53 1024 f - Q2R (G n)) <= bpow radix2 (-51) * Rabs (Q2R (G n)))%R).
  { destruct (C66_si_factors powf env He) as (T' & o' & E' & R' & K). pose proof H as ((R & _) & _).
    assert (T' = T) by congruence. subst T'. assert (o' = o) by congruence. subst o'. exact K. }
  intros G S0 D v s w ws q n r Ww Es Hr Hn exact S1 S2 HD.
  assert (P : exists lo, good_platform env lo /\ lo <= -953).
  { destruct He as [->| ->]; eexists; (split; [apply good_rt || apply good_nt|lia]). }
  destruct P as (lo & P & Low).
  assert (A : accurate_pow IntegerExponents env) by (destruct He as [->| ->]; [exact powi_rt_accurate|exact powi_nt_accurate]).
  apply (read64 IntegerExponents env lo P Low A T o us H G (fun _ => 5%nat)) with (v := v) (ws := ws); auto.
  intros u Hu M. apply near_5; [|now apply moderate_nonzero]. apply (K G S0). left. exists u. auto.
Qed.
Print Assumptions C85_si.

(** ** A case: [-012.50E-3 mm^2 s^-1] *)
Definition area_rate k : dimval (ops k) := [("length"%string, of_int k 2); ("time"%string, of_int k (-1))].
Definition has_unit {k} (o : defs (ops k)) (name symbol : string) : bool :=
  existsb (fun u => String.eqb (un_name u) name && match un_symbol u with Some s => String.eqb s symbol | None => false end) (df_units o).
Lemma has_unit_ok {k} (o : defs (ops k)) name symbol : has_unit o name symbol = true ->
  exists u, In u (df_units o) /\ un_name u = name /\ un_symbol u = Some symbol.
Proof.
  unfold has_unit. intros E. apply existsb_exists in E as (u & Hu & E). apply andb_true_iff in E as [E1 E2]. apply String.eqb_eq in E1.
  destruct (un_symbol u) as [s|] eqn:Es; [|discriminate]. apply String.eqb_eq in E2. subst s. eauto.
Qed.
Definition text_example : text := str "-012.50E-3 mm^2 s^-1".
Definition reading_check k : bool :=
  match parse_system k (print_file acre_file) with
  | Some T =>
      match run_unit_system (ops k) env_whole T with
      | Some (o, []) =>
          match serde_units (ops k) env_whole (lit k) o with
          | Some us =>
              (if list_eq_dec string_dec (df_base_dimensions o) ["length"; "time"]%string then true else false) &&
              forallb symbol_ok (all_symbols k o) && struct_declaration_ok (df_base_dimensions o) &&
              has_unit o "millimeter" "mm" && has_unit o "second" "s" &&
              match deserialize (ops k) (df_base_dimensions o) us env_whole (Float F64) (area_rate k) (EStr text_example) with Ok _ => true | _ => false end
          | None => false end
      | _ => false end
  | None => false end.
Lemma reading_checks k : reading_check k = true.
Proof. destruct k; vm_compute; reflexivity. Qed.

Example C85_applies : forall k, exists T o us G C D v ws q n r,
  good_platform env_whole (-1023) /\ accurate_pow k env_whole /\ wf_file acre_file /\
  parse_system k (print_file acre_file) = Some T /\ readable_system k env_whole T o us /\ budget G C acre_file /\
  well_written written_example /\ split_ws text_example = print_number written_example :: ws /\
  reading G C o ws q n /\ (q == 1 # 1000000)%Q /\ n = 12%nat /\
  sized (-1000) 1000 (number_value written_example) /\ sized (-1000) 1000 (number_value written_example * Q2R q) /\
  denotes k (df_base_dimensions o) D v /\
  deserialize (ops k) (df_base_dimensions o) us env_whole (Float F64) D (EStr text_example) = Ok r.
Proof.
  intros k. pose proof (reading_checks k) as Ck. unfold reading_check in Ck.
  destruct (parse_system k (print_file acre_file)) as [T|] eqn:E; [|discriminate].
  destruct (run_unit_system (ops k) env_whole T) as [[o [|]]|] eqn:R; try discriminate.
  destruct (serde_units (ops k) env_whole (lit k) o) as [us|] eqn:Eu; [|discriminate].
  destruct (list_eq_dec string_dec (df_base_dimensions o) ["length"; "time"]%string) as [Ef|]; [|discriminate].
  rewrite !andb_true_iff in Ck. destruct Ck as [[[[[_ Hi] Hs] Um] Us] Hd].
  destruct (deserialize _ _ us env_whole _ _ _) as [r| |] eqn:Er; try discriminate.
  destruct (has_unit_ok o _ _ Um) as (um & Im & Nm & Sm). destruct (has_unit_ok o _ _ Us) as (u2 & I2 & N2 & S2).
  destruct (C71_applies) as (T0 & o0 & G & C & W & _ & _ & _ & _ & _ & _).
  set (G' := tG example_table). set (C' := tC example_table).
  assert (B : budget G' C' acre_file).
  { apply budget_checks_ok; [vm_compute; reflexivity|].
    intros n. pose proof (b_name_le (file_defs acre_file) 3 100 ltac:(vm_compute; reflexivity) n) as K.
    unfold C', tC, example_table. destruct (b_name (file_defs acre_file) 4 n) as [p|]; lia. }
  assert (Gm : G' "millimeter"%string = (1 # 1000)%Q) by (vm_compute; reflexivity).
  assert (Gs : G' "second"%string = (1 # 1)%Q) by (vm_compute; reflexivity).
  assert (Cm : C' "millimeter"%string = 2%nat) by (vm_compute; reflexivity).
  assert (Cs : C' "second"%string = 0%nat) by (vm_compute; reflexivity).
  set (q := ((1 * G' "millimeter"%string ^ 2) * G' "second"%string ^ (-1))%Q).
  assert (Eq : q = (1 # 1000000)%Q) by (unfold q; rewrite Gm, Gs; vm_compute; reflexivity).
  exists T, o, us, G', C', (area_rate k), (fun f => if String.eqb f "length"%string then ZQc 2 else ZQc (-1)), [str "mm^2"; str "s^-1"], q, 12%nat, r.
  split; [apply good_rt|]. split; [apply whole_accurate|]. split; [exact W|]. split; [reflexivity|].
  split; [split; [|split; [now apply identifiers_check|exact Eu]]|].
  { split; [exact R|]. split; [|split; [exact (parsed_i64_exponents k _ T E)|exact Hs]].
    apply template_literals, (ParsedSystems.source_literals_ok k acre_file); [rewrite <- E; symmetry; now apply parse_print|].
    intros _ s n d z. cbn [sl_items acre_file In]. intros Hs0 Hin. repeat (destruct Hs0 as [<-|Hs0]; [cbn in Hin; repeat (destruct Hin as [Hin|Hin]; try discriminate Hin); destruct Hin|]). destruct Hs0. }
  split; [exact B|]. split; [exact (proj1 C50_number_text_applies)|]. split; [vm_compute; reflexivity|].
  split; [|split; [rewrite Eq; reflexivity|split; [reflexivity|]]].
  { assert (W1 : unit_word k o (str "mm^2") (um, 2)).
    { split; [exact Im|]. exists "mm"%string. split; [exact Sm|]. right. exists (str "2"). split; reflexivity. }
    assert (W2 : unit_word k o (str "s^-1") (u2, -1)).
    { split; [exact I2|]. exists "s"%string. split; [exact S2|]. right. exists (str "-1"). split; reflexivity. }
    pose proof (one_more G' C' o [] 1 0 _ um 2 (no_units G' C' o) W1) as R1. rewrite Nm, Cm in R1.
    assert (R1' : reading G' C' o [str "mm^2"] (1 * G' "millimeter"%string ^ 2)%Q 9).
    { apply R1; [..|rewrite Gm; apply moderateb_ok; vm_compute; reflexivity|rewrite Gm; apply moderateb_ok; vm_compute; reflexivity]; [rewrite Gm; apply moderateb_ok; vm_compute; reflexivity|lia]. }
    pose proof (one_more G' C' o [str "mm^2"] _ _ _ u2 (-1) R1' W2) as R2. rewrite N2, Cs in R2.
    apply R2; [rewrite Gs; apply moderateb_ok; vm_compute; reflexivity|lia|rewrite Gs; apply moderateb_ok; vm_compute; reflexivity|].
    fold q. rewrite Eq. apply moderateb_ok. vm_compute. reflexivity. }
  assert (V : number_value written_example = (- (125 / 10000))%R) by exact (proj2 (proj2 C50_number_text_applies)).
  assert (Sz : forall a, (a = 125 / 10000 \/ a = 125 / 10000 * / 1000000)%R -> sized (-1000) 1000 (- a)).
  { intros a Ha. right. rewrite Rabs_Ropp, Rabs_right by (destruct Ha as [->| ->]; lra).
    split; [apply Rle_trans with (bpow radix2 (-60)); [apply bpow_le; lia|]|apply Rle_trans with 1%R; [|change 1%R with (bpow radix2 0); apply bpow_le; lia]];
      [|destruct Ha as [->| ->]; lra].
    change (-60)%Z with (- (60))%Z. rewrite bpow_opp. change (bpow radix2 60) with 1152921504606846976%R. destruct Ha as [->| ->]; lra. }
  assert (Qv : Q2R q = (/ 1000000)%R) by (rewrite Eq; unfold Q2R; cbn [Qnum Qden]; lra).
  split; [rewrite V; apply Sz; now left|]. split; [rewrite V, Qv; replace (- (125 / 10000) * / 1000000)%R with (- (125 / 10000 * / 1000000))%R by ring; apply Sz; now right|].
  split; [|exact Er]. rewrite Ef. split; [reflexivity|]. intros f e [E0|[E0|[]]]; injection E0 as <- <-; apply of_int_val.
Qed.
