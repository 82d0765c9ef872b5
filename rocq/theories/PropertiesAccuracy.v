(** * Accuracy of the factors of every accepted system: C71 *)
From Coq Require Import String List Bool ZArith QArith Qabs Qreals Reals Lra Lia.
From Flocq Require Import Core IEEE754.Binary.
From Verif Require Import MachineInt Ratio F64 Magnitude Exponent Expression Types PrefixSpec ExpansionSpec Resolve
  SystemSpec Setting ExampleSystems Parse Grammar ParseFacts Accuracy RoundingSpec RoundingFacts AccuracyFacts
  PropertiesParse FastCheck ResolveFacts ResolveEquations Expansion SystemFacts PropertiesSystem Sources SiTree PropertiesSources PropertiesSI.
Import ListNotations.
Close Scope Q_scope. Close Scope R_scope.
Local Open Scope string_scope.
Local Open Scope list_scope.

(** If [G] gives every unit and constant of the file the exact rational
    number its definition states, and [C] counts the roundings on the way (at most [2^40], no
    intermediate value beyond [2^900] or below [2^-900]), then every factor of the output is finite
    and its relative error is at most [2 * C * 2^-53].  In both builds; with rational exponents the
    definitions of units have to use whole exponents (a fractional power has no exact rational value). *)
Theorem C71_factors_accurate : forall k env lo f T o G C,
  good_platform env lo -> (lo <= -953)%Z -> accurate_pow k env ->
  wf_file f -> parse_system k (print_file f) = Some T ->
  run_unit_system (ops k) env T = Some (o, []) ->
  budget G C f ->
  forall n v, denotes_fac k env o n v ->
    is_finite 53 1024 v = true /\
    (Rabs (B2R 53 1024 v - Q2R (G n)) <= 2 * INR (C n) * bpow radix2 (-53) * Rabs (Q2R (G n)))%R.
Proof.
  intros k env lo f T o G C P Low A W E R B n v V. rewrite parse_print in E by exact W.
  assert (Few : forall s, small (C s)) by exact (proj2 B).
  destruct (factors_near k env lo P Low A G C Few f T o E R B n v V) as [F N]. split; [exact F|].
  apply near_error; [|exact N]. specialize (Few n). unfold small in Few. lia.
Qed.
Print Assumptions C71_factors_accurate.

(** Both known implementations of [powi] are accurate enough. *)
Theorem C71_powi : accurate_powi powi_rt /\ accurate_powi powi_nt.
Proof. split; [exact powi_rt_accurate|exact powi_nt_accurate]. Qed.
Print Assumptions C71_powi.

(** [G] of a budget is an exact solution in the sense of C66: the count adds nothing to the meaning. *)
Theorem C71_budget_is_exact : forall G C f, budget G C f -> exact_solution G f.
Proof.
  intros G C f [B _]. intros n d Hd. destruct (B n d Hd) as (q & c & R & E & _).
  assert (K : (forall x q n, rounds_x G C x q n -> is_x G x q) /\ (forall x q n, rounds_f G C x q n -> is_f G x q)).
  { apply (rounds_ind G C (fun x q _ _ => is_x G x q) (fun x q _ _ => is_f G x q)).
    - intros; now constructor.
    - intros; now constructor.
    - intros; now constructor.
    - intros s _. exact (is_val G (AtIdent s)).
    - intros l _. exact (is_val G (AtLit l)).
    - intros a e z q0 n0 He _ _ I _. inversion I; subst. now constructor.
    - intros; now constructor. }
  destruct R as [|x q n' R|i M|k i M1 M2 M3].
  - exists 1%Q. split; [reflexivity|exact E].
  - exists q. split; [exact (proj1 K x q n' R)|exact E].
  - exists ((10 # 1) ^ 0 * G i)%Q. split; [reflexivity|]. rewrite E. cbn. now rewrite Qmult_1_l.
  - eexists. split; [reflexivity|exact E].
Qed.
Print Assumptions C71_budget_is_exact.

(** ** Computing a budget *)
Definition moderateb (q : Q) : bool := Qle_bool (1 # 2 ^ 900) (Qabs q) && Qle_bool (Qabs q) (2 ^ 900 # 1).
Lemma Q2R_Qabs z : Q2R (Qabs z) = Rabs (Q2R z).
Proof.
  destruct (Qlt_le_dec z 0) as [N|N].
  - rewrite (Qeq_eqR _ _ (Qabs_neg z (Qlt_le_weak _ _ N))), Q2R_opp.
    apply Qlt_Rlt in N. rewrite AccuracyFacts.Q2R_0 in N. now rewrite Rabs_left.
  - rewrite (Qeq_eqR _ _ (Qabs_pos z N)). apply Qle_Rle in N.
    rewrite AccuracyFacts.Q2R_0 in N. rewrite Rabs_right; lra.
Qed.
Lemma moderateb_ok q : moderateb q = true -> moderate q.
Proof.
  unfold moderateb. rewrite andb_true_iff, !Qle_bool_iff. intros [A B]. apply Qle_Rle in A, B.
  rewrite Q2R_Qabs in A, B. split.
  - eapply Rle_trans; [|exact A]. right. unfold Q2R. cbn [Qnum Qden]. change (-900)%Z with (- (900))%Z.
    rewrite bpow_opp, Rmult_1_l. reflexivity.
  - eapply Rle_trans; [exact B|]. right. unfold Q2R. cbn [Qnum Qden]. rewrite Rinv_1, Rmult_1_r.
    reflexivity.
Qed.

Section Compute.
Context (tab : ident -> option (Q * nat)).
Definition tG (n : ident) : Q := match tab n with Some p => fst p | None => 0%Q end.
Definition tC (n : ident) : nat := match tab n with Some p => snd p | None => 0%nat end.
Definition ok (p : Q * nat) : option (Q * nat) := if moderateb (fst p) then Some p else None.
Definition b_val (a : atom) : option (Q * nat) :=
  match a with
  | AtIdent s => match tab s with Some p => ok p | None => None end
  | AtLit l => ok (lit_Q l, 1%nat)
  end.
Fixpoint b_x (x : sx) : option (Q * nat) :=
  match x with
  | SxOne f => b_f f
  | SxBin l o f =>
      match b_x l, b_f f with
      | Some p, Some q => ok (match o with BySlash => (fst p / fst q)%Q | _ => (fst p * fst q)%Q end, (snd p + snd q + 1)%nat)
      | _, _ => None
      end
  end
with b_f (f : sf) : option (Q * nat) :=
  match f with
  | SfVal a => b_val a
  | SfPow a e =>
      match exp_Z e, b_val a with
      | Some z, Some p => if (Z.abs z <? 2 ^ 31)%Z then
          ok ((fst p ^ z)%Q, (Z.abs_nat z * snd p + 2 * Z.abs_nat z)%nat) else None
      | _, _ => None
      end
  | SfParen x => b_x x
  end.
Definition b_def (d : xdef) : option (Q * nat) :=
  match d with
  | XBase => Some (1%Q, 0%nat)
  | XExpr x => b_x x
  | XScaled k i =>
      match tab i with
      | Some p => if moderateb (fst p) && moderateb ((10 # 1) ^ k) then
          if (k =? 0)%Z then Some p else ok (((10 # 1) ^ k * fst p)%Q, (snd p + 2)%nat) else None
      | None => None
      end
  end.
Lemma ok_some p r : ok p = Some r -> p = r /\ moderate (fst p).
Proof. unfold ok. destruct (moderateb (fst p)) eqn:M; [|discriminate]. intros E. split; [congruence|]. now apply moderateb_ok. Qed.
Lemma b_val_ok a p : b_val a = Some p -> rounds_f tG tC (SfVal a) (fst p) (snd p).
Proof.
  destruct a as [s|l]; cbn [b_val].
  - destruct (tab s) as [q|] eqn:E; [|discriminate]. intros H. apply ok_some in H as [<- M].
    assert (E1 : tG s = fst q) by (unfold tG; now rewrite E). assert (E2 : tC s = snd q) by (unfold tC; now rewrite E).
    rewrite <- E1, <- E2. apply r_name. now rewrite E1.
  - intros H. apply ok_some in H as [<- M]. now apply r_lit.
Qed.
Lemma b_bin l o f : b_x (SxBin l o f) =
  match b_x l, b_f f with
  | Some p, Some q => ok (match o with BySlash => (fst p / fst q)%Q | _ => (fst p * fst q)%Q end, (snd p + snd q + 1)%nat)
  | _, _ => None
  end.
Proof. reflexivity. Qed.
Lemma b_pow a e : b_f (SfPow a e) =
  match exp_Z e, b_val a with
  | Some z, Some p => if (Z.abs z <? 2 ^ 31)%Z then
      ok ((fst p ^ z)%Q, (Z.abs_nat z * snd p + 2 * Z.abs_nat z)%nat) else None
  | _, _ => None
  end.
Proof. reflexivity. Qed.
Lemma b_x_ok :
  (forall x p, b_x x = Some p -> rounds_x tG tC x (fst p) (snd p)) /\
  (forall f p, b_f f = Some p -> rounds_f tG tC f (fst p) (snd p)).
Proof.
  apply sx_sf_ind.
  - intros f IH p H. constructor. now apply IH.
  - intros l IHl o f IHf p H. rewrite b_bin in H.
    destruct (b_x l) as [a|]; [|discriminate H]. destruct (b_f f) as [b|]; [|discriminate H].
    specialize (IHl a eq_refl). specialize (IHf b eq_refl). apply ok_some in H as [<- M]. cbn [fst snd] in *.
    destruct o; constructor; auto; discriminate.
  - intros a p H. now apply b_val_ok.
  - intros a e p H. rewrite b_pow in H. destruct (exp_Z e) as [z|] eqn:Ez; [|discriminate H].
    destruct (b_val a) as [b|] eqn:Eb; [|discriminate H].
    destruct (Z.ltb_spec (Z.abs z) (2 ^ 31)) as [L|L]; [|discriminate H].
    apply ok_some in H as [<- M]. apply b_val_ok in Eb. now constructor.
  - intros x IH p H. constructor. now apply IH.
Qed.
Lemma b_def_ok d p : b_def d = Some p -> rounds_def tG tC d (fst p) (snd p).
Proof.
  destruct d as [|x|k i]; cbn [b_def].
  - intros E. injection E as <-. constructor.
  - intros H. constructor. now apply b_x_ok.
  - destruct (tab i) as [q|] eqn:E; [|discriminate].
    assert (E1 : tG i = fst q) by (unfold tG; now rewrite E). assert (E2 : tC i = snd q) by (unfold tC; now rewrite E).
    destruct (moderateb (fst q)) eqn:M; [|discriminate]. destruct (moderateb ((10 # 1) ^ k)) eqn:Mk; [|discriminate].
    cbn [andb]. apply moderateb_ok in M, Mk. destruct (Z.eqb_spec k 0) as [->|_].
    + intros H. replace p with q by congruence. rewrite <- E1, <- E2. constructor. now rewrite E1.
    + intros H. apply ok_some in H as [<- Mq]. cbn [fst snd] in *. rewrite <- E1, <- E2 in *. now constructor.
Qed.
Definition budget_checks (f : slist stmt) : bool :=
  forallb (fun e => match tab (fst e), b_def (snd e) with
                    | Some p, Some q => Qeq_bool (fst p) (fst q) && (snd q <=? snd p)%nat
                    | _, _ => false end) (file_defs f).
Lemma budget_checks_ok f : budget_checks f = true -> (forall n, (Z.of_nat (tC n) <= 2 ^ 40)%Z) -> budget tG tC f.
Proof.
  intros H Hs. split; [|exact Hs]. intros n d Hd. unfold budget_checks in H. rewrite forallb_forall in H. specialize (H _ Hd).
  cbn [fst snd] in H. destruct (tab n) as [p|] eqn:E; [|discriminate H]. destruct (b_def d) as [q|] eqn:D; [|discriminate H].
  apply andb_true_iff in H as [A B]. apply Qeq_bool_iff in A. apply Nat.leb_le in B.
  exists (fst q), (snd q). split; [now apply b_def_ok|]. unfold tG, tC. rewrite E. auto.
Qed.
End Compute.

Fixpoint b_name (defs : list (ident * xdef)) (fuel : nat) (n : ident) : option (Q * nat) :=
  match fuel with
  | O => None
  | S m => match find (fun e => String.eqb n (fst e)) defs with
           | Some e => match b_def (b_name defs m) (snd e) with Some p => Some (Qred (fst p), snd p) | None => None end
           | None => None
           end
  end.
Lemma b_name_le defs fuel b :
  forallb (fun e => match b_def (b_name defs fuel) (snd e) with Some p => (snd p <=? b)%nat | None => true end) defs = true ->
  forall n, match b_name defs (S fuel) n with Some p => (snd p <= b)%nat | None => True end.
Proof.
  intros H n. change (b_name defs (S fuel) n) with
    (match find (fun e => String.eqb n (fst e)) defs with
     | Some e => match b_def (b_name defs fuel) (snd e) with Some p => Some (Qred (fst p), snd p) | None => None end
     | None => None
     end).
  destruct (find (fun e => String.eqb n (fst e)) defs) as [[i d]|] eqn:Fi; [|exact I].
  cbn [snd]. apply find_some in Fi as [Hin _]. rewrite forallb_forall in H. specialize (H _ Hin). cbn [snd] in H. revert H. destruct (b_def (b_name defs fuel) d) as [p|]; [|easy]. intros H. now apply Nat.leb_le in H.
Qed.
(** Aliases and prefixes of [meter], [inch = 0.0254 meters], [acre], a prefix-free base unit, and a
    constant with a product, a quotient and two powers. *)
Definition acre_file : slist stmt := {| sl_trailing := true; sl_items :=
  [SQuantityType [] "Quantity"; SDimensionType [] "Dimension";
   SDimension [] "Length" None; SDimension [] "Time" None;
   SUnit [UMetricSkip {| sl_items := [Kilo; Mega]; sl_trailing := false |}; USymbol "m"; UBase "Length";
          UAlias {| sl_items := ["metre"; "metres"]; sl_trailing := true |}] "meter" None None;
   SUnit [UBase "Time"; USymbol "s"] "second" None None;
   SUnit [] "inch" None (Some (SxBin (SxOne (SfVal (AtLit (SDec false 254 (-4))))) ByJuxtaposition
                                    (SfVal (AtIdent "meter"))));
   SUnit [] "acre" None (Some (SxBin (SxOne (SfVal (AtLit (SInt false 6272640)))) ByStar
                                    (SfPow (AtIdent "inch") (SxInt (SInt false 2)))));
   SConstant [] "C" None (SxBin (SxBin (SxOne (SfVal (AtLit (SInt false 3)))) ByStar
                                    (SfParen (SxOne (SfPow (AtIdent "inch") (SxInt (SInt true 1))))))
                                BySlash (SfVal (AtIdent "second")))] |}.
(** Its values and counts, in four rounds. *)
Definition example_table : ident -> option (Q * nat) := b_name (file_defs acre_file) 4.

Example C71_applies : exists T o G C,
  wf_file acre_file /\ good_platform env0 (-1023) /\ accurate_powi (f_powi env0) /\
  parse_system IntegerExponents (print_file acre_file) = Some T /\
  run_unit_system (ops IntegerExponents) env0 T = Some (o, []) /\ budget G C acre_file /\
  G "inch" = (127 # 5000)%Q /\ G "acre" = (316160658 # 78125)%Q /\ C "inch" = 2%nat /\ C "acre" = 10%nat /\ C "C" = 7%nat /\
  G "micrometres" = (1 # 1000000)%Q /\ C "micrometres" = 2%nat.
Proof.
  assert (W : wf_file acre_file).
  { split; [easy|]. cbn [sl_items acre_file]. unfold wf_stmt, wf_ident.
    repeat (first [apply accept_name; reflexivity | constructor | discriminate | reflexivity]). }
  assert (Ck : parsed_check IntegerExponents (print_file acre_file) = true) by (vm_cast_no_check (eq_refl true)).
  destruct (parse_system IntegerExponents (print_file acre_file)) as [T|] eqn:E.
  2: { rewrite (parsed_check_none IntegerExponents _ E) in Ck. discriminate Ck. }
  rewrite (parsed_check_some IntegerExponents _ T E) in Ck. unfold fast_check in Ck. cbv zeta in Ck.
  destruct (checks_sound (ops IntegerExponents) (laws IntegerExponents) env0 _ _ Ck (generated_ok_expand _ T)) as (o & R & _).
  exists T, o, (tG example_table), (tC example_table).
  split; [exact W|]. split; [apply good_rt|]. split; [exact powi_rt_accurate|]. split; [reflexivity|]. split; [exact R|].
  split; [|repeat split; vm_compute; reflexivity].
  apply budget_checks_ok; [vm_compute; reflexivity|].
  intros n. pose proof (b_name_le (file_defs acre_file) 3 100 ltac:(vm_compute; reflexivity) n) as K.
  unfold tC, example_table. destruct (b_name (file_defs acre_file) 4 n) as [p|]; lia.
Qed.

(** ** Rational exponents *)
(** A [powf] that is right for whole exponents. *)
Definition whole_part (y : f64) : Z :=
  match y with B754_finite _ _ s m e _ => cond_Zopp s (if (0 <=? e)%Z then Z.pos m * 2 ^ e else Z.pos m / 2 ^ (- e)) | _ => 0%Z end.
Lemma whole_part_ok z : (Z.abs z < 2 ^ 31)%Z -> whole_part (f64_of_Z z) = z.
Proof.
  intros Hz. destruct (f64_of_Z_exact z ltac:(lia)) as (F & E & _). revert F E. generalize (f64_of_Z z). intros [s|s|s pl H|s m e B] F E; try discriminate F; cbn [whole_part B2R] in *.
  - apply eq_IZR. exact E.
  - unfold F2R in E. cbn [Fnum Fexp] in E. destruct (Z.leb_spec 0 e) as [P|P].
    + rewrite <- (IZR_Zpower radix2 e P), <- mult_IZR in E. apply eq_IZR in E. rewrite <- E. destruct s; cbn [cond_Zopp]; [|reflexivity].
      change (radix_val radix2) with 2%Z. lia.
    + assert (E' : IZR (cond_Zopp s (Z.pos m)) = IZR (z * 2 ^ (- e))).
      { rewrite mult_IZR, <- E. change (2 ^ (- e))%Z with (radix_val radix2 ^ (- e))%Z. rewrite (IZR_Zpower radix2 (- e)) by lia.
        rewrite Rmult_assoc, <- bpow_plus. replace (e + - e)%Z with 0%Z by lia. cbn [bpow]. symmetry. apply Rmult_1_r. }
      apply eq_IZR in E'. assert (Pp : (0 < 2 ^ (- e))%Z) by (apply Z.pow_pos_nonneg; lia).
      destruct s; cbn [cond_Zopp] in *.
      * replace (Z.pos m) with ((- z) * 2 ^ (- e))%Z by lia. rewrite Z.div_mul by lia. lia.
      * rewrite E'. rewrite Z.div_mul by lia. reflexivity.
Qed.
Definition env_whole : fenv := env_rt (fun x y => powi_rt x (whole_part y)).
Lemma whole_accurate k : accurate_pow k env_whole.
Proof.
  destruct k; [exact powi_rt_accurate|]. intros a z F Hz Hb. cbn [env_whole env_rt f_powf]. rewrite (whole_part_ok z Hz).
  exact (powi_rt_accurate a z F Hz Hb).
Qed.
Example C71_applies_both : forall k, exists T o G C,
  wf_file acre_file /\ good_platform env_whole (-1023) /\ accurate_pow k env_whole /\
  parse_system k (print_file acre_file) = Some T /\
  run_unit_system (ops k) env_whole T = Some (o, []) /\ budget G C acre_file /\
  G "inch" = (127 # 5000)%Q /\ G "acre" = (316160658 # 78125)%Q /\ C "inch" = 2%nat /\ C "acre" = 10%nat.
Proof.
  intros k. destruct C71_applies as (T0 & o0 & G & C & W & _ & _ & _ & _ & B & G1 & G2 & C1 & C2 & _).
  assert (Ck : parsed_check k (print_file acre_file) = true) by (destruct k; vm_cast_no_check (eq_refl true)).
  destruct (parse_system k (print_file acre_file)) as [T|] eqn:E.
  2: { rewrite (parsed_check_none k _ E) in Ck. discriminate Ck. }
  rewrite (parsed_check_some k _ T E) in Ck. unfold fast_check in Ck. cbv zeta in Ck.
  destruct (checks_sound (ops k) (laws k) env_whole _ _ Ck (generated_ok_expand _ T)) as (o & R & _).
  exists T, o, G, C. split; [exact W|]. split; [apply good_rt|]. split; [apply whole_accurate|]. split; [reflexivity|]. split; [exact R|]. auto 6.
Qed.

(** ** The SI system: a budget of 21 roundings *)
Definition si_table : ident -> option (Q * nat) := b_name (file_defs si_file) 9.
Lemma si_budget : budget (tG si_table) (tC si_table) si_file /\ forall n, (tC si_table n <= 21)%nat.
Proof.
  assert (Le : forall n, (tC si_table n <= 21)%nat).
  { intros n. pose proof (b_name_le (file_defs si_file) 8 21 ltac:(vm_cast_no_check (eq_refl true)) n) as K.
    unfold tC, si_table. destruct (b_name (file_defs si_file) 9 n) as [p|]; [exact K|lia]. }
  split; [|exact Le]. apply budget_checks_ok; [vm_cast_no_check (eq_refl true)|]. intros n. specialize (Le n). lia.
Qed.
