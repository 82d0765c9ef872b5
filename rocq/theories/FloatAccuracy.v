(** * Accuracy of powi and of sums, in either format *)
From Coq Require Import ZArith Lia Bool Reals Lra Psatz List.
From Flocq Require Import Core Relative Plus_error IEEE754.Binary IEEE754.Bits.
From Flocq Require IEEE754.BinarySingleNaN.
From Verif Require Import F64 FloatOps DecimalFacts NumericFacts FloatFacts.
Import ListNotations.
Local Open Scope R_scope.

Section Format.
Context (prec emax : Z).
Context (Hp : Prec_gt_0 prec) (He : BinarySingleNaN.Prec_lt_emax prec emax).
Context (He3 : (4 <= emax)%Z).
Notation fl := (binary_float prec emax).
Notation val := (B2R prec emax).
Notation fin x := (is_finite prec emax x = true).
Context (nan_m nan_d nan_p : fl -> fl -> { x : fl | is_nan prec emax x = true }).
Notation mul := (Bmult prec emax Hp He nan_m mode_NE).
Notation div := (Bdiv prec emax Hp He nan_d mode_NE).
Notation add := (Bplus prec emax Hp He nan_p mode_NE).
Notation u := (bpow radix2 (- prec)).
Notation range := (in_range prec emax).

Lemma u_pos : 0 < u. Proof. apply bpow_gt_0. Qed.
Lemma u_half : u <= / 2.
Proof.
  change (/ 2) with (bpow radix2 (-1)). apply bpow_le. unfold Prec_gt_0 in Hp. lia.
Qed.

(** [y] is [x] up to [m] roundings. *)
Definition within (m : nat) (x y : R) : Prop := exists t, (1 - u) ^ m <= t <= (1 + u) ^ m /\ y = x * t.

Lemma powers_pos m : 0 < (1 - u) ^ m /\ 1 <= (1 + u) ^ m.
Proof.
  pose proof u_pos. pose proof u_half. split; [apply pow_lt; lra|]. apply pow_R1_Rle. lra.
Qed.
Lemma within_mul m1 m2 x1 x2 y1 y2 : within m1 x1 y1 -> within m2 x2 y2 -> within (m1 + m2) (x1 * x2) (y1 * y2).
Proof.
  intros (t1 & B1 & ->) (t2 & B2 & ->). exists (t1 * t2). split; [|ring].
  destruct (powers_pos m1), (powers_pos m2). rewrite !pow_add. split; apply Rmult_le_compat; lra.
Qed.
Lemma within_round m x y e : within m x y -> Rabs e <= u -> within (S m) x (y * (1 + e)).
Proof.
  intros (t & B & ->) He'. apply Rabs_le_inv in He'. exists (t * (1 + e)). split; [|ring].
  pose proof u_pos. pose proof u_half. destruct (powers_pos m).
  replace ((1 - u) ^ S m) with ((1 - u) ^ m * (1 - u)) by (simpl; ring).
  replace ((1 + u) ^ S m) with ((1 + u) ^ m * (1 + u)) by (simpl; ring).
  split; apply Rmult_le_compat; lra.
Qed.

(** With few enough roundings the factor stays between a half and two. *)
Lemma bernoulli m : 1 - INR m * u <= (1 - u) ^ m.
Proof.
  pose proof u_pos. pose proof u_half. induction m as [|m IH]; [simpl; lra|].
  rewrite S_INR. simpl pow. destruct (powers_pos m) as [P _].
  assert (0 <= INR m) by apply pos_INR.
  apply Rle_trans with ((1 - u) * (1 - INR m * u)); [nra|]. apply Rmult_le_compat_l; lra.
Qed.
Lemma upper m : INR m * u <= / 2 -> (1 + u) ^ m <= 1 + 2 * (INR m * u).
Proof.
  intros H. pose proof u_pos. pose proof u_half. destruct (powers_pos m) as [P Q]. pose proof (bernoulli m) as B.
  assert (C : (1 + u) ^ m * (1 - u) ^ m <= 1).
  { rewrite <- Rpow_mult_distr. replace 1 with (1 ^ m) at 3 by apply pow1. apply pow_incr. split; nra. }
  assert (N : 0 <= INR m * u) by (apply Rmult_le_pos; [apply pos_INR|lra]).
  set (n := INR m * u) in *. set (a := (1 + u) ^ m) in *. set (b := (1 - u) ^ m) in *.
  assert (a * (1 - n) <= 1) by nra. assert (1 <= (1 + 2 * n) * (1 - n)) by nra.
  apply Rmult_le_reg_r with (1 - n); lra.
Qed.
Lemma within_bounds m x y : INR m * u <= / 2 -> within m x y -> Rabs x / 2 <= Rabs y <= 2 * Rabs x.
Proof.
  intros H (t & B & ->). pose proof (bernoulli m). pose proof (upper m H).
  assert (N : 0 <= INR m * u) by (apply Rmult_le_pos; [apply pos_INR|left; apply u_pos]).
  rewrite Rabs_mult, (Rabs_pos_eq t) by lra. pose proof (Rabs_pos x). split; nra.
Qed.

(** ** powi *)
Section Powi.
Context (x : R) (n : nat).
Context (Hn : INR n * u <= / 2).
Context (HL : bpow radix2 (3 - emax) <= Rabs x ^ n) (HH : Rabs x ^ n <= bpow radix2 (emax - 3)).

Lemma between k : (k <= n)%nat -> bpow radix2 (3 - emax) <= Rabs x ^ k <= bpow radix2 (emax - 3).
Proof.
  intros Hk.
  assert (L1 : bpow radix2 (3 - emax) <= 1) by (change 1 with (bpow radix2 0); apply bpow_le; lia).
  assert (H1 : 1 <= bpow radix2 (emax - 3)) by (change 1 with (bpow radix2 0); apply bpow_le; lia).
  destruct (Rle_or_lt 1 (Rabs x)) as [G|G].
  - split.
    + apply Rle_trans with 1; [exact L1|]. now apply pow_R1_Rle.
    + eapply Rle_trans; [|exact HH]. now apply Rle_pow.
  - pose proof (Rabs_pos x) as Px. split.
    + eapply Rle_trans; [exact HL|].
      replace n with (k + (n - k))%nat by lia. rewrite pow_add.
      rewrite <- (Rmult_1_r (Rabs x ^ k)) at 2. apply Rmult_le_compat_l; [now apply pow_le|].
      replace 1 with (1 ^ (n - k)) by apply pow1. apply pow_incr. lra.
    + apply Rle_trans with 1; [|exact H1]. replace 1 with (1 ^ k) by apply pow1. apply pow_incr. lra.
Qed.

Lemma step_range k m y : (k <= n)%nat -> (m <= n)%nat -> within m (x ^ k) y -> range y.
Proof.
  intros Hk Hm W. destruct (between k Hk) as [L H].
  assert (Hmu : INR m * u <= / 2).
  { eapply Rle_trans; [|exact Hn]. apply Rmult_le_compat_r; [left; apply u_pos|]. now apply le_INR. }
  destruct (within_bounds m _ _ Hmu W) as [B1 B2]. rewrite <- RPow_abs in B1, B2. right. split.
  - eapply Rle_trans; [|exact B1]. apply Rle_trans with (bpow radix2 (3 - emax) / 2); [|lra].
    replace (bpow radix2 (3 - emax)) with (bpow radix2 (2 - emax) * 2).
    + replace (3 - emax - prec + prec - 1)%Z with (2 - emax)%Z by ring. lra.
    + replace (3 - emax)%Z with (2 - emax + 1)%Z by ring. rewrite bpow_plus. reflexivity.
  - eapply Rle_trans; [exact B2|]. apply Rle_trans with (bpow radix2 (emax - 2)).
    + replace (emax - 2)%Z with (emax - 3 + 1)%Z by ring. rewrite bpow_plus. change (bpow radix2 1) with 2. lra.
    + apply Rle_trans with (/ 2 * bpow radix2 emax).
      * change (/ 2) with (bpow radix2 (-1)). rewrite <- bpow_plus. apply bpow_le. lia.
      * apply Rmult_le_compat_r; [apply bpow_ge_0|]. pose proof u_half. lra.
Qed.

Lemma step_mul (a b : fl) ka kb ma mb :
  fin a -> fin b -> within ma (x ^ ka) (val a) -> within mb (x ^ kb) (val b) ->
  (ka + kb <= n)%nat -> (ma + mb < n \/ ma + mb = n)%nat ->
  fin (mul a b) /\ within (S (ma + mb)) (x ^ (ka + kb)) (val (mul a b)).
Proof.
  intros Fa Fb Wa Wb Hk Hm. pose proof (within_mul _ _ _ _ _ _ Wa Wb) as W. rewrite <- pow_add in W.
  destruct (mult_error prec emax Hp He nan_m a b Fa Fb) as (F & e & Be & E).
  - eapply step_range; [exact Hk| |exact W]. lia.
  - split; [exact F|]. rewrite E. now apply within_round.
Qed.

Lemma powi_pos_within p : forall (r a : fl) kr ka,
  fin r -> fin a -> within kr (x ^ kr) (val r) -> within (Nat.pred ka) (x ^ ka) (val a) -> (1 <= ka)%nat ->
  (kr + ka * Pos.to_nat p <= n)%nat ->
  let z := gpowi_pos mul r a p in
  fin z /\ within (kr + ka * Pos.to_nat p) (x ^ (kr + ka * Pos.to_nat p)) (val z).
Proof.
  induction p as [p IH|p IH|]; intros r a kr ka Fr Fa Wr Wa K H; cbn [gpowi_pos].
  - rewrite Pos2Nat.inj_xI in H |- *.
    assert (1 <= Pos.to_nat p)%nat by (pose proof (Pos2Nat.is_pos p); lia).
    destruct (step_mul r a kr ka kr (Nat.pred ka) Fr Fa Wr Wa) as [F1 W1]; [nia|nia|].
    destruct (step_mul a a ka ka (Nat.pred ka) (Nat.pred ka) Fa Fa Wa Wa) as [F2 W2]; [nia|nia|].
    replace (S (kr + Nat.pred ka)) with (kr + ka)%nat in W1 by lia.
    replace (S (Nat.pred ka + Nat.pred ka)) with (Nat.pred (ka + ka)) in W2 by lia.
    replace (kr + ka * S (2 * Pos.to_nat p))%nat with (kr + ka + (ka + ka) * Pos.to_nat p)%nat in * by ring.
    apply IH; auto; lia.
  - rewrite Pos2Nat.inj_xO in H |- *.
    assert (1 <= Pos.to_nat p)%nat by (pose proof (Pos2Nat.is_pos p); lia).
    destruct (step_mul a a ka ka (Nat.pred ka) (Nat.pred ka) Fa Fa Wa Wa) as [F2 W2]; [nia|nia|].
    replace (S (Nat.pred ka + Nat.pred ka)) with (Nat.pred (ka + ka)) in W2 by lia.
    replace (kr + ka * (2 * Pos.to_nat p))%nat with (kr + (ka + ka) * Pos.to_nat p)%nat in * by ring.
    apply IH; auto; lia.
  - rewrite Pos2Nat.inj_1, Nat.mul_1_r in *.
    destruct (step_mul r a kr ka kr (Nat.pred ka) Fr Fa Wr Wa) as [F1 W1]; [lia|lia|].
    replace (S (kr + Nat.pred ka)) with (kr + ka)%nat in W1 by lia. auto.
Qed.
End Powi.

Theorem gpowi_accurate (one a : fl) (i : Z) :
  fin one -> val one = 1 -> fin a ->
  IZR (Z.abs i) * u <= / 2 ->
  bpow radix2 (3 - emax) <= Rabs (val a) ^ Z.to_nat (Z.abs i) <= bpow radix2 (emax - 3) ->
  let z := gpowi mul div one a i in
  fin z /\ Rabs (val z - powerRZ (val a) i) <= 2 * (IZR (Z.abs i) + 1) * u * Rabs (powerRZ (val a) i).
Proof.
  intros F1 V1 Fa Hi [HL HH]. cbv zeta.
  pose proof u_pos as U0. pose proof u_half as U1.
  assert (P : forall p, i = Zpos p \/ i = Zneg p ->
    let z := gpowi_pos mul one a p in
    let n := Pos.to_nat p in
    fin z /\ within n (val a ^ n) (val z) /\ IZR (Z.abs i) = INR n /\ INR n * u <= / 2 /\
    bpow radix2 (3 - emax) <= Rabs (val a) ^ n <= bpow radix2 (emax - 3)).
  { intros p Hip z n.
    assert (En : Z.to_nat (Z.abs i) = n) by (destruct Hip as [-> | ->]; reflexivity).
    assert (EI : IZR (Z.abs i) = INR n).
    { rewrite INR_IZR_INZ. f_equal. unfold n. rewrite positive_nat_Z. destruct Hip as [-> | ->]; reflexivity. }
    rewrite En in HL, HH. rewrite EI in Hi.
    destruct (powi_pos_within (val a) n Hi HL HH p one a 0%nat 1%nat F1 Fa) as [A B].
    { exists 1. simpl. rewrite V1. lra. }
    { exists 1. simpl. lra. }
    { lia. }
    { unfold n. lia. }
    { replace (0 + 1 * Pos.to_nat p)%nat with n in B by (unfold n; lia). tauto. } }
  destruct i as [|p|p].
  - cbn [gpowi]. split; [exact F1|]. rewrite V1. simpl. rewrite Rminus_eq_0, Rabs_R0, Rabs_R1. nra.
  - destruct (P p (or_introl eq_refl)) as (F & (t & B & E) & EI & Hn & _). cbn [gpowi]. split; [exact F|].
    rewrite EI. cbn [powerRZ]. set (n := Pos.to_nat p) in *. set (y := val a ^ n) in *. rewrite E.
    replace (y * t - y) with (y * (t - 1)) by ring. rewrite Rabs_mult, Rmult_comm.
    apply Rmult_le_compat_r; [apply Rabs_pos|]. pose proof (bernoulli n). pose proof (upper n Hn).
    assert (0 <= INR n * u) by (apply Rmult_le_pos; [apply pos_INR|lra]). apply Rabs_le. nra.
  - destruct (P p (or_intror eq_refl)) as (F & W & EI & Hn & R1 & R2). cbn [gpowi].
    pose proof (within_bounds _ _ _ Hn W) as WB. destruct W as (t & B & E).
    rewrite EI. cbn [powerRZ]. set (n := Pos.to_nat p) in *. set (y := val a ^ n) in *.
    rewrite RPow_abs in R1, R2. fold y in R1, R2.
    assert (NY : y <> 0).
    { intros Z. rewrite Z, Rabs_R0 in R1. pose proof (bpow_gt_0 radix2 (3 - emax)). lra. }
    pose proof (bernoulli n) as BN. pose proof (upper n Hn) as UN.
    assert (N0 : 0 <= INR n * u) by (apply Rmult_le_pos; [apply pos_INR|lra]).
    assert (T0 : 0 < t) by lra.
    assert (NZ : val (gpowi_pos mul one a p) <> 0) by (rewrite E; apply Rmult_integral_contrapositive; split; lra).
    assert (D3 : bpow radix2 (3 - emax) = bpow radix2 (2 - emax) * 2).
    { replace (3 - emax)%Z with (2 - emax + 1)%Z by ring. rewrite bpow_plus. reflexivity. }
    assert (D4 : bpow radix2 (emax - 3) * 2 = bpow radix2 (emax - 2)).
    { replace (emax - 2)%Z with (emax - 3 + 1)%Z by ring. rewrite bpow_plus. reflexivity. }
    destruct (div_error prec emax Hp He nan_d one (gpowi_pos mul one a p) F1 NZ) as (Fd & e & Be & Ed).
    { right. rewrite V1. unfold Rdiv. rewrite Rmult_1_l, Rabs_inv.
      assert (PZ : 0 < Rabs (val (gpowi_pos mul one a p))) by now apply Rabs_pos_lt. split.
      - replace (3 - emax - prec + prec - 1)%Z with (- (emax - 2))%Z by ring. rewrite bpow_opp.
        apply Rinv_le_contravar; [exact PZ|]. lra.
      - apply Rle_trans with (bpow radix2 (emax - 2)).
        + replace (emax - 2)%Z with (- (2 - emax))%Z by ring. rewrite bpow_opp.
          apply Rinv_le_contravar; [apply bpow_gt_0|]. lra.
        + apply Rle_trans with (/ 2 * bpow radix2 emax).
          * change (/ 2) with (bpow radix2 (-1)). rewrite <- bpow_plus. apply bpow_le. lia.
          * apply Rmult_le_compat_r; [apply bpow_ge_0|]. lra. }
    split; [exact Fd|]. rewrite Ed, V1, E.
    replace (1 / (y * t) * (1 + e) - / y) with (/ y * ((1 + e) / t - 1)) by (field; lra).
    rewrite Rabs_mult, Rmult_comm. apply Rmult_le_compat_r; [apply Rabs_pos|].
    apply Rabs_le_inv in Be. unfold eps in Be.
    assert (Q : 1 - INR n * u <= / t <= 1 + 2 * (INR n * u)).
    { assert (It : t * / t = 1) by (apply Rinv_r; lra). assert (0 < / t) by now apply Rinv_0_lt_compat.
      set (m := INR n * u) in *. split.
      - (* / t >= 1 / (1+u)^n >= (1-u)^n *)
        assert (C : (1 + u) ^ n * (1 - u) ^ n <= 1).
        { rewrite <- Rpow_mult_distr. replace 1 with (1 ^ n) at 3 by apply pow1. apply pow_incr. split; nra. }
        assert (t * (1 - m) <= 1).
        { apply Rle_trans with ((1 + u) ^ n * (1 - u) ^ n); [|exact C]. apply Rmult_le_compat; lra. }
        nra.
      - assert ((1 - m) * / t <= 1) by nra. assert (1 <= (1 + 2 * m) * (1 - m)) by nra.
        assert (0 < 1 - m) by lra. apply Rmult_le_reg_l with (1 - m); nra. }
    unfold Rdiv. set (m := INR n * u) in *.
    replace (2 * (INR n + 1) * u) with (2 * m + 2 * u) by (unfold m; ring).
    apply Rabs_le. nra.
Qed.

(** ** Sums *)
Lemma add_finite (x y : fl) : fin (add x y) -> fin x /\ fin y.
Proof.
  unfold Bplus. rewrite is_finite_BSN2B.
  destruct x as [sx|sx|sx px Hx|sx mx ex Hx], y as [sy|sy|sy py Hy|sy my ey Hy]; simpl; auto;
    try discriminate; destruct (eqb _ _); discriminate.
Qed.

Lemma add_error (x y : fl) : fin x -> fin y -> fin (add x y) ->
  exists e, Rabs e <= u /\ val (add x y) = (val x + val y) * (1 + e).
Proof.
  intros Fx Fy F. pose proof (Bplus_correct prec emax Hp He nan_p mode_NE x y Fx Fy) as C.
  destruct (Rlt_bool _ _) eqn:E.
  - destruct C as (C1 & _ & _). rewrite C1.
    destruct (FLT_plus_error_N_ex radix2 (3 - emax - prec) prec (fun x => negb (Z.even x)) (val x) (val y))
      as (e & Be & Ee).
    + apply (generic_format_B2R prec emax x).
    + apply (generic_format_B2R prec emax y).
    + exists e. split; [|exact Ee]. eapply Rle_trans; [exact Be|].
      unfold u_ro. replace (/ 2 * bpow radix2 (- prec + 1)) with u; 
        [|rewrite bpow_plus; change (bpow radix2 1) with 2; field].
      pose proof u_pos. apply Rle_trans with (u / 1); [|lra]. unfold Rdiv. apply Rmult_le_compat_l; [lra|].
      apply Rinv_le_contravar; lra.
  - destruct C as [C _]. exfalso. unfold BinarySingleNaN.binary_overflow in C. 
    destruct (add x y); simpl in C; try discriminate.
Qed.

Definition total (xs : list R) : R := fold_right Rplus 0 xs.
Lemma sum_error (xs : list fl) : forall acc,
  fin acc -> Forall (fun x => fin x) xs -> fin (fold_left add xs acc) ->
  Rabs (val (fold_left add xs acc) - (val acc + total (map val xs)))
    <= ((1 + u) ^ length xs - 1) * (Rabs (val acc) + total (map (fun x => Rabs (val x)) xs)).
Proof.
  induction xs as [|x xs IH]; intros acc Fa Fx F; cbn [fold_left map total fold_right length] in *.
  - simpl. rewrite Rplus_0_r, Rminus_eq_0, Rabs_R0. lra.
  - inversion Fx as [|? ? Fx1 Fxs]; subst.
    assert (F' : fin (add acc x)).
    { clear -F. revert F. generalize (add acc x). induction xs as [|y ys IH]; intros z F; [exact F|].
      simpl in F. apply IH in F. now apply add_finite in F. }
    specialize (IH _ F' Fxs F). destruct (add_error acc x Fa Fx1 F') as (e & Be & E).
    fold (total (map val xs)) in *. fold (total (map (fun x => Rabs (val x)) xs)) in *.
    set (L := total (map (fun x => Rabs (val x)) xs)) in *. set (T := total (map val xs)) in *.
    set (r := val (fold_left add xs (add acc x))) in *. set (c := (1 + u) ^ length xs) in *.
    rewrite E in IH. pose proof u_pos. destruct (powers_pos (length xs)) as [_ C1]. fold c in C1.
    assert (L0 : 0 <= L).
    { unfold L. clear. induction xs; simpl; [lra|]. fold (total (map (fun x => Rabs (val x)) xs)).
      pose proof (Rabs_pos (val a)). unfold total in *. lra. }
    assert (A1 : Rabs ((val acc + val x) * (1 + e)) <= (Rabs (val acc) + Rabs (val x)) * (1 + u)).
    { rewrite Rabs_mult. apply Rmult_le_compat; try apply Rabs_pos; [apply Rabs_triang|].
      eapply Rle_trans; [apply Rabs_triang|]. rewrite Rabs_R1. lra. }
    assert (A2 : Rabs ((val acc + val x) * (1 + e) - (val acc + val x)) <= (Rabs (val acc) + Rabs (val x)) * u).
    { replace ((val acc + val x) * (1 + e) - (val acc + val x)) with ((val acc + val x) * e) by ring.
      rewrite Rabs_mult. apply Rmult_le_compat; try apply Rabs_pos; [apply Rabs_triang|exact Be]. }
    set (A := Rabs (val acc) + Rabs (val x)) in *.
    assert (A0 : 0 <= A) by (unfold A; pose proof (Rabs_pos (val acc)); pose proof (Rabs_pos (val x)); lra).
    replace (r - (val acc + (val x + T)))
      with ((r - ((val acc + val x) * (1 + e) + T)) + ((val acc + val x) * (1 + e) - (val acc + val x))) by ring.
    eapply Rle_trans; [apply Rabs_triang|].
    replace (Rabs (val acc) + (Rabs (val x) + L)) with (A + L) by (unfold A; ring).
    replace ((1 + u) ^ S (length xs)) with ((1 + u) * c) by reflexivity.
    eapply Rle_trans; [apply Rplus_le_compat; [exact IH|exact A2]|].
    apply Rle_trans with ((c - 1) * (A * (1 + u) + L) + A * u).
    + apply Rplus_le_compat_r. apply Rmult_le_compat_l; lra.
    + replace (((1 + u) * c - 1) * (A + L)) with ((c - 1) * (A * (1 + u) + L) + A * u + u * c * L) by ring.
      assert (0 <= u * c * L) by (apply Rmult_le_pos; [apply Rmult_le_pos|]; lra). lra.
Qed.
End Format.
