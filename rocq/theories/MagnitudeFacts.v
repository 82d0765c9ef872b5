(** * Proofs about the [Magnitude] encoding *)
From Coq Require Import ZArith Lia Bool Reals Psatz List.
From Flocq Require Import Core.Core IEEE754.Binary IEEE754.Bits.
From Flocq Require IEEE754.BinarySingleNaN.
From Verif Require Import MachineInt F64 Magnitude.
Local Open Scope Z_scope.

(** ** Bit-level decoding *)

(** What the bit pattern says: sign, exponent field and fraction field of a double. *)
Definition fields (x : f64) : bool * Z * Z :=
  match x with
  | B754_zero _ _ s => (s, 0, 0)
  | B754_infinity _ _ s => (s, 2047, 0)
  | B754_nan _ _ s pl _ => (s, 2047, Zpos pl)
  | B754_finite _ _ s m e _ =>
      if Zpos m <? 2 ^ 52 then (s, 0, Zpos m) else (s, e + 1075, Zpos m - 2 ^ 52)
  end.

Lemma finite_bounds m e :
  SpecFloat.bounded 53 1024 m e = true ->
  -1074 <= e <= 971 /\ Zpos m < 2 ^ 53 /\ (e = -1074 \/ 2 ^ 52 <= Zpos m).
Proof.
  intros H. unfold SpecFloat.bounded in H. apply andb_true_iff in H as [H1 H2].
  apply Z.leb_le in H2. unfold SpecFloat.canonical_mantissa in H1.
  apply Zeq_bool_eq in H1. unfold SpecFloat.fexp, SpecFloat.emin in H1.
  rewrite Digits.Zpos_digits2_pos in H1.
  pose proof (Digits.Zdigits_correct radix2 (Zpos m)) as [L U].
  set (d := Digits.Zdigits radix2 (Zpos m)) in *. simpl (Z.abs _) in L, U.
  assert (0 < d) by (apply Digits.Zdigits_gt_0; discriminate).
  assert (d <= 53) by lia.
  repeat split; try lia.
  - eapply Z.lt_le_trans; [exact U|]. apply (Zpower_le radix2 d 53). lia.
  - destruct (Z.eq_dec e (-1074)) as [->|]; [now left|right].
    assert (d = 53) by lia. subst d.
    eapply Z.le_trans; [|exact L]. apply (Zpower_le radix2 52). lia.
Qed.

Lemma triple_eq {A B C} (a a' : A) (b b' : B) (c c' : C) :
  (a, b, c) = (a', b', c') -> a = a' /\ b = b' /\ c = c'.
Proof. intros H. now inversion H. Qed.

Lemma fields_bounds x s e f :
  fields x = (s, e, f) -> 0 <= e < 2048 /\ 0 <= f < 2 ^ 52.
Proof.
  destruct x as [s'|s'|s' pl Hpl|s' m e' B]; cbn [fields]; intros H.
  - inversion H; subst; lia.
  - inversion H; subst; lia.
  - inversion H; subst. split; [lia|]. split; [lia|].
    unfold nan_pl in Hpl. apply Z.ltb_lt in Hpl.
    rewrite Digits.Zpos_digits2_pos in Hpl.
    pose proof (Digits.Zdigits_correct radix2 (Zpos pl)) as [_ U].
    simpl (Z.abs _) in U.
    eapply Z.lt_le_trans; [exact U|]. apply (Zpower_le radix2 _ 52). lia.
  - apply finite_bounds in B. destruct (Z.ltb_spec (Zpos m) (2 ^ 52)).
    + injection H as <- <- <-. lia.
    + apply triple_eq in H as (<- & <- & <-). lia.
Qed.

Lemma bits_fields x s e f :
  fields x = (s, e, f) ->
  bits_of_b64 x = ((if s then 2048 else 0) + e) * 2 ^ 52 + f.
Proof.
  unfold bits_of_b64, bits_of_binary_float, join_bits.
  destruct x as [s'|s'|s' pl Hpl|s' m e' B]; cbn [fields]; intros H.
  - inversion H; subst. rewrite Z.shiftl_mul_pow2 by lia. reflexivity.
  - inversion H; subst. rewrite Z.shiftl_mul_pow2 by lia. reflexivity.
  - inversion H; subst. rewrite Z.shiftl_mul_pow2 by lia. reflexivity.
  - apply finite_bounds in B.
    change (Z.pow_pos 2 52) with (2 ^ 52). change (Zpower 2 52) with (2 ^ 52).
    change (Zpower 2 11) with 2048.
    destruct (Z.ltb_spec (Zpos m) (2 ^ 52)) as [L|L].
    + rewrite Zle_bool_false by lia. apply triple_eq in H as (<- & <- & <-).
      rewrite Z.shiftl_mul_pow2 by lia. reflexivity.
    + rewrite Zle_bool_true by lia. apply triple_eq in H as (<- & <- & <-).
      rewrite Z.shiftl_mul_pow2 by lia.
      match goal with |- (_ + (?a - ?b + 1)) * _ + _ = _ =>
        replace (a - b + 1) with (a + 1075) by (change b with (-1074); lia) end.
      reflexivity.
Qed.

Lemma land_2047 z : Z.land z 2047 = z mod 2048.
Proof. apply (Z.land_ones z 11). lia. Qed.
Lemma land_frac z : Z.land z 4503599627370495 = z mod 2 ^ 52.
Proof. apply (Z.land_ones z 52). lia. Qed.
Lemma lor_hidden f : 0 <= f < 2 ^ 52 -> Z.lor f 4503599627370496 = f + 2 ^ 52.
Proof.
  intros Hf. change 4503599627370496 with (2 ^ 52).
  assert (Hl : Z.land f (2 ^ 52) = 0).
  { apply Z.bits_inj'. intros n Hn. rewrite Z.land_spec, Z.bits_0.
    destruct (Z.eq_dec n 52) as [->|Hne].
    - rewrite Z.testbit_odd, Z.shiftr_div_pow2, Z.div_small by lia. reflexivity.
    - rewrite Z.pow2_bits_false by lia. apply andb_false_r. }
  rewrite <- (Z.lxor_lor _ _ Hl). symmetry. now apply Z.add_nocarry_lxor.
Qed.

Lemma decode_fields x s e f :
  fields x = (s, e, f) ->
  integer_decode_f64 x =
    (if e =? 0 then 2 * f else f + 2 ^ 52, e - 1075, if s then -1 else 1).
Proof.
  intros H. pose proof (fields_bounds _ _ _ _ H) as [He Hf].
  unfold integer_decode_f64. rewrite (bits_fields _ _ _ _ H).
  set (b := ((if s then 2048 else 0) + e) * 2 ^ 52 + f).
  assert (E52 : Z.shiftr b 52 = (if s then 2048 else 0) + e).
  { rewrite Z.shiftr_div_pow2 by lia. unfold b.
    rewrite Z.div_add_l by lia. rewrite (Z.div_small f) by lia. lia. }
  assert (E63 : Z.shiftr b 63 = if s then 1 else 0).
  { replace 63 with (52 + 11) by lia. rewrite <- Z.shiftr_shiftr by lia. rewrite E52.
    rewrite Z.shiftr_div_pow2 by lia. change (2 ^ 11) with 2048.
    destruct s.
    - replace (2048 + e) with (1 * 2048 + e) by lia. rewrite Z.div_add_l by lia.
      rewrite Z.div_small by lia. lia.
    - apply Z.div_small. lia. }
  assert (Eexp : Z.land (Z.shiftr b 52) 2047 = e).
  { rewrite land_2047, E52. destruct s.
    - replace (2048 + e) with (e + 1 * 2048) by lia. rewrite Z.mod_add by lia.
      apply Z.mod_small. lia.
    - apply Z.mod_small. lia. }
  assert (Efrac : Z.land b 4503599627370495 = f).
  { rewrite land_frac. unfold b. rewrite Z.add_comm, Z.mod_add by lia.
    apply Z.mod_small. lia. }
  rewrite E63, Eexp, Efrac. rewrite lor_hidden by lia.
  rewrite Z.shiftl_mul_pow2 by lia. change (2 ^ 1) with 2.
  replace (1023 + 52) with 1075 by lia.
  replace (f * 2) with (2 * f) by lia.
  destruct s; reflexivity.
Qed.

(** ** The encoding is injective *)

Lemma fields_of_bits x y : fields x = fields y -> x = y.
Proof.
  intros H. destruct (fields y) as [[s e] f] eqn:Ey. symmetry in Ey.
  assert (Hb : bits_of_b64 x = bits_of_b64 y)
    by (rewrite (bits_fields x s e f), (bits_fields y s e f); auto).
  assert (Hr : forall z, b64_of_bits (bits_of_b64 z) = z)
    by apply (binary_float_of_bits_of_binary_float 52 11 eq_refl eq_refl eq_refl).
  rewrite <- (Hr x), <- (Hr y). now f_equal.
Qed.

Lemma mkMag_eq m e s m' e' s' : mkMag m e s = mkMag m' e' s' -> m = m' /\ e = e' /\ s = s'.
Proof. intros H. now inversion H. Qed.

Lemma from_f64_inj x y : from_f64 x = from_f64 y -> x = y.
Proof.
  unfold from_f64.
  destruct (fields x) as [[s e] f] eqn:Ex, (fields y) as [[s' e'] f'] eqn:Ey.
  rewrite (decode_fields _ _ _ _ Ex), (decode_fields _ _ _ _ Ey).
  intros H. apply mkMag_eq in H as (Hm & He & Hs). apply fields_of_bits. rewrite Ex, Ey.
  assert (Hee : e = e') by lia. subst e'.
  assert (Hss : s = s') by (destruct s, s'; auto; discriminate Hs). subst s'.
  assert (Hff : f = f') by (destruct (e =? 0); lia). now subst f'.
Qed.

(** ** Round trip *)

(** A [powi] that returns the exact powers of two from [2^lo] to [2^972] and [0] below. *)
Definition powi_from (lo : Z) (powi : f64 -> Z -> f64) : Prop :=
  (forall e, lo <= e <= 972 -> powi (f64_of_Z 2) e = f64_pow2 e) /\
  (forall e, -1075 <= e < lo -> powi (f64_of_Z 2) e = B754_zero 53 1024 false).

Lemma signed_mantissa (s : bool) mant :
  0 <= mant < 2 ^ 53 ->
  let a := f64_mul (f64_of_Z (if s then -1 else 1)) (f64_of_Z mant) in
  is_finite 53 1024 a = true /\
  B2R 53 1024 a = IZR (if s then - mant else mant) /\ Bsign 53 1024 a = s.
Proof.
  intros Hm a.
  destruct (f64_of_Z_exact mant) as (Fm & Rm & Sm); [lia|].
  assert (Sm' : Bsign 53 1024 (f64_of_Z mant) = false)
    by (rewrite Sm; apply Z.ltb_ge; lia).
  destruct (f64_of_Z_exact (if s then -1 else 1)) as (F1 & R1 & S1); [destruct s; reflexivity|].
  destruct s.
  - assert (E : a = b64_opp (f64_of_Z mant)).
    { apply f64_mul_exact; auto.
      - unfold b64_opp. rewrite is_finite_Bopp. auto.
      - unfold b64_opp. rewrite B2R_Bopp, R1, Rm. simpl. ring.
      - unfold b64_opp. rewrite Bsign_Bopp by now apply finite_not_nan.
        rewrite S1, Sm'. reflexivity. }
    rewrite E. unfold b64_opp. rewrite is_finite_Bopp, B2R_Bopp, Bsign_Bopp, Rm, Sm'
      by now apply finite_not_nan.
    repeat split; auto. now rewrite opp_IZR.
  - assert (E : a = f64_of_Z mant).
    { apply f64_mul_exact; auto.
      - rewrite R1, Rm. simpl. ring.
      - rewrite S1, Sm'. reflexivity. }
    rewrite E. auto.
Qed.

Lemma f64_mul_overflow x y :
  is_finite 53 1024 x = true -> is_finite 53 1024 y = true ->
  (bpow radix2 1024 <= Rabs (B2R 53 1024 x * B2R 53 1024 y))%R ->
  f64_mul x y = B754_infinity 53 1024 (xorb (Bsign 53 1024 x) (Bsign 53 1024 y)).
Proof.
  intros Fx Fy H. unfold f64_mul, b64_mult.
  match goal with |- Bmult _ _ ?H1 ?H2 ?nan _ _ _ = _ =>
    pose proof (Bmult_correct 53 1024 H1 H2 nan mode_NE x y) as C end.
  rewrite Rlt_bool_false in C.
  - apply B2FF_inj. rewrite C. reflexivity.
  - apply abs_round_ge_generic.
    + apply BinarySingleNaN.fexp_correct; reflexivity.
    + apply BinarySingleNaN.valid_rnd_round_mode.
    + apply generic_format_bpow. unfold SpecFloat.fexp, SpecFloat.emin. lia.
    + exact H.
Qed.

Lemma into_f64_decode env (s : bool) mant e :
  into_f64 env (mkMag mant e (if s then -1 else 1)) =
  f64_mul (f64_mul (f64_of_Z (if s then -1 else 1)) (f64_of_Z mant))
          (f_powi env (f64_of_Z 2) e).
Proof. reflexivity. Qed.

Lemma mul_zero_pos a s :
  is_finite 53 1024 a = true -> Bsign 53 1024 a = s ->
  f64_mul a (B754_zero 53 1024 false) = B754_zero 53 1024 s.
Proof.
  intros Fa Sa. apply f64_mul_exact; auto; simpl; [ring|]. rewrite Sa. now rewrite xorb_false_r.
Qed.

Lemma roundtrip_finite env lo x :
  -1074 <= lo <= -52 -> powi_from lo (f_powi env) -> is_finite 53 1024 x = true ->
  into_f64 env (from_f64 x) =
  if Rlt_bool (Rabs (B2R 53 1024 x)) (bpow radix2 (lo + 52))
  then B754_zero 53 1024 (Bsign 53 1024 x) else x.
Proof.
  intros Hlo [Hexact Hzero] Fx.
  destruct (fields x) as [[s e] f] eqn:Ef.
  unfold from_f64. rewrite (decode_fields _ _ _ _ Ef). rewrite into_f64_decode.
  pose proof (fields_bounds _ _ _ _ Ef) as [He Hf].
  set (mant := if e =? 0 then 2 * f else f + 2 ^ 52).
  assert (Hm : 0 <= mant < 2 ^ 53) by (unfold mant; destruct (e =? 0); lia).
  destruct (signed_mantissa s mant Hm) as (Fa & Ra & Sa).
  set (a := f64_mul (f64_of_Z (if s then -1 else 1)) (f64_of_Z mant)) in *.
  destruct x as [s'|s'|s' pl Hpl|s' m ex B]; try discriminate Fx; cbn [fields] in Ef.
  - inversion Ef; subst s' e f. rewrite Hzero by lia.
    rewrite Rlt_bool_true.
    + simpl. now apply mul_zero_pos.
    + simpl. rewrite Rabs_R0. apply bpow_gt_0.
  - pose proof (finite_bounds _ _ B) as (Bex & Bm & Bn).
    destruct (Z.ltb_spec (Zpos m) (2 ^ 52)) as [L|L]; apply triple_eq in Ef as (<- & <- & <-).
    + (* subnormal *)
      assert (ex = -1074) by lia. subst ex.
      rewrite Hzero by lia. rewrite Rlt_bool_true.
      * simpl. now apply mul_zero_pos.
      * simpl B2R. rewrite <- F2R_Zabs. rewrite abs_cond_Zopp.
        apply Rlt_le_trans with (bpow radix2 (52 + -1074)); [|apply bpow_le; lia].
        rewrite bpow_plus. unfold F2R. simpl Fnum. simpl Fexp.
        apply Rmult_lt_compat_r; [apply bpow_gt_0|].
        change (bpow radix2 52) with (IZR (2 ^ 52)). apply IZR_lt. exact L.
    + (* normal *)
      assert (Emant : mant = Zpos m).
      { unfold mant. destruct (Z.eqb_spec (ex + 1075) 0); lia. }
      destruct (Z_lt_le_dec ex lo) as [Hlt|Hge].
      * rewrite Hzero by lia. rewrite Rlt_bool_true.
        -- simpl. now apply mul_zero_pos.
        -- simpl B2R. rewrite <- F2R_Zabs. rewrite abs_cond_Zopp.
           apply Rlt_le_trans with (bpow radix2 (53 + ex)); [|apply bpow_le; lia].
           rewrite bpow_plus. unfold F2R. simpl Fnum. simpl Fexp.
           apply Rmult_lt_compat_r; [apply bpow_gt_0|].
           change (bpow radix2 53) with (IZR (2 ^ 53)). apply IZR_lt. exact Bm.
      * rewrite Rlt_bool_false.
        -- replace (ex + 1075 - 1075) with ex by lia.
           rewrite Hexact by lia.
           destruct (f64_pow2_exact ex) as (Fp & Rp & Sp); [lia|].
           apply f64_mul_exact; auto.
           ++ rewrite Ra, Rp, Emant. simpl B2R. unfold F2R. simpl Fnum. simpl Fexp.
              destruct s'; reflexivity.
           ++ rewrite Sa, Sp. simpl. now rewrite xorb_false_r.
        -- simpl B2R. rewrite <- F2R_Zabs. rewrite abs_cond_Zopp.
           apply Rle_trans with (bpow radix2 (52 + ex)); [apply bpow_le; lia|].
           rewrite bpow_plus. unfold F2R. simpl Fnum. simpl Fexp.
           apply Rmult_le_compat_r; [apply bpow_ge_0|].
           change (bpow radix2 52) with (IZR (2 ^ 52)). apply IZR_le. exact L.
Qed.

(** Infinities survive; NaNs become infinities. *)
Lemma roundtrip_nonfinite env lo x :
  -1074 <= lo <= -52 -> powi_from lo (f_powi env) -> is_finite 53 1024 x = false ->
  into_f64 env (from_f64 x) = B754_infinity 53 1024 (Bsign 53 1024 x).
Proof.
  intros Hlo [Hexact Hzero] Fx.
  destruct (fields x) as [[s e] f] eqn:Ef.
  unfold from_f64. rewrite (decode_fields _ _ _ _ Ef). rewrite into_f64_decode.
  pose proof (fields_bounds _ _ _ _ Ef) as [He Hf].
  assert (e = 2047 /\ Bsign 53 1024 x = s) as [-> Sx].
  { destruct x; try discriminate Fx; cbn [fields] in Ef; inversion Ef; subst; auto. }
  change (2047 =? 0) with false. cbn iota.
  destruct (signed_mantissa s (f + 2 ^ 52)) as (Fa & Ra & Sa); [lia|].
  set (a := f64_mul (f64_of_Z (if s then -1 else 1)) (f64_of_Z (f + 2 ^ 52))) in *.
  change (2047 - 1075) with 972. rewrite Hexact by lia.
  destruct (f64_pow2_exact 972) as (Fp & Rp & Sp); [lia|].
  rewrite f64_mul_overflow; auto.
  - rewrite Sa, Sp, Sx, xorb_false_r. reflexivity.
  - rewrite Ra, Rp, Rabs_mult, (Rabs_pos_eq (bpow _ _)) by apply bpow_ge_0.
    change 1024 with (52 + 972). rewrite bpow_plus.
    apply Rmult_le_compat_r; [apply bpow_ge_0|].
    rewrite <- abs_IZR. change (bpow radix2 52) with (IZR (2 ^ 52)). apply IZR_le.
    destruct s; lia.
Qed.

(** ** The two [powi] algorithms in use *)

Definition f64_bits_eqb (x y : f64) : bool := bits_of_b64 x =? bits_of_b64 y.

Lemma f64_bits_eqb_eq x y : f64_bits_eqb x y = true -> x = y.
Proof.
  unfold f64_bits_eqb. intros H. apply Z.eqb_eq in H.
  assert (Hr : forall z, b64_of_bits (bits_of_b64 z) = z)
    by apply (binary_float_of_bits_of_binary_float 52 11 eq_refl eq_refl eq_refl).
  rewrite <- (Hr x), <- (Hr y). now f_equal.
Qed.

Definition zrange (lo : Z) (n : nat) : list Z := map (fun i => lo + Z.of_nat i) (seq 0 n).

Lemma zrange_In lo n z : lo <= z < lo + Z.of_nat n -> In z (zrange lo n).
Proof.
  intros H. unfold zrange. apply in_map_iff. exists (Z.to_nat (z - lo)). split; [lia|].
  apply in_seq. lia.
Qed.

Lemma sweep (P : Z -> bool) lo n :
  forallb P (zrange lo n) = true -> forall z, lo <= z < lo + Z.of_nat n -> P z = true.
Proof. intros H z Hz. rewrite forallb_forall in H. apply H. now apply zrange_In. Qed.

Lemma powi_rt_from : powi_from (-1023) powi_rt.
Proof.
  split; intros e He; apply f64_bits_eqb_eq.
  - apply (sweep (fun e => f64_bits_eqb (powi_rt (f64_of_Z 2) e) (f64_pow2 e)) (-1023) 1996);
      [vm_compute; reflexivity|]. change (Z.of_nat 1996) with 1996. lia.
  - apply (sweep (fun e => f64_bits_eqb (powi_rt (f64_of_Z 2) e) (B754_zero 53 1024 false))
             (-1075) 52); [vm_compute; reflexivity|]. change (Z.of_nat 52) with 52. lia.
Qed.

Lemma powi_nt_from : powi_from (-1074) powi_nt.
Proof.
  split; intros e He; apply f64_bits_eqb_eq.
  - apply (sweep (fun e => f64_bits_eqb (powi_nt (f64_of_Z 2) e) (f64_pow2 e)) (-1074) 2047);
      [vm_compute; reflexivity|]. change (Z.of_nat 2047) with 2047. lia.
  - apply (sweep (fun e => f64_bits_eqb (powi_nt (f64_of_Z 2) e) (B754_zero 53 1024 false))
             (-1075) 1); [vm_compute; reflexivity|]. change (Z.of_nat 1) with 1. lia.
Qed.

(** ** Stable factors: the values that survive encoding *)

(** Zero (of either sign), infinities, and numbers of absolute value at least [2^(lo+52)]. *)
Definition stable (lo : Z) (x : f64) : Prop :=
  is_nan 53 1024 x = false /\
  (B2R 53 1024 x = 0%R \/ (bpow radix2 (lo + 52) <= Rabs (B2R 53 1024 x))%R).

Lemma finite_zero x :
  is_finite 53 1024 x = true -> B2R 53 1024 x = 0%R ->
  x = B754_zero 53 1024 (Bsign 53 1024 x).
Proof.
  intros Fx Hx. destruct x as [s|s|s pl H|s m e B]; try discriminate; auto.
  exfalso. simpl in Hx. apply eq_0_F2R in Hx. destruct s; discriminate.
Qed.

Lemma roundtrip_stable env lo x :
  -1074 <= lo <= -52 -> powi_from lo (f_powi env) -> stable lo x ->
  into_f64 env (from_f64 x) = x.
Proof.
  intros Hlo Hp [Hn Hs]. destruct (is_finite 53 1024 x) eqn:Fx.
  - rewrite (roundtrip_finite env lo) by auto. destruct Hs as [H0|Hge].
    + rewrite H0, Rabs_R0, Rlt_bool_true by apply bpow_gt_0. symmetry. now apply finite_zero.
    + now rewrite Rlt_bool_false.
  - rewrite (roundtrip_nonfinite env lo) by auto. destruct x; try discriminate. reflexivity.
Qed.

(** A decoded factor is always stable: decoding is idempotent. *)
Lemma decoded_stable env lo x :
  -1074 <= lo <= -52 -> powi_from lo (f_powi env) -> stable lo (into_f64 env (from_f64 x)).
Proof.
  intros Hlo Hp. destruct (is_finite 53 1024 x) eqn:Fx.
  - rewrite (roundtrip_finite env lo) by auto.
    destruct (Rlt_bool_spec (Rabs (B2R 53 1024 x)) (bpow radix2 (lo + 52))).
    + split; [reflexivity|now left].
    + split; [now apply finite_not_nan|now right].
  - rewrite (roundtrip_nonfinite env lo) by auto. split; [reflexivity|now left].
Qed.

Lemma f64_one_mul x : is_nan 53 1024 x = false -> f64_mul f64_one x = x.
Proof.
  intros Hn. destruct (f64_of_Z_exact 1) as (F1 & R1 & S1); [reflexivity|].
  destruct (is_finite 53 1024 x) eqn:Fx.
  - apply f64_mul_exact; auto.
    + unfold f64_one. rewrite R1. ring.
    + unfold f64_one. rewrite S1. destruct (Bsign 53 1024 x); reflexivity.
  - destruct x as [s|s|s pl H|s m e B]; try discriminate.
    destruct s; reflexivity.
Qed.

(** The magnitudes that occur in the program are encodings of doubles. *)
Definition encoded (x : magnitude) : Prop := exists f, x = from_f64 f.

Lemma one_stable lo : lo <= -52 -> stable lo f64_one.
Proof.
  intros Hlo. split; [reflexivity|right].
  destruct (f64_of_Z_exact 1) as (_ & R1 & _); [reflexivity|].
  unfold f64_one. rewrite R1, Rabs_R1. apply (bpow_le radix2 (lo + 52) 0). lia.
Qed.

Lemma one_times_encoded env lo x :
  -1074 <= lo <= -52 -> powi_from lo (f_powi env) -> encoded x ->
  into_f64 env (mag_mul env (from_f64 f64_one) x) = into_f64 env x.
Proof.
  intros Hlo Hp [f ->]. pose proof (decoded_stable env lo f Hlo Hp) as Hst.
  unfold mag_mul. rewrite (roundtrip_stable env lo f64_one) by (auto; apply one_stable; lia).
  rewrite f64_one_mul by apply Hst. now apply (roundtrip_stable env lo).
Qed.

Lemma mag_mul_exact env lo x y :
  -1074 <= lo <= -52 -> powi_from lo (f_powi env) -> stable lo x -> stable lo y ->
  mag_mul env (from_f64 x) (from_f64 y) = from_f64 (f64_mul x y).
Proof. intros. unfold mag_mul. now rewrite !(roundtrip_stable env lo). Qed.

Lemma mag_div_exact env lo x y :
  -1074 <= lo <= -52 -> powi_from lo (f_powi env) -> stable lo x -> stable lo y ->
  mag_div env (from_f64 x) (from_f64 y) = from_f64 (f64_div x y).
Proof. intros. unfold mag_div. now rewrite !(roundtrip_stable env lo). Qed.
