(** * Reading and printing floats: correct rounding, and formats that round-trip

    [number_format parse isnan fmt]: what the generated code relies on in core's float [Display]
    ("the shortest decimal that reads back as the same float").  [exact_format] prints the exact
    decimal value and satisfies it, so the assumption is consistent with the model of parsing. *)
From Coq Require Import String Ascii List Bool ZArith NArith Lia Reals Lra.
From Flocq Require Import Core IEEE754.Binary IEEE754.Bits.
From Flocq Require IEEE754.BinarySingleNaN.
From Verif Require Import MachineInt Ratio F64 DecimalFacts Magnitude NumericFacts Text TextFacts.
Import ListNotations.
Local Open Scope list_scope.
Local Open Scope Z_scope.

Record number_format {F} (parse : text -> option F) (isnan : F -> bool) (fmt : F -> text) : Prop := {
  nf_round_trip : forall x, isnan x = false -> parse (fmt x) = Some x;
  nf_chars : forall x c, In c (fmt x) -> graphic c /\ ~ In c (str "()[],");
  nf_nonempty : forall x, fmt x <> [] }.

(** ** [f32] literals are correctly rounded (as [f64_of_decimal_nearest]) *)

Lemma f32_of_Z_nearest z : nearest32 (IZR z) (f32_of_Z z).
Proof.
  unfold nearest32, f32_of_Z, rnd32.
  pose proof (binary_normalize_correct 24 128 eq_refl eq_refl mode_NE z 0 false) as C.
  assert (E : F2R (Float radix2 z 0) = IZR z) by (unfold F2R; simpl; ring). rewrite E in C.
  destruct (Rlt_bool _ _).
  - destruct C as (C1 & C2 & _). auto.
  - revert C. generalize (binary_normalize 24 128 eq_refl eq_refl mode_NE z 0 false).
    intros y Hy. destruct y; simpl in Hy; try discriminate. now inversion Hy.
Qed.

Lemma div_nearest32 (p t : positive) :
  nearest32 (IZR (Zpos p) / IZR (Zpos t))
    (BSN2B 24 128 (exist _ (B754_nan 24 128 false 1 eq_refl) eq_refl)
       (BinarySingleNaN.SF2B _
          (proj1 (BinarySingleNaN.Bdiv_correct_aux 24 128 eq_refl eq_refl
                    mode_NE false p 0 false t 0)))).
Proof.
  pose proof (proj2 (BinarySingleNaN.Bdiv_correct_aux 24 128 eq_refl eq_refl mode_NE false p 0 false t 0)) as C.
  generalize (proj1 (BinarySingleNaN.Bdiv_correct_aux 24 128 eq_refl eq_refl mode_NE false p 0 false t 0)) as V.
  cbv zeta in C |- *. intros V.
  match type of V with SpecFloat.valid_binary _ _ ?z = true => remember z as w eqn:Ew; clear Ew end.
  assert (Ex : F2R (Float radix2 (cond_Zopp false (Zpos p)) 0) = IZR (Zpos p)) by (unfold F2R; simpl; ring).
  assert (Ey : F2R (Float radix2 (cond_Zopp false (Zpos t)) 0) = IZR (Zpos t)) by (unfold F2R; simpl; ring).
  rewrite Ex, Ey in C. unfold nearest32, rnd32.
  destruct (Rlt_bool (Rabs _) _).
  - destruct C as (C1 & C2 & _). rewrite is_finite_BSN2B, BinarySingleNaN.is_finite_SF2B.
    rewrite B2R_BSN2B, BinarySingleNaN.B2R_SF2B. auto.
  - subst w. simpl. rewrite Rlt_bool_false; auto.
    apply Rmult_le_pos; [|left; apply Rinv_0_lt_compat; now apply IZR_lt].
    now apply IZR_le.
Qed.

Theorem f32_of_decimal_nearest d k :
  0 <= d -> nearest32 (IZR d * powerRZ 10 k) (f32_of_decimal d k).
Proof.
  intros Hd. destruct d as [|p|p]; [|clear Hd|lia].
  - simpl f32_of_decimal. rewrite Rmult_0_l. apply (f32_of_Z_nearest 0).
  - unfold f32_of_decimal. destruct k as [|q|q].
    + simpl powerRZ. rewrite Rmult_1_r. apply f32_of_Z_nearest.
    + rewrite <- pow10_pos, <- mult_IZR. apply f32_of_Z_nearest.
    + pose proof (pow10_pos q) as E.
      assert (P : 0 < 10 ^ Zpos q) by (apply Z.pow_pos_nonneg; lia).
      destruct (10 ^ Zpos q) as [|t|t]; try lia.
      change (powerRZ 10 (Zneg q)) with (/ powerRZ 10 (Zpos q))%R. rewrite <- E. apply div_nearest32.
Qed.

(** ** Printing the exact value *)

(** [d * 10^k = m * 2^e]. *)
Definition exact_decimal (m : positive) (e : Z) : Z * Z :=
  if 0 <=? e then (Zpos m * 2 ^ e, 0) else (Zpos m * 5 ^ (- e), e).

Lemma exact_decimal_value m e :
  let (d, k) := exact_decimal m e in
  0 < d /\ (IZR d * powerRZ 10 k = IZR (Zpos m) * powerRZ 2 e)%R.
Proof.
  unfold exact_decimal. destruct (Z.leb_spec 0 e) as [H|H].
  - split; [apply Z.mul_pos_pos; [lia|apply Z.pow_pos_nonneg; lia]|].
    simpl powerRZ at 1. rewrite Rmult_1_r, mult_IZR. f_equal.
    destruct e as [|p|p]; [reflexivity| |lia].
    rewrite <- (positive_nat_Z p), <- pow_IZR, positive_nat_Z. reflexivity.
  - destruct e as [|p|p]; try lia. change (- Zneg p) with (Zpos p).
    split; [apply Z.mul_pos_pos; [lia|apply Z.pow_pos_nonneg; lia]|].
    rewrite mult_IZR, Rmult_assoc. f_equal.
    rewrite <- (positive_nat_Z p) at 1. rewrite <- pow_IZR.
    cbn [powerRZ]. replace 10%R with (5 * 2)%R by lra. rewrite Rpow_mult_distr.
    rewrite Rinv_mult. rewrite <- Rmult_assoc, Rinv_r, Rmult_1_l; [reflexivity|].
    apply pow_nonzero. lra.
Qed.

Definition exact_format {prec emax} (x : binary_float prec emax) : text :=
  match x with
  | B754_zero _ _ s => (if s then str "-" else []) ++ str "0"
  | B754_infinity _ _ s => (if s then str "-" else []) ++ str "inf"
  | B754_nan _ _ _ _ _ => str "NaN"
  | B754_finite _ _ s m e _ =>
      let (d, k) := exact_decimal m e in
      (if s then str "-" else []) ++ show_int d ++ "e"%char :: show_int k
  end.

Lemma digit_lower d : 0 <= d <= 9 -> lower (chr d) = chr d.
Proof.
  intros H. unfold lower, b_in. rewrite byte_chr by auto.
  replace ((65 <=? Z.to_N (48 + d))%N && (Z.to_N (48 + d) <=? 90)%N) with false; [reflexivity|].
  symmetry. apply andb_false_iff. left. apply N.leb_gt. lia.
Qed.

Lemma digit_not_word d r w c : 0 <= d <= 9 -> (57 < byte c)%N -> str w = c :: tl (str w) ->
  same_word (chr d :: r) w = false.
Proof.
  intros Hd Hc Hw. unfold same_word. rewrite Hw. cbn [map text_eqb]. rewrite digit_lower by auto.
  replace (isc (chr d) c) with false; [reflexivity|]. symmetry. apply isc_neq. intros E.
  apply (f_equal byte) in E. rewrite byte_chr in E by auto. lia.
Qed.

Lemma parse_exact (s : bool) d k : 0 < d ->
  parse_literal ((if s then str "-" else []) ++ show_int d ++ "e"%char :: show_int k) = Some (LNum s d k).
Proof.
  intros Hd. unfold show_int at 1. destruct (Z.ltb_spec d 0); [lia|].
  destruct (show_nonneg_spec d ltac:(lia)) as (ds & H1 & H2 & H3 & ->).
  destruct ds as [|d0 ds]; [congruence|]. inversion H1 as [|? ? Hd0 Hds]; subst.
  set (r := map chr (d0 :: ds) ++ "e"%char :: show_int k).
  assert (Es : sign ((if s then str "-" else []) ++ r) = (s, r)).
  { destruct s; [reflexivity|]. unfold r. cbn [map app]. rewrite sign_digits by auto. reflexivity. }
  unfold parse_literal. rewrite Es.
  assert (E1 : same_word r "inf" = false) by (apply digit_not_word with (c := "i"%char); auto; vm_compute; reflexivity).
  assert (E2 : same_word r "infinity" = false) by (apply digit_not_word with (c := "i"%char); auto; vm_compute; reflexivity).
  assert (E3 : same_word r "nan" = false) by (apply digit_not_word with (c := "n"%char); auto; vm_compute; reflexivity).
  rewrite E1, E2, E3. cbn [orb]. unfold parse_number, r. rewrite span_digits_chr by (auto; reflexivity).
  cbn [isc]. change (isc "e" ".") with false. cbn iota beta. rewrite app_nil_r.
  unfold parse_exponent. change (isc (lower "e") "e") with true. cbn iota. rewrite parse_show_int.
  cbn [length]. now rewrite Z.sub_0_r.
Qed.

(** ** The exact value reads back *)
Lemma pow2_bpow e : powerRZ 2 e = bpow radix2 e.
Proof. rewrite bpow_powerRZ. reflexivity. Qed.

Lemma f64_reads_exact s m e B d k : exact_decimal m e = (d, k) ->
  signed s (f64_of_decimal d k) = B754_finite 53 1024 s m e B.
Proof.
  intros E. pose proof (exact_decimal_value m e) as V. rewrite E in V. destruct V as [Hd V].
  pose proof (f64_of_decimal_nearest d k ltac:(lia)) as N. rewrite V in N.
  set (y := B754_finite 53 1024 false m e B).
  assert (Ey : (IZR (Zpos m) * powerRZ 2 e)%R = B2R 53 1024 y).
  { unfold y, B2R, F2R. cbn [Fnum Fexp]. now rewrite pow2_bpow. }
  rewrite Ey in N. unfold nearest in N.
  assert (Er : rnd64 (B2R 53 1024 y) = B2R 53 1024 y).
  { unfold rnd64. apply round_generic; [apply BinarySingleNaN.valid_rnd_round_mode|apply generic_format_B2R]. }
  rewrite Er in N. rewrite Rlt_bool_true in N by apply abs_B2R_lt_emax. destruct N as [Fx Rx].
  assert (Ex : f64_of_decimal d k = y).
  { apply f64_eq_of_R; auto. unfold y at 1. cbn [Bsign].
    assert (P : (0 < B2R 53 1024 (f64_of_decimal d k))%R).
    { rewrite Rx. unfold y, B2R. apply F2R_gt_0. reflexivity. }
    destruct (f64_of_decimal d k) as [b|b|b pl H|b m' e' B']; simpl in *; try discriminate; try lra.
    destruct b; [|reflexivity]. exfalso.
    assert (Q : (F2R (Float radix2 (SpecFloat.cond_Zopp true (Zpos m')) e') < 0)%R) by (apply F2R_lt_0; reflexivity).
    simpl in Q, P. lra. }
  rewrite Ex. unfold y. destruct s; reflexivity.
Qed.

Lemma f32_reads_exact s m e B d k : exact_decimal m e = (d, k) ->
  signed s (f32_of_decimal d k) = B754_finite 24 128 s m e B.
Proof.
  intros E. pose proof (exact_decimal_value m e) as V. rewrite E in V. destruct V as [Hd V].
  pose proof (f32_of_decimal_nearest d k ltac:(lia)) as N. rewrite V in N.
  set (y := B754_finite 24 128 false m e B).
  assert (Ey : (IZR (Zpos m) * powerRZ 2 e)%R = B2R 24 128 y).
  { unfold y, B2R, F2R. cbn [Fnum Fexp]. now rewrite pow2_bpow. }
  rewrite Ey in N. unfold nearest32 in N.
  assert (Er : rnd32 (B2R 24 128 y) = B2R 24 128 y).
  { unfold rnd32. apply round_generic; [apply BinarySingleNaN.valid_rnd_round_mode|apply generic_format_B2R]. }
  rewrite Er in N. rewrite Rlt_bool_true in N by apply abs_B2R_lt_emax. destruct N as [Fx Rx].
  assert (Ex : f32_of_decimal d k = y).
  { apply B2R_Bsign_inj; auto. unfold y at 1. cbn [Bsign].
    assert (P : (0 < B2R 24 128 (f32_of_decimal d k))%R).
    { rewrite Rx. unfold y, B2R. apply F2R_gt_0. reflexivity. }
    destruct (f32_of_decimal d k) as [b|b|b pl H|b m' e' B']; simpl in *; try discriminate; try lra.
    destruct b; [|reflexivity]. exfalso.
    assert (Q : (F2R (Float radix2 (SpecFloat.cond_Zopp true (Zpos m')) e') < 0)%R) by (apply F2R_lt_0; reflexivity).
    simpl in Q, P. lra. }
  rewrite Ex. unfold y. destruct s; reflexivity.
Qed.

Lemma exact_chars {prec emax} (x : binary_float prec emax) c : In c (exact_format x) ->
  In c (str "-0infNaNe") \/ exists d, 0 <= d <= 9 /\ c = chr d.
Proof.
  destruct x as [s|s|s pl H|s m e B]; cbn [exact_format].
  - intros H. left. destruct s; simpl in H |- *; tauto.
  - intros H. left. destruct s; simpl in H |- *; tauto.
  - intros H'. left. simpl in H' |- *. tauto.
  - destruct (exact_decimal m e) as [d k]. intros H.
    apply in_app_iff in H as [H|H]; [left; destruct s; simpl in H |- *; tauto|].
    apply in_app_iff in H as [H|[<-|H]]; [| left; simpl; tauto|];
      apply show_int_chars in H as [->|H]; auto; left; simpl; tauto.
Qed.

Lemma exact_nonempty {prec emax} (x : binary_float prec emax) : exact_format x <> [].
Proof.
  destruct x as [s|s|s pl H|s m e B]; cbn [exact_format]; try (destruct s; discriminate).
  destruct (exact_decimal m e) as [d k]. destruct s; [discriminate|].
  intros H. apply app_eq_nil in H as [_ H]. apply app_eq_nil in H as [_ H]. discriminate.
Qed.

Lemma exact_chars_ok {prec emax} (x : binary_float prec emax) c : In c (exact_format x) ->
  graphic c /\ ~ In c (str "()[],").
Proof.
  intros H. apply exact_chars in H. split.
  - destruct H as [H|(d & Hd & ->)]; [|now apply chr_graphic].
    simpl in H. repeat (destruct H as [<-|H]; [split; vm_compute; discriminate|]). destruct H.
  - intros Hp. assert (Hb : In (byte c) [40; 41; 91; 93; 44]%N).
    { simpl in Hp. destruct Hp as [<-|[<-|[<-|[<-|[<-|[]]]]]]; vm_compute; tauto. }
    destruct H as [H|(d & Hd & ->)].
    + simpl in H, Hb. repeat (destruct H as [<-|H]; [vm_compute in Hb; intuition discriminate|]). destruct H.
    + rewrite byte_chr in Hb by auto. cbn [In] in Hb. lia.
Qed.

Theorem exact_format64 : number_format parse_f64 (is_nan 53 1024) exact_format.
Proof.
  split; [|apply exact_chars_ok|apply exact_nonempty].
  intros [s|s|s pl H|s m e B] Hn; try discriminate.
  - destruct s; reflexivity.
  - destruct s; reflexivity.
  - cbn [exact_format]. destruct (exact_decimal m e) as [d k] eqn:E. unfold parse_f64.
    assert (Hd : 0 < d) by (pose proof (exact_decimal_value m e) as V; rewrite E in V; tauto).
    rewrite parse_exact by exact Hd. f_equal. now apply f64_reads_exact.
Qed.
Theorem exact_format32 : number_format parse_f32 (is_nan 24 128) exact_format.
Proof.
  split; [|apply exact_chars_ok|apply exact_nonempty].
  intros [s|s|s pl H|s m e B] Hn; try discriminate.
  - destruct s; reflexivity.
  - destruct s; reflexivity.
  - cbn [exact_format]. destruct (exact_decimal m e) as [d k] eqn:E. unfold parse_f32.
    assert (Hd : 0 < d) by (pose proof (exact_decimal_value m e) as V; rewrite E in V; tauto).
    rewrite parse_exact by exact Hd. f_equal. now apply f32_reads_exact.
Qed.
