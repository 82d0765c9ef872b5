(** * Numbers in text: C50, continued

    The number in a serialized quantity is read as the float nearest to what is written. *)
From Coq Require Import String Ascii List Bool ZArith NArith Lia Reals Lra.
From Flocq Require Import Core IEEE754.Binary IEEE754.Bits.
From Verif Require Import MachineInt Ratio F64 DecimalFacts Magnitude NumericFacts Text TextFacts NumberFormat.
Import ListNotations.
Local Open Scope list_scope.
Local Open Scope Z_scope.

(** ** Specification *)
(** A number as written: a sign, digits, a decimal point and digits, and an exponent; all optional, but
    not without any digit. *)
Record written := {
  w_sign : option bool;             (* Some true: a minus; Some false: a plus *)
  w_int : list Z;                   (* the digits before ... *)
  w_frac : option (list Z);         (* ... and after the point *)
  w_exp : option (bool * option bool * list Z) }.  (* E instead of e; sign; digits *)
Definition print_sign (s : option bool) : text := match s with Some true => ["-"%char] | Some false => ["+"%char] | None => [] end.
Definition print_digits (ds : list Z) : text := map (fun d => ascii_of_N (Z.to_N (48 + d))) ds.
Definition print_number (w : written) : text :=
  print_sign (w_sign w) ++ print_digits (w_int w) ++
  match w_frac w with Some fs => "."%char :: print_digits fs | None => [] end ++
  match w_exp w with Some (up, s, es) => (if up : bool then "E"%char else "e"%char) :: print_sign s ++ print_digits es | None => [] end.
Definition is_digits (ds : list Z) : Prop := Forall (fun d => 0 <= d <= 9) ds.
Definition frac_digits (w : written) : list Z := match w_frac w with Some fs => fs | None => [] end.
Definition well_written (w : written) : Prop :=
  is_digits (w_int w) /\ is_digits (frac_digits w) /\ w_int w ++ frac_digits w <> [] /\
  match w_exp w with Some (_, _, es) => is_digits es /\ es <> [] | None => True end.

(** Its value: [d0 d1 .. dn] is [d0 * 10^n + ... + dn]. *)
Fixpoint digits_value (ds : list Z) : R :=
  match ds with [] => 0%R | d :: ds => (IZR d * 10 ^ length ds + digits_value ds)%R end.
Definition sign_value (s : option bool) : Z := match s with Some true => -1 | _ => 1 end.
Definition exponent_value (w : written) : Z :=
  match w_exp w with Some (_, s, es) => sign_value s * value_of_digits es | None => 0 end.
Definition number_value (w : written) : R :=
  (IZR (sign_value (w_sign w)) * (digits_value (w_int w) + digits_value (frac_digits w) / 10 ^ length (frac_digits w)) *
   powerRZ 10 (exponent_value w))%R.

(** ** Proofs *)
Lemma print_digits_chr ds : print_digits ds = map chr ds.
Proof. reflexivity. Qed.
Lemma value_aux ds : forall a, IZR (fold_left (fun a d => 10 * a + d) ds a) = (IZR a * 10 ^ length ds + digits_value ds)%R.
Proof.
  induction ds as [|d ds IH]; intros a; cbn [fold_left digits_value length]; [cbn; ring|].
  rewrite IH, plus_IZR, mult_IZR. cbn [pow]. ring.
Qed.
Lemma value_digits ds : IZR (value_of_digits ds) = digits_value ds.
Proof. unfold value_of_digits. rewrite value_aux. ring. Qed.
Lemma digits_app a b : digits_value (a ++ b) = (digits_value a * 10 ^ length b + digits_value b)%R.
Proof.
  induction a as [|d a IH]; cbn [app digits_value]; [ring|]. rewrite IH, app_length, pow_add. ring.
Qed.
Lemma digits_nonneg ds : is_digits ds -> 0 <= value_of_digits ds.
Proof.
  unfold value_of_digits. assert (G : forall a, 0 <= a -> is_digits ds -> 0 <= fold_left (fun a d => 10 * a + d) ds a); [|now apply G].
  induction ds as [|d ds IH]; intros a Ha H; cbn [fold_left]; [exact Ha|]. inversion H; subst. apply IH; [lia|assumption].
Qed.
(** The text after the sign does not begin with a sign or a letter. *)
Definition starts_ok (r : text) : Prop :=
  match r with c :: _ => c = "."%char \/ exists d, 0 <= d <= 9 /\ c = chr d | [] => False end.
Lemma sign_print s r : starts_ok r -> sign (print_sign s ++ r) = (match s with Some true => true | _ => false end, r).
Proof.
  intros H. destruct s as [[]|]; [reflexivity|reflexivity|]. cbn [print_sign app]. destruct r as [|c r]; [destruct H|].
  destruct H as [->|(d & Hd & ->)]; [reflexivity|]. now apply sign_digits.
Qed.
Lemma not_word r w c : starts_ok r -> (57 < byte c)%N -> str w = c :: tl (str w) -> same_word r w = false.
Proof.
  intros H Hc Hw. destruct r as [|x r]; [destruct H|]. destruct H as [->|(d & Hd & ->)]; [|eapply digit_not_word; eauto].
  unfold same_word. rewrite Hw. cbn [map text_eqb]. change (lower ".") with "."%char.
  replace (isc "." c) with false; [reflexivity|]. symmetry. apply isc_neq. intros <-. vm_compute in Hc. discriminate Hc.
Qed.
Lemma parse_exponent_print w : match w_exp w with Some (_, _, es) => is_digits es /\ es <> [] | None => True end ->
  parse_exponent (match w_exp w with Some (up, s, es) => (if up : bool then "E"%char else "e"%char) :: print_sign s ++ print_digits es | None => [] end)
  = Some (exponent_value w).
Proof.
  unfold exponent_value. destruct (w_exp w) as [[[up s] es]|]; [|reflexivity]. intros [H N]. unfold parse_exponent.
  replace (isc (lower (if up then "E"%char else "e"%char)) "e") with true by (destruct up; reflexivity).
  destruct es as [|e es]; [congruence|]. unfold parse_int.
  rewrite sign_print by (right; exists e; inversion H; subst; auto).
  rewrite print_digits_chr. rewrite <- (app_nil_r (map chr (e :: es))). rewrite span_digits_chr by (auto; exact H).
  f_equal. destruct s as [[]|]; unfold sign_value; lia.
Qed.
Lemma parse_print_number w : well_written w ->
  parse_literal (print_number w) =
  Some (LNum (match w_sign w with Some true => true | _ => false end) (value_of_digits (w_int w ++ frac_digits w))
         (exponent_value w - Z.of_nat (length (frac_digits w)))).
Proof.
  intros (Hi & Hf & N & He). unfold print_number.
  set (ex := match w_exp w with Some (up, s, es) => (if up : bool then "E"%char else "e"%char) :: print_sign s ++ print_digits es | None => [] end).
  set (r := print_digits (w_int w) ++ match w_frac w with Some fs => "."%char :: print_digits fs | None => [] end ++ ex).
  assert (Hex : match ex with c :: _ => digit c = None /\ isc c "." = false | [] => True end).
  { unfold ex. destruct (w_exp w) as [[[[] s] es]|]; [split; reflexivity|split; reflexivity|exact I]. }
  assert (St : starts_ok r).
  { unfold r. unfold frac_digits in N. revert N Hi. destruct (w_int w) as [|d ds]; intros N Hi; cbn [print_digits map app].
    - revert N. destruct (w_frac w) as [fs|]; intros N; [left; reflexivity|]. exfalso. now apply N.
    - right. exists d. inversion Hi; subst. auto. }
  unfold parse_literal. rewrite (sign_print _ r St).
  rewrite (not_word r "inf" "i" St eq_refl eq_refl), (not_word r "infinity" "i" St eq_refl eq_refl),
    (not_word r "nan" "n" St eq_refl eq_refl). cbn [orb].
  assert (Ex : parse_exponent ex = Some (exponent_value w)) by exact (parse_exponent_print w He).
  assert (Hd : match ex with c :: _ => digit c = None | [] => True end) by (destruct ex; [exact I|exact (proj1 Hex)]).
  unfold parse_number, r. clear r St. rewrite print_digits_chr. clearbody ex.
  destruct (w_frac w) as [fs|] eqn:F.
  - unfold frac_digits in *. rewrite F in *. rewrite span_digits_chr by (auto; reflexivity).
    cbn [app]. change (isc "." ".") with true. cbn iota. rewrite print_digits_chr.
    rewrite (span_digits_chr fs ex Hf Hd).
    rewrite Ex. destruct (w_int w ++ fs) eqn:Q; [congruence|]. reflexivity.
  - unfold frac_digits in *. rewrite F in *. cbn [app].
    rewrite (span_digits_chr (w_int w) ex Hi Hd).
    destruct ex as [|c ex'].
    + rewrite Ex. destruct (w_int w ++ []) eqn:Q; [congruence|]. reflexivity.
    + rewrite (proj2 Hex). rewrite Ex. destruct (w_int w ++ []) eqn:Q; [congruence|]. reflexivity.
Qed.
Lemma number_abs w : number_value w =
  (IZR (sign_value (w_sign w)) * (IZR (value_of_digits (w_int w ++ frac_digits w)) *
   powerRZ 10 (exponent_value w - Z.of_nat (length (frac_digits w)))))%R.
Proof.
  unfold number_value. rewrite value_digits, digits_app.
  unfold Z.sub. rewrite powerRZ_add by lra. rewrite powerRZ_neg'. rewrite <- pow_powerRZ.
  assert (H : (10 ^ length (frac_digits w) <> 0)%R) by (apply pow_nonzero; lra). field. exact H.
Qed.
Lemma nearest_signed r x : nearest r x -> nearest (- r) (signed true x).
Proof.
  unfold nearest, rnd64. cbn [round_mode]. rewrite round_NE_opp, Rabs_Ropp.
  destruct (Rlt_bool _ _) eqn:B.
  - intros [F E]. destruct x as [s|s|s n p|s m e H]; try discriminate F.
    + split; [reflexivity|]. cbn in *. rewrite <- E. ring.
    + split; [reflexivity|]. rewrite <- E. cbn [signed B2R]. rewrite <- F2R_Zopp. f_equal. f_equal. destruct s; reflexivity.
  - intros ->. cbn [signed]. f_equal.
    destruct (Rlt_bool_spec r 0) as [L|L], (Rlt_bool_spec (- r) 0) as [L'|L']; try reflexivity; exfalso; try lra.
    assert (r = 0)%R by lra. subst r. rewrite round_0, Rabs_R0 in B by apply valid_rnd_N.
    rewrite Rlt_bool_true in B; [discriminate|apply bpow_gt_0].
Qed.
Lemma nearest32_signed r x : nearest32 r x -> nearest32 (- r) (signed true x).
Proof.
  unfold nearest32, rnd32. cbn [round_mode]. rewrite round_NE_opp, Rabs_Ropp.
  destruct (Rlt_bool _ _) eqn:B.
  - intros [F E]. destruct x as [s|s|s n p|s m e H]; try discriminate F.
    + split; [reflexivity|]. cbn in *. rewrite <- E. ring.
    + split; [reflexivity|]. rewrite <- E. cbn [signed B2R]. rewrite <- F2R_Zopp. f_equal. f_equal. destruct s; reflexivity.
  - intros ->. cbn [signed]. f_equal.
    destruct (Rlt_bool_spec r 0) as [L|L], (Rlt_bool_spec (- r) 0) as [L'|L']; try reflexivity; exfalso; try lra.
    assert (r = 0)%R by lra. subst r. rewrite round_0, Rabs_R0 in B by apply valid_rnd_N.
    rewrite Rlt_bool_true in B; [discriminate|apply bpow_gt_0].
Qed.

(** However a number is written — signs, leading or trailing zeros, point anywhere, any exponent — it is
    read as the float nearest to its value (infinite if that is out of range). *)
Theorem C50_number_text : forall w, well_written w ->
  (exists x, parse_f64 (print_number w) = Some x /\ nearest (number_value w) x) /\
  (exists x, parse_f32 (print_number w) = Some x /\ nearest32 (number_value w) x).
Proof.
  intros w W. unfold parse_f64, parse_f32. rewrite (parse_print_number w W), number_abs.
  assert (P : 0 <= value_of_digits (w_int w ++ frac_digits w)).
  { destruct W as (A & B & _). apply digits_nonneg. apply Forall_app. auto. }
  split; (eexists; split; [reflexivity|]).
  - pose proof (f64_of_decimal_nearest _ (exponent_value w - Z.of_nat (length (frac_digits w))) P) as K.
    destruct (w_sign w) as [[]|]; cbn [sign_value].
    + match goal with |- context [(IZR (-1) * ?y)%R] => replace (IZR (-1) * y)%R with (- y)%R by ring end. now apply nearest_signed.
    + rewrite Rmult_1_l. exact K.
    + rewrite Rmult_1_l. exact K.
  - pose proof (f32_of_decimal_nearest _ (exponent_value w - Z.of_nat (length (frac_digits w))) P) as K.
    destruct (w_sign w) as [[]|]; cbn [sign_value].
    + match goal with |- context [(IZR (-1) * ?y)%R] => replace (IZR (-1) * y)%R with (- y)%R by ring end. now apply nearest32_signed.
    + rewrite Rmult_1_l. exact K.
    + rewrite Rmult_1_l. exact K.
Qed.
Print Assumptions C50_number_text.

(** [-012.50E-3] is one of these texts, with the value -0.0125. *)
Definition written_example : written :=
  {| w_sign := Some true; w_int := [0; 1; 2]; w_frac := Some [5; 0]; w_exp := Some (true, Some true, [3]) |}.
Example C50_number_text_applies : well_written written_example /\ print_number written_example = str "-012.50E-3" /\
  number_value written_example = (- (125 / 10000))%R.
Proof.
  split.
  - unfold well_written, is_digits. cbn. repeat split; try discriminate; repeat constructor; try lia; discriminate.
  - split; [vm_compute; reflexivity|]. rewrite number_abs. change (exponent_value written_example - Z.of_nat (length (frac_digits written_example))) with (-5)%Z.
    change (value_of_digits (w_int written_example ++ frac_digits written_example)) with 1250%Z.
    change (sign_value (w_sign written_example)) with (-1)%Z. unfold powerRZ. change (Pos.to_nat 5) with 5%nat. cbn [pow]. lra.
Qed.
