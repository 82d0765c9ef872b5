(** * Facts used by the serialization round trip *)
From Coq Require Import String Ascii List Bool ZArith NArith Lia Reals Lra.
From Flocq Require Import Core IEEE754.Binary IEEE754.Bits.
From Flocq Require IEEE754.BinarySingleNaN.
From Verif Require Import MachineInt Ratio F64 Magnitude MagnitudeFacts FloatFacts FloatOps PropertiesVector Text TextFacts Debug.
Import ListNotations.
Local Close Scope R_scope.
Local Open Scope list_scope.

(** ** Trimming *)

Lemma ws_len_le c u : (ws_len (c :: u) <= S (length u))%nat.
Proof.
  unfold ws_len. destruct (b_in 9 13 c || b_is 32 c); [simpl; lia|].
  destruct u as [|b u]; [lia|].
  destruct (b_is 194 c && _); [simpl; lia|].
  destruct u as [|d u]; [lia|].
  match goal with |- ((if ?x then _ else _) <= _)%nat => destruct x end; simpl; lia.
Qed.

Lemma words_after u c w : (byte c < 128)%N -> (forall cur, words_aux 0 cur (c :: w) <> []) ->
  forall j cur, (j <= length u)%nat -> words_aux j cur (u ++ c :: w) <> [].
Proof.
  intros Hc Hw. induction u as [|x u IH]; intros j cur Hj.
  - simpl in Hj. assert (j = O) by lia. subst j. apply Hw.
  - cbn [app words_aux]. destruct j as [|j]; [|apply IH; simpl in Hj; lia].
    change (x :: u ++ c :: w) with ((x :: u) ++ c :: w).
    rewrite (ws_len_before_blank (x :: u)); [|discriminate|right; exists c, w; split; [reflexivity|lia]].
    pose proof (ws_len_le x u) as Hl. destruct (ws_len (x :: u)) as [|n]; [apply IH; lia|].
    intros E. apply app_eq_nil in E as [_ E]. revert E. apply IH. lia.
Qed.

Lemma trim_end_id s : (forall u v, s = u ++ v -> v <> [] -> blank v = false) -> trim_end s = s.
Proof.
  induction s as [|c s IH]; intros H; [reflexivity|]. cbn [trim_end].
  rewrite (H [] (c :: s)) by (auto; discriminate). f_equal. apply IH.
  intros u v E. apply (H (c :: u)). now rewrite E.
Qed.

Lemma solid_suffix a b : solid (a ++ b) -> solid b.
Proof. induction a as [|x a IH]; auto. intros H. apply IH. eapply solid_cons; exact H. Qed.

Lemma solid_blank w : solid w -> w <> [] -> blank w = false.
Proof.
  intros Hs Hn. unfold blank, split_ws. rewrite <- (app_nil_r w) at 1. rewrite words_solid by auto.
  cbn [app words_aux]. rewrite flush_word by auto. reflexivity.
Qed.

(** A text whose last part is a visible ASCII character, or a space and a word, has nothing to trim. *)
Lemma trim_end_last u c w : (byte c < 128)%N -> solid w -> (w = [] /\ graphic c \/ w <> [] /\ c = space) ->
  trim_end (u ++ c :: w) = u ++ c :: w.
Proof.
  intros Hc Hw Hcw. apply trim_end_id. intros a v E Hv.
  assert (Hcur : forall cur, words_aux 0 cur (c :: w) <> []).
  { intros cur. destruct Hcw as [[-> Hg]|[Hn ->]].
    - cbn [words_aux]. rewrite graphic_ws by auto. apply (words_aux_cur [] 0). destruct cur; discriminate.
    - rewrite words_space. intros F. apply app_eq_nil in F as [_ F].
      rewrite <- (app_nil_r w) in F. unfold split_ws in F. rewrite words_solid in F by auto.
      cbn [app words_aux] in F. rewrite flush_word in F by auto. discriminate. }
  assert (K : (exists a', v = a' ++ c :: w) \/ (exists b, w = b ++ v)).
  { clear -E Hv. revert a E. induction u as [|x u IH]; intros a E; cbn [app] in E.
    - destruct a as [|y a]; cbn [app] in E; [left; exists []; auto|]. injection E as _ ->. right. eauto.
    - destruct a as [|y a]; cbn [app] in E; [left; exists (x :: u); now rewrite <- E|].
      injection E as _ E. eapply IH; eauto. }
  destruct K as [(a' & ->)|(b & ->)].
  - unfold blank, split_ws. pose proof (words_after a' c w Hc Hcur 0 [] ltac:(lia)) as Hne.
    destruct (words_aux 0 [] (a' ++ c :: w)); [congruence|reflexivity].
  - apply solid_blank; auto. eapply solid_suffix; eauto.
Qed.

Lemma trim_start_graphic c s : graphic c -> trim_start (c :: s) = c :: s.
Proof. intros H. unfold trim_start. cbn [trim_start_aux]. now rewrite graphic_ws. Qed.

Lemma unwords_snoc ws w : unwords (ws ++ [w]) = unwords ws ++ space :: w.
Proof. unfold unwords. rewrite flat_map_app. cbn [flat_map]. now rewrite app_nil_r. Qed.

Lemma trim_bracketed c a d ws : graphic c -> graphic d -> Forall word ws ->
  trim (c :: a ++ d :: unwords ws) = c :: a ++ d :: unwords ws.
Proof.
  intros Hc Hd Hw. unfold trim. rewrite trim_start_graphic by auto.
  destruct ws as [|w ws' _] using rev_ind.
  - apply (trim_end_last (c :: a) d []); [unfold graphic in Hd; lia|apply solid_nil|auto].
  - rewrite unwords_snoc. apply Forall_app in Hw as [_ Hw]. inversion Hw as [|? ? [Hn Hs] _]; subst.
    assert (E : c :: a ++ d :: unwords ws' ++ space :: w = (c :: a ++ d :: unwords ws') ++ space :: w).
    { cbn [app]. now rewrite <- app_assoc. }
    rewrite E. apply trim_end_last; [reflexivity|auto|auto].
Qed.

(** ** The text of a vector *)

Lemma unwords_In c ws : In c (unwords ws) -> c = space \/ exists w, In w ws /\ In c w.
Proof.
  unfold unwords. intros H. apply in_flat_map in H as (w & Hw & [<-|H]); eauto.
Qed.

Lemma commas_words w ws : (forall x, In x (w :: ws) -> ~ In ","%char x) ->
  replace "," [] (commas (w :: ws)) = w ++ unwords ws.
Proof.
  revert w. induction ws as [|w' ws IH]; intros w H.
  - cbn [commas unwords flat_map]. rewrite app_nil_r. apply replace_none. apply H. now left.
  - change (commas (w :: w' :: ws)) with (w ++ ","%char :: space :: commas (w' :: ws)).
    rewrite replace_app. rewrite (replace_none _ _ w) by (apply H; now left).
    f_equal. change (replace "," [] (","%char :: space :: commas (w' :: ws))) with (space :: replace "," [] (commas (w' :: ws))).
    rewrite IH by (intros x Hx; apply H; now right). reflexivity.
Qed.

Lemma commas_In c ws : In c (commas ws) -> c = ","%char \/ c = space \/ exists w, In w ws /\ In c w.
Proof.
  induction ws as [|w [|w' ws] IH]; [intros []| |].
  - cbn [commas]. intros H. right; right. exists w. split; [now left|auto].
  - change (commas (w :: w' :: ws)) with (w ++ ","%char :: space :: commas (w' :: ws)). intros H.
    apply in_app_iff in H as [H|[<-|[<-|H]]]; auto.
    + right; right. exists w. split; [now left|auto].
    + destruct (IH H) as [E|[E|(x & Hx & Hc)]]; auto. right; right. exists x. split; [now right|auto].
Qed.

(** Replacing the brackets and commas. *)
Lemma vector_text w ws us :
  (forall x c, In x (w :: ws) -> In c x -> ~ In c (str "()[],")) ->
  (forall x c, In x us -> In c x -> ~ In c (str "()[],")) ->
  replace "," [] (replace "]" [")"%char] (replace "[" ["("%char]
    (("["%char :: commas (w :: ws) ++ ["]"%char]) ++ unwords us)))
  = "("%char :: (w ++ unwords ws) ++ ")"%char :: unwords us.
Proof.
  intros Hw Hu.
  assert (N : forall x c, In x (w :: ws) -> In c (str "()[],") -> ~ In c x) by (intros x c Hx Hc I; exact (Hw x c Hx I Hc)).
  assert (Nu : forall c, In c (str "()[],") -> ~ In c (unwords us)).
  { intros c Hc I. apply unwords_In in I as [->|(x & Hx & I)]; [|exact (Hu x c Hx I Hc)].
    simpl in Hc. intuition discriminate. }
  assert (Nc : forall c, In c (str "()[]") -> ~ In c (commas (w :: ws))).
  { intros c Hc I. apply commas_In in I as [->|[->|(x & Hx & I)]].
    - simpl in Hc. intuition discriminate.
    - simpl in Hc. intuition discriminate.
    - apply (N x c Hx); auto. simpl in Hc |- *. tauto. }
  assert (E1 : replace "[" ["("%char] (("["%char :: commas (w :: ws) ++ ["]"%char]) ++ unwords us)
               = "("%char :: commas (w :: ws) ++ "]"%char :: unwords us).
  { rewrite replace_app. change ("["%char :: commas (w :: ws) ++ ["]"%char]) with (["["%char] ++ commas (w :: ws) ++ ["]"%char]).
    rewrite !replace_app. rewrite (replace_none _ _ (commas _)) by (apply Nc; simpl; tauto).
    rewrite (replace_none _ _ (unwords us)) by (apply Nu; simpl; tauto). cbn. now rewrite <- app_assoc. }
  rewrite E1.
  assert (E2 : replace "]" [")"%char] ("("%char :: commas (w :: ws) ++ "]"%char :: unwords us)
               = "("%char :: commas (w :: ws) ++ ")"%char :: unwords us).
  { change ("("%char :: commas (w :: ws) ++ "]"%char :: unwords us) with (["("%char] ++ commas (w :: ws) ++ ["]"%char] ++ unwords us).
    rewrite !replace_app. rewrite (replace_none _ _ (commas _)) by (apply Nc; simpl; tauto).
    rewrite (replace_none _ _ (unwords us)) by (apply Nu; simpl; tauto). reflexivity. }
  rewrite E2.
  change ("("%char :: commas (w :: ws) ++ ")"%char :: unwords us) with (["("%char] ++ commas (w :: ws) ++ [")"%char] ++ unwords us).
  rewrite !replace_app. rewrite commas_words by (intros x Hx; apply N; auto; simpl; tauto).
  rewrite (replace_none _ _ (unwords us)) by (apply Nu; simpl; tauto). reflexivity.
Qed.

(** ** One is neutral *)
Lemma mul_one_64 (x : f64) : is_nan 53 1024 x = false -> f64_mul x f64_one = x.
Proof.
  intros Hn. destruct (is_finite 53 1024 x) eqn:F; [now apply mul_one64|].
  destruct x as [s|s|s pl H|s m e B]; try discriminate. destruct s; reflexivity.
Qed.
Lemma mul_one_32 (x : f32) : is_nan 24 128 x = false -> f32_mul x f32_one = x.
Proof.
  intros Hn. destruct (is_finite 24 128 x) eqn:F; [now apply mul_one32|].
  destruct x as [s|s|s pl H|s m e B]; try discriminate. destruct s; reflexivity.
Qed.
Lemma one_mul32 (x : f32) : is_nan 24 128 x = false -> f32_mul f32_one x = x.
Proof.
  intros Hn. destruct (is_finite 24 128 x) eqn:F.
  - unfold f32_mul, b32_mult.
    pose proof (Bmult_correct 24 128 eq_refl eq_refl binop_nan_pl32 mode_NE f32_one x) as C.
    assert (V : B2R 24 128 f32_one = 1%R) by (compute; lra). rewrite V, Rmult_1_l in C.
    rewrite round_generic in C; [|apply BinarySingleNaN.valid_rnd_round_mode|apply generic_format_B2R].
    rewrite Rlt_bool_true in C by apply abs_B2R_lt_emax. destruct C as (C1 & C2 & C3).
    apply B2R_Bsign_inj; [rewrite C2, F; reflexivity|exact F|exact C1|].
    rewrite C3.
    + change (Bsign 24 128 f32_one) with false. now destruct (Bsign 24 128 x).
    + apply fin_not_nan. rewrite C2, F. reflexivity.
  - destruct x as [s|s|s pl H|s m e B]; try discriminate. destruct s; reflexivity.
Qed.
