(** * Facts about words, splitting and number texts *)
From Coq Require Import String Ascii List Bool ZArith NArith Lia.
From Verif Require Import MachineInt F64 Text.
Import ListNotations.
Local Open Scope list_scope.
Local Open Scope Z_scope.

Lemma isc_eq a b : isc a b = true <-> a = b.
Proof. unfold isc. apply Ascii.eqb_eq. Qed.
Lemma isc_neq a b : isc a b = false <-> a <> b.
Proof. unfold isc. apply Ascii.eqb_neq. Qed.
Lemma isc_refl a : isc a a = true.
Proof. now apply isc_eq. Qed.

Lemma text_eqb_eq a b : text_eqb a b = true <-> a = b.
Proof.
  revert b. induction a as [|x a IH]; destruct b as [|y b]; simpl; try (split; congruence).
  rewrite andb_true_iff, isc_eq, IH. split; [intros [-> ->]; auto|]. intros H. injection H; auto.
Qed.

Lemma str_inj a b : str a = str b -> a = b.
Proof.
  unfold str. intros H. rewrite <- (string_of_list_ascii_of_string a), H.
  apply string_of_list_ascii_of_string.
Qed.

Lemma str_app a b : str (a ++ b)%string = str a ++ str b.
Proof. induction a; simpl; auto. now rewrite IHa. Qed.

(** ** Words *)

(** No white space character begins inside [w], whatever follows it. *)
Definition solid (w : text) : Prop :=
  forall u v t, w = u ++ v -> v <> [] -> ws_len (v ++ t) = O.

Lemma solid_nil : solid [].
Proof. intros u v t E Hv. destruct u; simpl in E; [now subst|discriminate]. Qed.
Lemma solid_cons c w : solid (c :: w) -> solid w.
Proof. intros H u v t E. apply (H (c :: u)). simpl. now f_equal. Qed.

Lemma solid_app a b : solid a -> solid b -> solid (a ++ b).
Proof.
  intros Ha Hb u v t E Hv.
  revert a Ha E. induction u as [|x u IH]; intros a Ha E.
  - simpl in E. subst v. destruct a as [|y a].
    + simpl. apply (Hb [] b t); auto.
    + rewrite <- app_assoc. apply (Ha [] (y :: a)); auto. discriminate.
  - destruct a as [|y a].
    + simpl in E. apply (Hb (x :: u) v t); auto.
    + simpl in E. injection E as -> E. apply (IH a); auto. eapply solid_cons; eauto.
Qed.

(** Visible ASCII characters. *)
Definition graphic (c : ascii) : Prop := (33 <= byte c <= 126)%N.

Lemma graphic_ws c t : graphic c -> ws_len (c :: t) = O.
Proof.
  unfold graphic. intros H. unfold ws_len, b_in, b_is.
  replace ((9 <=? byte c)%N && (byte c <=? 13)%N) with false
    by (symmetry; apply andb_false_iff; right; apply N.leb_gt; lia).
  replace (byte c =? 32)%N with false by (symmetry; apply N.eqb_neq; lia).
  replace (byte c =? 194)%N with false by (symmetry; apply N.eqb_neq; lia).
  replace (byte c =? 225)%N with false by (symmetry; apply N.eqb_neq; lia).
  replace (byte c =? 226)%N with false by (symmetry; apply N.eqb_neq; lia).
  replace (byte c =? 227)%N with false by (symmetry; apply N.eqb_neq; lia).
  simpl. destruct t as [|? [|? ?]]; reflexivity.
Qed.

Lemma graphic_solid w : Forall graphic w -> solid w.
Proof.
  intros H u v t -> Hv. apply Forall_app in H as [_ H]. destruct v as [|c v]; [congruence|].
  simpl. apply graphic_ws. now inversion H.
Qed.

Lemma words_solid w : solid w -> forall cur t,
  words_aux 0 cur (w ++ t) = words_aux 0 (cur ++ w) t.
Proof.
  induction w as [|c w IH]; intros Hw cur t.
  - simpl. now rewrite app_nil_r.
  - cbn [words_aux app]. pose proof (Hw [] (c :: w) t eq_refl ltac:(discriminate)) as E. cbn [app] in E. rewrite E.
    rewrite IH by (eapply solid_cons; eauto). now rewrite <- app_assoc.
Qed.

Definition space : ascii := " "%char.
Lemma ws_space t : ws_len (space :: t) = 1%nat.
Proof. reflexivity. Qed.

Lemma words_space cur t : words_aux 0 cur (space :: t) = flush cur ++ split_ws t.
Proof. simpl. reflexivity. Qed.

Lemma flush_word w : w <> [] -> flush w = [w].
Proof. destruct w; [congruence|auto]. Qed.

(** A word followed by space-separated words. *)
Definition unwords (ws : list text) : text := flat_map (fun w => space :: w) ws.
Definition word (w : text) : Prop := w <> [] /\ solid w.

Lemma split_unwords ws : Forall word ws -> split_ws (unwords ws) = ws.
Proof.
  unfold split_ws. induction ws as [|w ws IH]; intros H; auto. inversion H as [|? ? [Hn Hs] Hr]; subst.
  cbn [unwords flat_map app]. rewrite words_space. cbn [flush app]. unfold split_ws.
  rewrite words_solid by auto. cbn [app]. fold (unwords ws).
  destruct ws as [|w' ws']; [simpl; now apply flush_word|].
  cbn [unwords flat_map app] in IH |- *. rewrite words_space. rewrite flush_word by auto.
  rewrite words_space in IH. cbn [flush app] in IH. rewrite IH; auto.
Qed.

Lemma split_words w ws : word w -> Forall word ws -> split_ws (w ++ unwords ws) = w :: ws.
Proof.
  intros [Hn Hs] Hw. unfold split_ws. rewrite words_solid by auto. cbn [app].
  destruct ws as [|w' ws']; [simpl; now apply flush_word|].
  pose proof (split_unwords _ Hw) as E. unfold split_ws in E. cbn [unwords flat_map app] in E |- *.
  rewrite words_space in E |- *. cbn [flush app] in E. rewrite flush_word by auto. now rewrite E.
Qed.

(** ** Trimming does not change the words *)

Lemma trim_start_aux_words k s : words_aux 0 [] (trim_start_aux k s) = words_aux k [] s.
Proof.
  revert k. induction s as [|c s IH]; intros k; [reflexivity|].
  cbn [trim_start_aux words_aux]. destruct k as [|k]; [|apply IH].
  destruct (ws_len (c :: s)) as [|k] eqn:E.
  - cbn [words_aux]. now rewrite E.
  - simpl. apply IH.
Qed.

Lemma split_trim_start s : split_ws (trim_start s) = split_ws s.
Proof. apply trim_start_aux_words. Qed.

Lemma words_aux_cur s : forall k cur, cur <> [] -> words_aux k cur s <> [].
Proof.
  induction s as [|c s IH]; intros k cur Hc; cbn [words_aux].
  - rewrite flush_word; auto. discriminate.
  - destruct k; [|now apply IH]. destruct (ws_len (c :: s)).
    + apply IH. destruct cur; discriminate.
    + rewrite flush_word by auto. discriminate.
Qed.

(** A blank text begins with a white space character. *)
Lemma blank_head c s : blank (c :: s) = true -> ws_len (c :: s) <> O.
Proof.
  unfold blank, split_ws. cbn [words_aux]. destruct (ws_len (c :: s)); [|discriminate].
  destruct (words_aux 0 ([] ++ [c]) s) eqn:E; [|discriminate].
  exfalso. revert E. apply words_aux_cur. discriminate.
Qed.

(** ... which does not begin with a continuation byte. *)
Lemma ws_not_continuation c s : ws_len (c :: s) <> O -> (128 <= byte c <= 191)%N -> False.
Proof.
  intros H Hc. apply H. clear H. unfold ws_len, b_in, b_is.
  replace ((9 <=? byte c)%N && (byte c <=? 13)%N) with false
    by (symmetry; apply andb_false_iff; right; apply N.leb_gt; lia).
  replace (byte c =? 32)%N with false by (symmetry; apply N.eqb_neq; lia).
  replace (byte c =? 194)%N with false by (symmetry; apply N.eqb_neq; lia).
  replace (byte c =? 225)%N with false by (symmetry; apply N.eqb_neq; lia).
  replace (byte c =? 226)%N with false by (symmetry; apply N.eqb_neq; lia).
  replace (byte c =? 227)%N with false by (symmetry; apply N.eqb_neq; lia).
  simpl. destruct s as [|? [|? ?]]; reflexivity.
Qed.

Lemma b_in_range lo hi c : b_in lo hi c = true -> (lo <= byte c <= hi)%N.
Proof. unfold b_in. rewrite andb_true_iff, !N.leb_le. auto. Qed.
Lemma b_is_eq n c : b_is n c = true -> byte c = n.
Proof. unfold b_is. now rewrite N.eqb_eq. Qed.

(** The first character is decided without looking into a following white space character. *)
Lemma ws_len_before_blank v t :
  v <> [] -> (t = [] \/ exists c t', t = c :: t' /\ ~ (128 <= byte c <= 191)%N) ->
  ws_len (v ++ t) = ws_len v.
Proof.
  intros Hv [->|(c & t' & -> & Hc)]; [now rewrite app_nil_r|].
  destruct v as [|a [|b [|d v]]]; [congruence| | |reflexivity]; simpl.
  - destruct (b_in 9 13 a || b_is 32 a); [reflexivity|].
    destruct (b_is 194 a && (b_is 133 c || b_is 160 c)) eqn:E.
    { exfalso. apply Hc. apply andb_true_iff in E as [_ E]. apply orb_true_iff in E as [E|E]; apply b_is_eq in E; lia. }
    destruct t' as [|e t']; [reflexivity|].
    match goal with |- (if ?x then _ else _) = _ => destruct x eqn:E' end; [|reflexivity].
    exfalso. apply Hc. repeat (apply orb_true_iff in E' as [E'|E']); apply andb_true_iff in E' as [E' _];
      apply andb_true_iff in E' as [_ E']; apply b_is_eq in E'; lia.
  - destruct (b_in 9 13 a || b_is 32 a); [reflexivity|].
    destruct (b_is 194 a && (b_is 133 b || b_is 160 b)) eqn:E; [reflexivity|].
    match goal with |- (if ?x then _ else _) = _ => destruct x eqn:E' end; [|reflexivity].
    exfalso. apply Hc. repeat (apply orb_true_iff in E' as [E'|E']);
      apply andb_true_iff in E' as [_ E']; try (apply b_is_eq in E'; lia).
    repeat (apply orb_true_iff in E' as [E'|E']); try (apply b_is_eq in E'; lia).
    apply b_in_range in E'. lia.
Qed.

Lemma blank_rest t : blank t = true -> t = [] \/ exists c t', t = c :: t' /\ ~ (128 <= byte c <= 191)%N.
Proof.
  destruct t as [|c t]; [auto|]. intros H. right. exists c, t. split; auto.
  intros Hc. eapply ws_not_continuation; eauto. apply blank_head; exact H.
Qed.

Lemma trim_end_split s : exists t, blank t = true /\ s = trim_end s ++ t.
Proof.
  induction s as [|c s IH]; [exists []; auto|]. cbn [trim_end].
  destruct (blank (c :: s)) eqn:E; [exists (c :: s); auto|].
  destruct IH as (t & Ht & Es). exists t. split; auto. simpl. now f_equal.
Qed.

Lemma words_blank_end u t : blank t = true -> forall k cur, (k <= length u)%nat ->
  words_aux k cur (u ++ t) = words_aux k cur u.
Proof.
  intros Ht. pose proof (blank_rest t Ht) as Hb.
  induction u as [|c u IH]; intros k cur Hk.
  - simpl in Hk. assert (k = O) by lia. subst k. simpl. destruct t as [|c t]; [reflexivity|].
    pose proof (blank_head c t Ht) as Hh. unfold blank, split_ws in Ht.
    cbn [words_aux] in Ht |- *. destruct (ws_len (c :: t)) as [|j]; [congruence|].
    cbn [flush app] in Ht. destruct (words_aux j [] t); [|discriminate]. apply app_nil_r.
  - cbn [app words_aux]. destruct k as [|k].
    + change (c :: u ++ t) with ((c :: u) ++ t). rewrite (ws_len_before_blank (c :: u) t) by (auto; discriminate).
      destruct (ws_len (c :: u)) as [|j] eqn:E; [apply IH; lia|]. f_equal. apply IH.
      clear - E. unfold ws_len in E.
      destruct (b_in 9 13 c || b_is 32 c); [injection E as <-; lia|].
      destruct u as [|b u]; [discriminate|].
      destruct (b_is 194 c && _); [injection E as <-; simpl; lia|].
      destruct u as [|d u]; [discriminate|].
      match type of E with (if ?x then _ else _) = _ => destruct x end; [injection E as <-; simpl; lia|discriminate].
    + apply IH. simpl in Hk. lia.
Qed.

Lemma split_blank_end u t : blank t = true -> split_ws (u ++ t) = split_ws u.
Proof. intros H. apply words_blank_end; auto. lia. Qed.

Lemma split_trim s : split_ws (trim s) = split_ws s.
Proof.
  unfold trim. destruct (trim_end_split (trim_start s)) as (t & Ht & E).
  rewrite <- (split_trim_start s). rewrite E at 2. now rewrite split_blank_end.
Qed.

(** ** Splitting at a character *)

Lemma split_on_none c s : ~ In c s -> split_on c s = [s].
Proof.
  induction s as [|x s IH]; intros H; [reflexivity|]. simpl.
  assert (E : isc x c = false) by (apply isc_neq; intros ->; apply H; now left).
  rewrite E, IH by (intros I; apply H; now right). reflexivity.
Qed.

Lemma split_on_one c a b : ~ In c a -> split_on c (a ++ c :: b) = a :: split_on c b.
Proof.
  induction a as [|x a IH]; intros H; simpl.
  - now rewrite isc_refl.
  - assert (E : isc x c = false) by (apply isc_neq; intros ->; apply H; now left).
    rewrite E, IH by (intros I; apply H; now right). reflexivity.
Qed.

Lemma split_on_nonempty c s : split_on c s <> [].
Proof. destruct s as [|x s]; [discriminate|]. simpl. destruct (isc x c); [discriminate|]. destruct (split_on c s); discriminate. Qed.

Lemma split_on_inv c s : forall a ps, split_on c s = a :: ps ->
  ~ In c a /\ (ps = [] -> s = a) /\
  (forall b qs, ps = b :: qs -> exists r, s = a ++ c :: r /\ split_on c r = b :: qs).
Proof.
  induction s as [|x s IH]; intros a ps H; simpl in H.
  - injection H as <- <-. repeat split; auto; intros; discriminate.
  - destruct (isc x c) eqn:E.
    + apply isc_eq in E. subst x. injection H as <- H. repeat split; auto.
      * intros ->. exfalso. now apply split_on_nonempty in H.
      * intros b qs ->. exists s. auto.
    + apply isc_neq in E. destruct (split_on c s) as [|p qs] eqn:Es; [now apply split_on_nonempty in Es|].
      injection H as <- <-. destruct (IH p qs eq_refl) as (H1 & H2 & H3). repeat split.
      * intros [H|H]; auto.
      * intros ->. f_equal. auto.
      * intros b qs' Hq. destruct (H3 _ _ Hq) as (r & -> & Hr). exists r. auto.
Qed.

Lemma split_on_two c s a b : split_on c s = [a; b] <-> s = a ++ c :: b /\ ~ In c a /\ ~ In c b.
Proof.
  split.
  - intros H. apply split_on_inv in H as (H1 & _ & H2). destruct (H2 b [] eq_refl) as (r & -> & Hr).
    apply split_on_inv in Hr as (H3 & H4 & _). rewrite (H4 eq_refl). auto.
  - intros (-> & H1 & H2). rewrite split_on_one by auto. now rewrite split_on_none.
Qed.

Lemma cut_iff c s a b : cut c s = Some (a, b) <-> s = a ++ c :: b /\ ~ In c a.
Proof.
  revert a b. induction s as [|x s IH]; intros a b; simpl.
  - split; [discriminate|]. intros [H _]. destruct a; discriminate.
  - destruct (isc x c) eqn:E.
    + apply isc_eq in E. subst x. split.
      * intros H. injection H as <- <-. auto.
      * intros [H Hn]. destruct a as [|y a]; simpl in H; injection H as <-.
        -- now subst.
        -- exfalso. apply Hn. now left.
    + apply isc_neq in E. destruct (cut c s) as [[a' b']|] eqn:Ec.
      * split.
        -- intros H. injection H as <- <-. destruct (proj1 (IH a' b') eq_refl) as [-> Hn]. split; auto. intros [H|H]; auto.
        -- intros [H Hn]. destruct a as [|y a]; simpl in H; injection H as Hx H; [congruence|].
           assert (E' : Some (a', b') = Some (a, b)) by (apply IH; split; auto; intros I; apply Hn; now right).
           injection E' as -> ->. now subst y.
      * split; [discriminate|]. intros [H Hn]. destruct a as [|y a]; simpl in H; injection H as Hx H; [congruence|].
        assert (E' : None = Some (a, b)) by (apply IH; split; auto; intros I; apply Hn; now right). discriminate.
Qed.

Lemma cut_none c s : cut c s = None <-> ~ In c s.
Proof.
  induction s as [|x s IH]; simpl; [tauto|]. destruct (isc x c) eqn:E.
  - apply isc_eq in E. split; [discriminate|]. intros H. exfalso. apply H. auto.
  - apply isc_neq in E. destruct (cut c s) as [[a b]|].
    + split; [discriminate|]. intros H. exfalso. assert (N : ~ In c s) by tauto. apply IH in N. discriminate.
    + assert (N : ~ In c s) by (now apply IH). tauto.
Qed.

Lemma replace_app c by_ a b : replace c by_ (a ++ b) = replace c by_ a ++ replace c by_ b.
Proof. apply flat_map_app. Qed.
Lemma replace_none c by_ s : ~ In c s -> replace c by_ s = s.
Proof.
  induction s as [|x s IH]; intros H; [reflexivity|]. simpl.
  assert (E : isc x c = false) by (apply isc_neq; intros ->; apply H; now left).
  rewrite E. simpl. rewrite IH; auto. intros I. apply H. now right.
Qed.

(** ** Integers *)

Definition chr (d : Z) : ascii := ascii_of_N (Z.to_N (48 + d)).

Lemma byte_chr d : 0 <= d <= 9 -> byte (chr d) = Z.to_N (48 + d).
Proof. intros H. unfold byte, chr. apply N_ascii_embedding. lia. Qed.

Lemma digit_chr d : 0 <= d <= 9 -> digit (chr d) = Some d.
Proof.
  intros H. unfold digit, b_in. rewrite byte_chr by auto.
  replace ((48 <=? Z.to_N (48 + d))%N && (Z.to_N (48 + d) <=? 57)%N) with true
    by (symmetry; apply andb_true_iff; split; apply N.leb_le; lia).
  f_equal. lia.
Qed.

Lemma chr_graphic d : 0 <= d <= 9 -> graphic (chr d).
Proof. intros H. unfold graphic. rewrite byte_chr by auto. lia. Qed.

Definition digits_ok (ds : list Z) : Prop := Forall (fun d => 0 <= d <= 9) ds.

Lemma span_digits_chr ds r :
  digits_ok ds -> match r with c :: _ => digit c = None | [] => True end ->
  span_digits (map chr ds ++ r) = (ds, r).
Proof.
  induction ds as [|d ds IH]; intros H Hr; simpl.
  - destruct r; [reflexivity|]. simpl. now rewrite Hr.
  - inversion H; subst. rewrite digit_chr by auto. now rewrite IH.
Qed.

Lemma value_snoc ds d : value_of_digits (ds ++ [d]) = 10 * value_of_digits ds + d.
Proof. unfold value_of_digits. now rewrite fold_left_app. Qed.

Lemma show_nat_aux_spec fuel : forall z acc,
  0 <= z < 2 ^ Z.of_nat fuel -> (0 < fuel)%nat ->
  exists ds, digits_ok ds /\ ds <> [] /\ value_of_digits ds = z /\
    show_nat_aux fuel z acc = map chr ds ++ acc.
Proof.
  induction fuel as [|f IH]; intros z acc Hz Hf; [lia|].
  cbn [show_nat_aux]. pose proof (Z.mod_pos_bound z 10 ltac:(lia)) as Hm.
  pose proof (Z.div_mod z 10 ltac:(lia)) as Hd.
  destruct (Z.eqb_spec (z / 10) 0) as [E|E].
  - exists [z mod 10]. repeat split; try discriminate.
    + constructor; [lia|constructor].
    + unfold value_of_digits. simpl fold_left. lia.
  - assert (Hten : 10 <= z) by (assert (0 <= z / 10) by (apply Z.div_pos; lia); lia).
    destruct (IH (z / 10) (chr (z mod 10) :: acc)) as (ds & H1 & H2 & H3 & H4).
    + rewrite Nat2Z.inj_succ, Z.pow_succ_r in Hz by lia. split; [apply Z.div_pos; lia|].
      apply Z.div_lt_upper_bound; lia.
    + destruct f; [|lia]. simpl in Hz. lia.
    + exists (ds ++ [z mod 10]). repeat split.
      * apply Forall_app. split; auto. constructor; [lia|constructor].
      * destruct ds; discriminate.
      * rewrite value_snoc, H3. lia.
      * unfold chr in H4 at 1. rewrite H4, map_app, <- app_assoc. reflexivity.
Qed.

Lemma show_nonneg_spec z : 0 <= z ->
  exists ds, digits_ok ds /\ ds <> [] /\ value_of_digits ds = z /\ show_nonneg z = map chr ds.
Proof.
  intros Hz. unfold show_nonneg.
  destruct (show_nat_aux_spec (S (Z.to_nat (Z.log2 z))) z []) as (ds & H1 & H2 & H3 & H4).
  - split; auto. rewrite Nat2Z.inj_succ, Z2Nat.id by apply Z.log2_nonneg.
    destruct (Z.eq_dec z 0) as [->|]; [reflexivity|]. apply Z.log2_spec. lia.
  - lia.
  - exists ds. rewrite app_nil_r in H4. auto.
Qed.

Lemma digit_not_sign d : 0 <= d <= 9 -> isc (chr d) "-" = false /\ isc (chr d) "+" = false.
Proof.
  intros H. split; apply isc_neq; intros E; apply (f_equal byte) in E; rewrite byte_chr in E by auto.
  - change (byte "-") with 45%N in E. lia.
  - change (byte "+") with 43%N in E. lia.
Qed.

Lemma sign_digits d r : 0 <= d <= 9 -> sign (chr d :: r) = (false, chr d :: r).
Proof. intros H. unfold sign. destruct (digit_not_sign d H) as [-> ->]. reflexivity. Qed.

Theorem parse_show_int z : parse_int (show_int z) = Some z.
Proof.
  unfold show_int, parse_int. destruct (Z.ltb_spec z 0) as [Hz|Hz].
  - cbn [sign isc]. change (isc "-" "-") with true. cbn iota beta.
    destruct (show_nonneg_spec (- z) ltac:(lia)) as (ds & H1 & H2 & H3 & ->).
    pose proof (span_digits_chr ds [] H1 I) as Hs. rewrite app_nil_r in Hs. rewrite Hs.
    destruct ds; [congruence|]. rewrite H3. f_equal. lia.
  - destruct (show_nonneg_spec z ltac:(lia)) as (ds & H1 & H2 & H3 & ->).
    destruct ds as [|d ds]; [congruence|]. inversion H1; subst. cbn [map]. rewrite sign_digits by auto.
    pose proof (span_digits_chr (d :: ds) [] H1 I) as Hs. rewrite app_nil_r in Hs. cbn [map] in Hs. rewrite Hs. reflexivity.
Qed.

Theorem parse_show_i32 z : - 2 ^ 31 <= z < 2 ^ 31 -> parse_i32 (show_int z) = Some z.
Proof.
  intros H. unfold parse_i32. rewrite parse_show_int.
  replace ((- 2 ^ 31 <=? z) && (z <? 2 ^ 31)) with true; auto.
  symmetry. apply andb_true_iff. rewrite Z.leb_le, Z.ltb_lt. lia.
Qed.

Lemma show_int_inj a b : show_int a = show_int b -> a = b.
Proof. intros H. apply (f_equal parse_int) in H. rewrite !parse_show_int in H. congruence. Qed.

(** The characters of a printed integer. *)
Lemma show_int_chars z c : In c (show_int z) -> c = "-"%char \/ exists d, 0 <= d <= 9 /\ c = chr d.
Proof.
  assert (K : forall y, 0 <= y -> In c (show_nonneg y) -> exists d, 0 <= d <= 9 /\ c = chr d).
  { intros y Hy. destruct (show_nonneg_spec y Hy) as (ds & H1 & _ & _ & ->). intros H.
    apply in_map_iff in H as (d & <- & Hd). exists d. split; auto. unfold digits_ok in H1. rewrite Forall_forall in H1. auto. }
  unfold show_int. destruct (Z.ltb_spec z 0); [intros [<-|H0]|intros H0]; auto.
  - right. apply (K (- z)); auto. lia.
  - right. apply (K z); auto.
Qed.

Lemma show_int_nonempty z : show_int z <> [].
Proof.
  unfold show_int. destruct (Z.ltb_spec z 0); [discriminate|].
  destruct (show_nonneg_spec z ltac:(lia)) as (ds & _ & H2 & _ & ->). destruct ds; [congruence|discriminate].
Qed.

Lemma show_int_graphic z : Forall graphic (show_int z).
Proof.
  apply Forall_forall. intros c H. apply show_int_chars in H as [->|(d & Hd & ->)]; [|now apply chr_graphic].
  unfold graphic. change (byte "-") with 45%N. lia.
Qed.

Lemma show_int_not z c : (byte c < 48 \/ 57 < byte c)%N -> c <> "-"%char -> ~ In c (show_int z).
Proof.
  intros H Hm I. apply show_int_chars in I as [->|(d & Hd & ->)]; [congruence|].
  rewrite byte_chr in H by auto. lia.
Qed.
