(** * Snake case: the function of base_dimension.rs in closed form *)
From Coq Require Import String Ascii List Bool NArith Lia.
From Verif Require Import Snake.
Import ListNotations.
Local Open Scope list_scope.
Local Open Scope char_scope.

Section Split.
Context (p : ascii -> bool).

Lemma split_nonempty l : l <> [] -> split_inclusive p l <> [].
Proof.
  destruct l as [|c l]; [congruence|]. intros _. simpl. destruct (p c); [congruence|].
  destruct (split_inclusive p l); congruence.
Qed.

Lemma split_snoc c : forall r, r <> [] ->
  split_inclusive p (r ++ [c]) =
  if p (last r "_") then split_inclusive p r ++ [[c]]
  else removelast (split_inclusive p r) ++ [last (split_inclusive p r) [] ++ [c]].
Proof.
  induction r as [|d r IH]; [congruence|]. intros _. destruct r as [|e r].
  - simpl. destruct (p d); simpl; destruct (p c); reflexivity.
  - specialize (IH ltac:(congruence)). change ((d :: e :: r) ++ [c]) with (d :: ((e :: r) ++ [c])).
    change (last (d :: e :: r) "_") with (last (e :: r) "_").
    pose proof (split_nonempty (e :: r) ltac:(congruence)) as Hn.
    remember (e :: r) as r' eqn:Er. cbn [split_inclusive]. rewrite IH. clear IH Er.
    destruct (p d).
    + destruct (p (last r' "_")); [reflexivity|].
      destruct (split_inclusive p r') as [|w ws]; [congruence|]. reflexivity.
    + destruct (split_inclusive p r') as [|w ws] eqn:Es; [congruence|].
      destruct (p (last r' "_")); [reflexivity|].
      destruct ws as [|w' ws]; reflexivity.
Qed.
End Split.

Definition words (l : list ascii) : list (list ascii) :=
  rev (map (fun w => map to_lower (rev w)) (split_inclusive is_upper (rev l))).

Lemma words_cons c d l :
  words (c :: d :: l) =
  if is_upper d then [to_lower c] :: words (d :: l)
  else match words (d :: l) with
       | [] => []
       | w :: ws => (to_lower c :: w) :: ws
       end.
Proof.
  unfold words. change (rev (c :: d :: l)) with (rev (d :: l) ++ [c]).
  assert (Hn : rev (d :: l) <> []) by (simpl; destruct (rev l); simpl; congruence).
  assert (Hl : last (rev (d :: l)) "_" = d) by (simpl; apply last_last).
  rewrite split_snoc by auto. rewrite Hl.
  pose proof (split_nonempty is_upper _ Hn) as Hs.
  set (S := split_inclusive is_upper (rev (d :: l))) in *.
  destruct (is_upper d).
  - rewrite map_app, rev_app_distr. reflexivity.
  - rewrite (app_removelast_last [] Hs) at 3. rewrite !map_app, !rev_app_distr. simpl.
    rewrite rev_app_distr. reflexivity.
Qed.

Fixpoint snake_list (first : bool) (l : list ascii) : list ascii :=
  match l with
  | [] => []
  | c :: l' => (if is_upper c && negb first then ["_"] else []) ++ to_lower c :: snake_list false l'
  end.

Lemma join_cons sep w ws : ws <> [] -> join sep (w :: ws) = w ++ sep ++ join sep ws.
Proof. destruct ws; [congruence|reflexivity]. Qed.
Lemma join_head sep c w ws : join sep ((c :: w) :: ws) = c :: join sep (w :: ws).
Proof. destruct ws; reflexivity. Qed.

Lemma join_words l : l <> [] -> join ["_"] (words l) = snake_list true l /\ words l <> [].
Proof.
  induction l as [|c l IH]; [congruence|]. intros _. destruct l as [|d l].
  - unfold words. simpl. rewrite andb_false_r. destruct (is_upper c); simpl; split; congruence.
  - specialize (IH ltac:(congruence)) as [E Hn]. rewrite words_cons.
    cbn [snake_list] in *. rewrite andb_false_r in *. rewrite andb_true_r. cbn [app] in *.
    destruct (is_upper d); cbn [app].
    + split; [|congruence]. rewrite join_cons by auto. rewrite E. reflexivity.
    + destruct (words (d :: l)) as [|w ws]; [congruence|]. split; [|congruence].
      rewrite join_head. rewrite E. reflexivity.
Qed.

Lemma snakecase_list s :
  str_to_snakecase s = string_of_list_ascii (snake_list true (list_ascii_of_string s)).
Proof.
  assert (E : forall l, join ["_"] (words l) = snake_list true l).
  { intros [|c l]; [reflexivity|]. now apply join_words. }
  unfold str_to_snakecase. rewrite <- E. reflexivity.
Qed.

(** ** Injectivity on names without underscores *)
Definition no_underscore (l : list ascii) : Prop := ~ In "_" l.

Lemma to_lower_upper c : is_upper c = true -> to_lower c <> "_".
Proof. destruct c as [[] [] [] [] [] [] [] []]; vm_compute; congruence. Qed.
Lemma to_lower_lower c : is_upper c = false -> to_lower c = c.
Proof. unfold to_lower. now intros ->. Qed.
Lemma to_lower_inj c d : is_upper c = is_upper d -> to_lower c = to_lower d -> c = d.
Proof.
  unfold to_lower. intros E. rewrite <- E. destruct (is_upper c) eqn:U; auto.
  symmetry in E. unfold is_upper in U, E. apply andb_true_iff in U as [_ U], E as [_ E].
  apply N.leb_le in U, E. intros H. apply (f_equal N_of_ascii) in H.
  rewrite !N_ascii_embedding in H by lia. rewrite <- (ascii_N_embedding c), <- (ascii_N_embedding d).
  f_equal. lia.
Qed.

Lemma snake_list_inj l : forall l', no_underscore l -> no_underscore l' ->
  snake_list false l = snake_list false l' -> l = l'.
Proof.
  induction l as [|c l IH]; intros [|d l'] N N' H; simpl in *; auto.
  - destruct (is_upper d); discriminate H.
  - destruct (is_upper c); discriminate H.
  - rewrite !andb_true_r in H.
    assert (Nl : no_underscore l) by (intros I; apply N; now right).
    assert (Nl' : no_underscore l') by (intros I; apply N'; now right).
    assert (Nc : c <> "_") by (intros E; apply N; now left).
    assert (Nd : d <> "_") by (intros E; apply N'; now left).
    destruct (is_upper c) eqn:Uc, (is_upper d) eqn:Ud; simpl in H.
    + injection H as H1 H2. f_equal; [apply to_lower_inj; congruence|auto].
    + injection H as H1 H2. rewrite (to_lower_lower d Ud) in H1. congruence.
    + injection H as H1 H2. rewrite (to_lower_lower c Uc) in H1. congruence.
    + injection H as H1 H2. f_equal; [apply to_lower_inj; congruence|auto].
Qed.

Lemma list_of_string_inj a b : string_of_list_ascii a = string_of_list_ascii b -> a = b.
Proof.
  intros H. rewrite <- (list_ascii_of_string_of_list_ascii a), <- (list_ascii_of_string_of_list_ascii b).
  now rewrite H.
Qed.
Lemma string_of_list_inj a b : list_ascii_of_string a = list_ascii_of_string b -> a = b.
Proof.
  intros H. rewrite <- (string_of_list_ascii_of_string a), <- (string_of_list_ascii_of_string b).
  now rewrite H.
Qed.
