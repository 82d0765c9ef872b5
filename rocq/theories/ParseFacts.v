(** * The parser accepts exactly the grammar *)
From Coq Require Import String Ascii List Bool ZArith Lia Arith.
From Verif Require Import MachineInt Ratio F64 Magnitude Exponent Expression Types PrefixSpec Setting Parse Grammar.
From Flocq Require Import Binary Bits.
Import ListNotations.
Local Open Scope string_scope.
Local Open Scope list_scope.

Ltac dopt H :=
  match type of H with
  | context [match ?e with Some _ => _ | None => None end] =>
      let E := fresh "E" in destruct e eqn:E; [|discriminate H]; cbv beta iota in H
  end.

(** ** Punctuation and identifiers *)
Lemma p_punct_iff c ts u r : p_punct c ts = Some (u, r) <-> ts = TPunct c :: r.
Proof.
  split.
  - unfold p_punct. destruct ts as [|[| |c'|] ts]; try discriminate.
    destruct (Ascii.eqb_spec c' c); [|discriminate]. intros H; inversion H; now subst.
  - intros ->. cbn [p_punct]. rewrite Ascii.eqb_refl. now destruct u.
Qed.
Lemma p_punct_ok c r : p_punct c (TPunct c :: r) = Some (tt, r).
Proof. now apply p_punct_iff. Qed.
Lemma peek_punct_iff c ts : peek_punct c ts = true <-> exists r, ts = TPunct c :: r.
Proof.
  split.
  - unfold peek_punct. destruct ts as [|[| |c'|] ts]; try discriminate.
    destruct (Ascii.eqb_spec c' c); [|discriminate]. subst. eauto.
  - intros [r ->]. cbn [peek_punct]. apply Ascii.eqb_refl.
Qed.
Lemma peek_punct_ok c r : peek_punct c (TPunct c :: r) = true.
Proof. apply peek_punct_iff. eauto. Qed.
Lemma accept_name i : accept_as_ident i = true <-> is_name i.
Proof.
  unfold accept_as_ident, is_name. rewrite negb_true_iff. split; intros H.
  - intros J. assert (K : existsb (String.eqb i) reserved = true); [|congruence].
    apply existsb_exists. exists i. split; [|apply String.eqb_refl].
    unfold rust_keywords in J. cbn [In] in J. unfold reserved. cbn [In]. tauto.
  - destruct (existsb (String.eqb i) reserved) eqn:E; [|reflexivity]. exfalso. apply H.
    apply existsb_exists in E as (j & Hj & Ej). apply String.eqb_eq in Ej as <-.
    unfold rust_keywords. cbn [In]. unfold reserved in Hj. cbn [In] in Hj. tauto.
Qed.
Lemma is_i64_in z : is_i64 z = in_i64 z.
Proof.
  destruct (in_i64 z) eqn:E.
  - apply in_i64_iff in E. unfold is_i64. rewrite andb_true_iff, Z.leb_le, Z.ltb_lt. lia.
  - apply not_true_iff_false in E. rewrite in_i64_iff in E. unfold is_i64. rewrite andb_false_iff, Z.leb_gt, Z.ltb_ge. lia.
Qed.

Lemma p_ident_iff ts i r : p_ident ts = Some (i, r) <-> ts = TIdent i :: r /\ is_name i.
Proof.
  rewrite <- accept_name. split.
  - unfold p_ident. destruct ts as [|[s| |c'|] ts]; try discriminate.
    destruct (accept_as_ident s) eqn:E; [|discriminate]. intros H; inversion H; now subst.
  - intros [-> H]. cbn [p_ident]. now rewrite H.
Qed.
Lemma peek_ident_iff ts : peek_ident ts = true <-> exists i r, ts = TIdent i :: r /\ is_name i.
Proof.
  split.
  - unfold peek_ident. destruct ts as [|[s| |c'|] ts]; try discriminate. intros H. apply accept_name in H. eauto.
  - intros (i & r & -> & H). now apply accept_name.
Qed.
Lemma p_ident_ok i r : is_name i -> p_ident (TIdent i :: r) = Some (i, r).
Proof. intros H. now apply p_ident_iff. Qed.
Lemma peek_ident_ok i r : is_name i -> peek_ident (TIdent i :: r) = true.
Proof. intros H. apply peek_ident_iff. eauto. Qed.
Lemma p_kw_iff w ts u r : p_kw w ts = Some (u, r) <-> ts = TIdent w :: r.
Proof.
  split.
  - unfold p_kw, peek_kw. destruct ts as [|[s| |c'|] ts]; try discriminate.
    destruct (String.eqb_spec s w); [|discriminate]. intros H; inversion H; now subst.
  - intros ->. unfold p_kw. cbn [peek_kw]. rewrite String.eqb_refl. now destruct u.
Qed.
Lemma peek_kw_iff w ts : peek_kw w ts = true <-> exists r, ts = TIdent w :: r.
Proof.
  split.
  - unfold peek_kw. destruct ts as [|[s| |c'|] ts]; try discriminate.
    destruct (String.eqb_spec s w); [|discriminate]. subst; eauto.
  - intros [r ->]. cbn [peek_kw]. apply String.eqb_refl.
Qed.

(** ** Literals *)
Definition slit_of (l : slit) : signed_lit :=
  match l with SInt neg n => SLInt (signed neg n) | SDec neg d k => SLFloat neg d k end.
Lemma p_lit_print l r : p_lit (print_lit l ++ r) = Some (slit_of l, r).
Proof. destruct l as [[|] n|[|] d k]; reflexivity. Qed.
Lemma p_lit_sound ts l r : p_lit ts = Some (l, r) -> l <> SLOther ->
  exists s, ts = print_lit s ++ r /\ l = slit_of s.
Proof.
  intros H N. destruct ts as [|t ts]; [discriminate|]. destruct t as [s|b|c|d l']; cbn [p_lit] in H.
  - destruct (String.eqb s "true" || String.eqb s "false")%bool; [|discriminate]. inversion H; now subst.
  - destruct b as [n|d k|]; inversion H; subst; [exists (SInt false n)|exists (SDec false d k)|]; easy.
  - destruct ts as [|[s|[n|d k|]|c'|d' l'] ts]; try discriminate;
      destruct (Ascii.eqb_spec c "-"); try discriminate; inversion H; subst;
      [exists (SInt true n)|exists (SDec true d k)]; easy.
  - discriminate.
Qed.
Lemma number_mean s : number_value (slit_of s) = mean_number s.
Proof. destruct s; [|reflexivity]. cbn. now rewrite is_i64_in. Qed.
Lemma int_mean s : int_value (slit_of s) = mean_int s.
Proof. destruct s; [|reflexivity]. cbn. now rewrite is_i64_in. Qed.

Lemma p_number_ok s r : p_number (print_lit s ++ r) = let? x := mean_number s in Some (x, r).
Proof. unfold p_number. rewrite p_lit_print, number_mean. reflexivity. Qed.
Lemma p_number_sound ts x r : p_number ts = Some (x, r) ->
  exists s, ts = print_lit s ++ r /\ mean_number s = Some x.
Proof.
  unfold p_number. intros H. dopt H. destruct p as [l r']. dopt H. inversion H; subst.
  destruct (p_lit_sound _ _ _ E) as (s & -> & ->); [intros ->; discriminate|].
  exists s. now rewrite <- number_mean.
Qed.
Lemma p_int_ok s r : p_int (print_lit s ++ r) = let? x := mean_int s in Some (x, r).
Proof. unfold p_int. rewrite p_lit_print, int_mean. reflexivity. Qed.
Lemma p_int_sound ts x r : p_int ts = Some (x, r) ->
  exists s, ts = print_lit s ++ r /\ mean_int s = Some x.
Proof.
  unfold p_int. intros H. dopt H. destruct p as [l r']. dopt H. inversion H; subst.
  destruct (p_lit_sound _ _ _ E) as (s & -> & ->); [intros ->; discriminate|].
  exists s. now rewrite <- int_mean.
Qed.
Lemma peek_lit_print s r : peek_lit (print_lit s ++ r) = true.
Proof. unfold peek_lit. now rewrite p_lit_print. Qed.
Lemma peek_ident_print_lit s r : peek_ident (print_lit s ++ r) = false.
Proof. now destruct s as [[|] n|[|] d k]. Qed.
Lemma print_lit_nonempty l : print_lit l <> [].
Proof. now destruct l as [[|] n|[|] d k]. Qed.
Lemma peek_lit_ident i r : is_name i -> peek_lit (TIdent i :: r) = false.
Proof.
  intros H. unfold peek_lit. cbn [p_lit]. destruct (String.eqb_spec i "true"); [subst; exfalso; apply H; cbn; tauto|].
  destruct (String.eqb_spec i "false"); [subst; exfalso; apply H; cbn; tauto|reflexivity].
Qed.

(** ** What the expression parser needs of its two parameters *)
Record value_parser {T} (pv : parser T) (mv : atom -> option T) : Prop := {
  vp_ok : forall a r, wf_atom a -> pv (print_atom a ++ r) = let? v := mv a in Some (v, r);
  vp_sound : forall ts v r, pv ts = Some (v, r) ->
    exists a, wf_atom a /\ ts = print_atom a ++ r /\ mv a = Some v }.
Record exp_parser {E} (pe : parser E) (me : sexp -> option E) : Prop := {
  ep_ok : forall e r, pe (print_exp e ++ r) = let? v := me e in Some (v, r);
  ep_sound : forall ts v r, pe ts = Some (v, r) ->
    exists e, ts = print_exp e ++ r /\ me e = Some v }.

Lemma unit_factor_parser : value_parser p_unit_factor mean_unit_atom.
Proof.
  split.
  - intros [i|l] r W; unfold p_unit_factor; cbn [print_atom mean_unit_atom wf_atom app] in *.
    + now rewrite (peek_ident_ok i r W), (p_ident_ok i r W).
    + rewrite peek_ident_print_lit, peek_lit_print, p_number_ok. now destruct (mean_number l).
  - intros ts v r H. unfold p_unit_factor in H.
    destruct (peek_ident ts) eqn:P.
    + dopt H. destruct p as [i r']. inversion H; subst. apply p_ident_iff in E as [-> A].
      now exists (AtIdent i).
    + destruct (peek_lit ts); [|discriminate]. dopt H. destruct p as [x r']. inversion H; subst.
      apply p_number_sound in E as (s & -> & M). exists (AtLit s). cbn [mean_unit_atom print_atom wf_atom]. now rewrite M.
Qed.

Lemma dimension_factor_parser : value_parser p_dimension_factor mean_dimension_atom.
Proof.
  split.
  - intros [i|l] r W; unfold p_dimension_factor; cbn [print_atom mean_dimension_atom wf_atom app] in *.
    + now rewrite (peek_lit_ident i r W), (p_ident_ok i r W).
    + rewrite peek_lit_print. unfold p_one. rewrite p_number_ok.
      destruct (mean_number l); [|reflexivity]. cbv beta iota. now destruct (f64_eqb f f64_one).
  - intros ts v r H. unfold p_dimension_factor in H. destruct (peek_lit ts) eqn:P.
    + dopt H. destruct p as [o r']. inversion H; subst. unfold p_one in E. dopt E.
      destruct p as [x r'']. destruct (f64_eqb x f64_one) eqn:Q; [|discriminate]. inversion E; subst.
      apply p_number_sound in E0 as (s & -> & M). exists (AtLit s). cbn [mean_dimension_atom print_atom wf_atom]. now rewrite M, Q.
    + dopt H. destruct p as [i r']. inversion H; subst. apply p_ident_iff in E as [-> A].
      now exists (AtIdent i).
Qed.

(** Raw exponents. *)
Definition mean_raw_exp (k : mode) : sexp -> option (raw_exponent k) :=
  match k with
  | IntegerExponents => fun e => match e with SxInt l => mean_int l | SxRatio _ _ => None end
  | RationalExponents => fun e =>
      match e with
      | SxInt l => let? n := mean_int l in Some (n, None)
      | SxRatio n d => let? n := mean_int n in let? d := mean_int d in Some (n, Some d)
      end
  end.
Lemma whole_iff {A} (p : parser A) ts a : whole p ts = Some a <-> p ts = Some (a, []).
Proof.
  unfold whole. destruct (p ts) as [[b [|t r]]|]; split; intros H; inversion H; now subst.
Qed.
Lemma exponent_parser k : exp_parser (p_exponent k) (mean_raw_exp k).
Proof.
  split.
  - intros e r. destruct k; cbn [mean_raw_exp p_exponent raw_exponent] in *.
    + destruct e as [l|n d]; [|reflexivity]. cbn [print_exp]. apply p_int_ok.
    + destruct e as [l|n d]; cbn [print_exp].
      * rewrite peek_lit_print, p_int_ok. now destruct (mean_int l).
      * cbn [app]. change (peek_lit _) with false. cbv beta iota.
        rewrite p_int_ok. destruct (mean_int n) as [zn|]; [|reflexivity]. cbv beta iota. cbn [app].
        rewrite p_punct_ok. cbv beta iota.
        assert (W : whole p_int (print_lit d) = mean_int d).
        { unfold whole. rewrite <- (app_nil_r (print_lit d)), p_int_ok. now destruct (mean_int d). }
        rewrite W. now destruct (mean_int d).
  - intros ts v r H. destruct k; cbn [mean_raw_exp p_exponent raw_exponent] in *.
    + apply p_int_sound in H as (s & -> & M). now exists (SxInt s).
    + destruct (peek_lit ts).
      * dopt H. destruct p as [n r']. inversion H; subst. apply p_int_sound in E as (s & -> & M).
        exists (SxInt s). now rewrite M.
      * destruct ts as [|[| | |[| |] content] ts]; try discriminate.
        dopt H. destruct p as [n c1]. dopt H. destruct p as [u c2]. dopt H. inversion H; subst.
        apply p_int_sound in E as (s & -> & M). apply p_punct_iff in E0 as ->.
        apply whole_iff, p_int_sound in E1 as (s' & -> & M').
        exists (SxRatio s s'). rewrite M, M'. rewrite app_nil_r. now split.
Qed.
Lemma read_exponent_mean k e :
  mean_exp k e = (let? x := mean_raw_exp k e in read_exponent k x).
Proof.
  destruct k, e as [l|n d]; cbn; try reflexivity; destruct (mean_int _); try reflexivity.
  destruct (mean_int d); reflexivity.
Qed.

(** ** Expressions *)
Fixpoint len_x (x : sx) : nat := match x with SxOne _ => 0 | SxBin l _ _ => S (len_x l) end.
Fixpoint cost_x (x : sx) : nat :=
  match x with SxOne f => cost_f f | SxBin l _ f => S (cost_x l + cost_f f) end
with cost_f (f : sf) : nat :=
  match f with SfParen x => 3 + cost_x x | _ => 1 end.

Lemma cost_f_pos f : 1 <= cost_f f.
Proof. destruct f; cbn; lia. Qed.
Lemma len_cost x : len_x x < cost_x x.
Proof.
  induction x as [f|x IH o f]; cbn [len_x cost_x]; pose proof (cost_f_pos f); lia.
Qed.

Lemma tokens_size_app a b : tokens_size (a ++ b) = tokens_size a + tokens_size b.
Proof. unfold tokens_size. now rewrite map_app, list_sum_app. Qed.
Lemma tokens_size_cons t b : tokens_size (t :: b) = tok_size t + tokens_size b.
Proof. reflexivity. Qed.
Lemma tok_size_pos t : 1 <= tok_size t.
Proof. destruct t; cbn; lia. Qed.
Lemma tokens_size_nonempty a : a <> [] -> 1 <= tokens_size a.
Proof.
  destruct a as [|t a]; [easy|]. intros _. rewrite tokens_size_cons. pose proof (tok_size_pos t). lia.
Qed.
Lemma print_atom_nonempty a : print_atom a <> [].
Proof. destruct a; [easy|apply print_lit_nonempty]. Qed.
Lemma print_f_nonempty f : print_f f <> [].
Proof.
  destruct f; cbn [print_f]; try easy; [apply print_atom_nonempty|].
  intros H. apply app_eq_nil in H as [H _]. now apply print_atom_nonempty in H.
Qed.
Lemma print_x_nonempty x : print_x x <> [].
Proof.
  destruct x as [f|l o f]; cbn [print_x]; [apply print_f_nonempty|].
  intros H. apply app_eq_nil in H as [_ H]. apply app_eq_nil in H as [_ H].
  now apply print_f_nonempty in H.
Qed.
Lemma cost_size :
  (forall x, cost_x x <= 2 * tokens_size (print_x x)) /\
  (forall f, cost_f f + 1 <= 2 * tokens_size (print_f f)).
Proof.
  apply sx_sf_ind; intros.
  - cbn [cost_x print_x]. lia.
  - cbn [cost_x print_x]. rewrite !tokens_size_app. lia.
  - cbn [cost_f print_f]. pose proof (tokens_size_nonempty _ (print_atom_nonempty a)). lia.
  - cbn [cost_f print_f]. rewrite tokens_size_app.
    pose proof (tokens_size_nonempty _ (print_atom_nonempty a)). lia.
  - cbn [cost_f print_f]. rewrite tokens_size_cons. cbn [tok_size].
    change (list_sum (map tok_size (print_x x))) with (tokens_size (print_x x)).
    unfold tokens_size at 2. cbn. lia.
Qed.

Definition no_caret (ts : list tok) : Prop := peek_punct "^" ts = false.
Lemma at_end_no_caret ts : at_end ts = true -> no_caret ts.
Proof.
  unfold at_end, no_caret. destruct ts as [|t ts]; [reflexivity|]. intros H.
  apply peek_punct_iff in H as [r H]. inversion H; subst. reflexivity.
Qed.

(** Equations of the mutual fixpoints (for rewriting). *)
Section Equations.
Context {T E : Type} (pv : parser T) (pe : parser E) (mv : atom -> option T) (me : sexp -> option E).
Lemma p_expr_S n ts : p_expr_n pv pe (S n) ts =
  let? (f, r) := p_factor_n pv pe n ts in p_rest_n pv pe n (EVal f) r.
Proof. reflexivity. Qed.
Lemma p_rest_S n lhs ts : p_rest_n pv pe (S n) lhs ts =
  if at_end ts then Some (lhs, ts)
  else let? (op, r) := p_operator ts in
       let? (f, r') := p_factor_n pv pe n r in
       p_rest_n pv pe n (EBin lhs f op) r'.
Proof. reflexivity. Qed.
Lemma p_factor_S n ts : p_factor_n pv pe (S n) ts =
  match ts with
  | TGroup DParen content :: r => let? e := whole (p_expr_n pv pe n) content in Some (FParen e, r)
  | _ => p_power pv pe ts
  end.
Proof. reflexivity. Qed.
Lemma mean_one f : mean_x mv me (SxOne f) = let? f' := mean_f mv me f in Some (EVal f').
Proof. reflexivity. Qed.
Lemma mean_bin l o f : mean_x mv me (SxBin l o f) =
  let? l' := mean_x mv me l in let? f' := mean_f mv me f in Some (EBin l' f' (mean_op o)).
Proof. reflexivity. Qed.
Lemma mean_val a : mean_f mv me (SfVal a) = let? v := mv a in Some (FVal v).
Proof. reflexivity. Qed.
Lemma mean_pow a e : mean_f mv me (SfPow a e) = let? v := mv a in let? p := me e in Some (FPow v p).
Proof. reflexivity. Qed.
Lemma mean_paren x : mean_f mv me (SfParen x) = let? x' := mean_x mv me x in Some (FParen x').
Proof. reflexivity. Qed.
End Equations.

Section Expr.
Context {T E : Type} (pv : parser T) (pe : parser E) (mv : atom -> option T) (me : sexp -> option E).
Context (Hv : value_parser pv mv) (He : exp_parser pe me).

Lemma p_power_print f r : (forall x, f <> SfParen x) -> wf_f f -> no_caret r ->
  p_power pv pe (print_f f ++ r) = let? v := mean_f mv me f in Some (v, r).
Proof.
  intros NP W N. unfold p_power. destruct f as [a|a e|x]; [| |now destruct (NP x)];
    cbn [print_f wf_f] in *; rewrite ?mean_val, ?mean_pow.
  - rewrite (vp_ok _ _ Hv a _ W). destruct (mv a); [|reflexivity]. cbv beta iota. now rewrite N.
  - rewrite <- !app_assoc. rewrite (vp_ok _ _ Hv a _ W). destruct (mv a); [|reflexivity].
    cbv beta iota. cbn [app]. rewrite peek_punct_ok, p_punct_ok. cbv beta iota.
    rewrite (ep_ok _ _ He e). now destruct (me e).
Qed.

Lemma op_parse o f r : wf_f f -> (o = ByJuxtaposition -> begins_with_ident f) ->
  at_end (print_op o ++ print_f f ++ r) = false /\
  no_caret (print_op o ++ print_f f ++ r) /\
  p_operator (print_op o ++ print_f f ++ r) = Some (mean_op o, print_f f ++ r).
Proof.
  intros W J. destruct o; [repeat split..|].
  specialize (J eq_refl). destruct f as [[i|l]|[i|l] e|x]; try easy; cbn in W |- *;
    (split; [reflexivity|split; [reflexivity|]]); unfold p_operator; cbn [print_f print_atom app peek_punct];
    cbn; apply accept_name in W; now rewrite W.
Qed.

Lemma print_parses :
  (forall x, wf_x x -> forall m r, cost_x x <= m -> no_caret r ->
     p_expr_n pv pe (S m) (print_x x ++ r) =
     let? e := mean_x mv me x in p_rest_n pv pe (m - len_x x) e r) /\
  (forall f, wf_f f -> forall m r, cost_f f <= m -> no_caret r ->
     p_factor_n pv pe m (print_f f ++ r) = let? v := mean_f mv me f in Some (v, r)).
Proof.
  apply sx_sf_ind.
  - intros f IH W m r C N. rewrite mean_one. cbn [wf_x cost_x print_x len_x] in *.
    rewrite p_expr_S, (IH W m r C N). destruct (mean_f mv me f); [|reflexivity].
    cbv beta iota. now rewrite Nat.sub_0_r.
  - intros l IHl o f IHf W m r C N. rewrite mean_bin. cbn [wf_x cost_x print_x len_x] in *.
    destruct W as (Wl & Wf & J). destruct (op_parse o f r Wf J) as (A & B & O).
    rewrite <- !app_assoc. rewrite (IHl Wl m _ ltac:(lia) B).
    destruct (mean_x mv me l) as [el|]; [|reflexivity]. cbv beta iota.
    pose proof (len_cost l). pose proof (cost_f_pos f).
    destruct (m - len_x l) as [|n] eqn:Em; [lia|]. rewrite p_rest_S, A, O. cbv beta iota.
    rewrite (IHf Wf n r ltac:(lia) N). destruct (mean_f mv me f); [|reflexivity].
    cbv beta iota. f_equal. lia.
  - intros a W m r C N. cbn [cost_f] in C. destruct m as [|m]; [lia|]. rewrite p_factor_S.
    assert (P := p_power_print (SfVal a) r ltac:(discriminate) W N).
    destruct (print_f (SfVal a) ++ r) as [|[| | |[| |] c] ts] eqn:Ets; try exact P.
    exfalso. cbn [print_f] in Ets. destruct a as [i|[[|] n|[|] d k]]; discriminate.
  - intros a e W m r C N. cbn [cost_f] in C. destruct m as [|m]; [lia|]. rewrite p_factor_S.
    assert (P := p_power_print (SfPow a e) r ltac:(discriminate) W N).
    destruct (print_f (SfPow a e) ++ r) as [|[| | |[| |] c] ts] eqn:Ets; try exact P.
    exfalso. cbn [print_f] in Ets. destruct a as [i|[[|] n|[|] d k]]; discriminate.
  - intros x IH W m r C N. rewrite mean_paren. cbn [wf_f cost_f print_f] in *.
    destruct m as [|m]; [lia|]. cbn [app]. rewrite p_factor_S.
    assert (Wh : whole (p_expr_n pv pe m) (print_x x) = mean_x mv me x).
    { unfold whole. destruct m as [|m]; [lia|]. rewrite <- (app_nil_r (print_x x)).
      rewrite (IH W m [] ltac:(lia) eq_refl). destruct (mean_x mv me x) as [e|]; [|reflexivity].
      pose proof (len_cost x). destruct (m - len_x x) as [|n] eqn:Em; [lia|reflexivity]. }
    rewrite Wh. now destruct (mean_x mv me x).
Qed.

Lemma p_expr_ok x r : wf_x x -> at_end r = true ->
  p_expr pv pe (print_x x ++ r) = let? e := mean_x mv me x in Some (e, r).
Proof.
  intros W A. unfold p_expr. destruct cost_size as [C _]. specialize (C x).
  assert (S3 : cost_x x + 1 <= 2 + 3 * tokens_size (print_x x ++ r)).
  { rewrite tokens_size_app. lia. }
  change (3 + 3 * tokens_size (print_x x ++ r)) with (S (2 + 3 * tokens_size (print_x x ++ r))).
  rewrite (proj1 print_parses x W (2 + 3 * tokens_size (print_x x ++ r)) r ltac:(lia) (at_end_no_caret _ A)).
  destruct (mean_x mv me x) as [e|]; [|reflexivity]. cbv beta iota.
  pose proof (len_cost x).
  destruct (2 + 3 * tokens_size (print_x x ++ r) - len_x x) as [|n] eqn:Em; [lia|].
  rewrite p_rest_S. now rewrite A.
Qed.

(** Soundness. *)
Lemma p_power_sound ts v r : p_power pv pe ts = Some (v, r) ->
  exists f, wf_f f /\ ts = print_f f ++ r /\ mean_f mv me f = Some v /\ (forall x, f <> SfParen x).
Proof.
  unfold p_power. intros H. dopt H. destruct p as [a r1].
  destruct (vp_sound _ _ Hv _ _ _ E0) as (at' & W & -> & M).
  destruct (peek_punct "^" r1) eqn:P.
  - dopt H. destruct p as [u r2]. dopt H. destruct p as [e r3]. inversion H; subst.
    apply p_punct_iff in E1 as ->. destruct (ep_sound _ _ He _ _ _ E2) as (x & -> & Mx).
    exists (SfPow at' x). split; [exact W|]. split; [cbn [print_f]; now rewrite <- !app_assoc|].
    split; [cbn [mean_f]; now rewrite M, Mx|discriminate].
  - inversion H; subst. exists (SfVal at'). split; [exact W|]. split; [reflexivity|].
    split; [cbn [mean_f]; now rewrite M|discriminate].
Qed.

Lemma p_operator_sound ts o r : p_operator ts = Some (o, r) ->
  exists so, ts = print_op so ++ r /\ mean_op so = o /\
    (so = ByJuxtaposition -> peek_ident r = true).
Proof.
  unfold p_operator. intros H. destruct (peek_punct "*" ts).
  - dopt H. destruct p as [u r']. inversion H; subst. apply p_punct_iff in E0 as ->.
    now exists ByStar.
  - destruct (peek_punct "/" ts).
    + dopt H. destruct p as [u r']. inversion H; subst. apply p_punct_iff in E0 as ->.
      now exists BySlash.
    + destruct (peek_ident ts) eqn:P; [|discriminate]. inversion H; subst. now exists ByJuxtaposition.
Qed.

Lemma print_f_peek f r : peek_ident (print_f f ++ r) = true -> begins_with_ident f.
Proof. destruct f as [[i|[[|] n|[|] d k]]|[i|[[|] n|[|] d k]] e|x]; easy. Qed.

Lemma parse_sound n :
  (forall ts v r, p_factor_n pv pe n ts = Some (v, r) ->
     exists f, wf_f f /\ ts = print_f f ++ r /\ mean_f mv me f = Some v) /\
  (forall ts e r, p_expr_n pv pe n ts = Some (e, r) ->
     exists x, wf_x x /\ ts = print_x x ++ r /\ mean_x mv me x = Some e /\ at_end r = true) /\
  (forall lhs ts e r x, p_rest_n pv pe n lhs ts = Some (e, r) -> wf_x x ->
     mean_x mv me x = Some lhs ->
     exists x', wf_x x' /\ print_x x ++ ts = print_x x' ++ r /\ mean_x mv me x' = Some e /\
       at_end r = true).
Proof.
  induction n as [|n (IHf & IHx & IHr)]; [repeat split; discriminate|]. repeat split.
  - intros ts v r H. rewrite p_factor_S in H.
    assert (G : p_power pv pe ts = Some (v, r) ->
      exists f, wf_f f /\ ts = print_f f ++ r /\ mean_f mv me f = Some v).
    { intros P. destruct (p_power_sound _ _ _ P) as (f & W & Q & M & _). eauto. }
    destruct ts as [|[s|l|c|[| |] content] ts]; try (now apply G).
    dopt H. inversion H; subst. apply whole_iff in E0.
    destruct (IHx _ _ _ E0) as (x & W & Q & M & _). rewrite app_nil_r in Q. subst content.
    exists (SfParen x). split; [exact W|]. split; [reflexivity|]. rewrite mean_paren. now rewrite M.
  - intros ts e r H. rewrite p_expr_S in H. dopt H. destruct p as [f r1].
    destruct (IHf _ _ _ E0) as (f' & W & -> & M).
    destruct (IHr _ _ _ _ (SxOne f') H W) as (x' & W' & Q & M' & A); [rewrite mean_one; now rewrite M|].
    exists x'. cbn [print_x] in Q. now rewrite Q.
  - intros lhs ts e r x H W M. rewrite p_rest_S in H. destruct (at_end ts) eqn:A.
    + inversion H; subst. exists x. auto.
    + dopt H. destruct p as [o r1]. dopt H. destruct p as [f r2].
      destruct (p_operator_sound _ _ _ E0) as (so & -> & Mo & J).
      destruct (IHf _ _ _ E1) as (f' & Wf & -> & Mf).
      assert (Wx : wf_x (SxBin x so f')).
      { cbn [wf_x]. split; [exact W|]. split; [exact Wf|]. intros Hj. specialize (J Hj).
        now apply print_f_peek in J. }
      destruct (IHr _ _ _ _ (SxBin x so f') H Wx) as (x' & W' & Q & M' & A').
      { rewrite mean_bin. now rewrite M, Mf, Mo. }
      exists x'. split; [exact W'|]. split; [|auto]. rewrite <- Q. cbn [print_x].
      now rewrite <- !app_assoc.
Qed.

Lemma p_expr_sound ts e r : p_expr pv pe ts = Some (e, r) ->
  exists x, wf_x x /\ ts = print_x x ++ r /\ mean_x mv me x = Some e /\ at_end r = true.
Proof. unfold p_expr. apply parse_sound. Qed.
End Expr.

(** Reading the exponents afterwards is reading them in place. *)
Lemma mean_map_exp {T E E2} (mv : atom -> option T) (me : sexp -> option E) (f : E -> option E2)
  (me2 : sexp -> option E2) :
  (forall e, me2 e = let? x := me e in f x) ->
  (forall x, mean_x mv me2 x = let? y := mean_x mv me x in expr_map_exp f y) /\
  (forall x, mean_f mv me2 x = let? y := mean_f mv me x in factor_map_exp f y).
Proof.
  intros H. apply sx_sf_ind.
  - intros g IH. rewrite !mean_one. rewrite IH. destruct (mean_f mv me g); reflexivity.
  - intros l IHl o g IHg. rewrite !mean_bin. rewrite IHl, IHg. destruct (mean_x mv me l); [|reflexivity].
    destruct (mean_f mv me g); cbv beta iota; cbn [expr_map_exp];
      destruct (expr_map_exp f e); reflexivity.
  - intros a. rewrite !mean_val. destruct (mv a); reflexivity.
  - intros a e. rewrite !mean_pow. destruct (mv a); [|reflexivity]. rewrite H.
    destruct (me e); reflexivity.
  - intros x IH. rewrite !mean_paren. rewrite IH. destruct (mean_x mv me x); reflexivity.
Qed.

Section Statements.
Context (k : mode).

Definition is_stop (sep : ascii) (r : list tok) : Prop := r = [] \/ exists r', r = TPunct sep :: r'.

Lemma stop_at_end r : is_stop ";" r <-> at_end r = true.
Proof.
  unfold is_stop, at_end. split.
  - intros [->|[r' ->]]; reflexivity.
  - destruct r; [auto|]. intros H. apply peek_punct_iff in H as [r' H]. right. now exists r'.
Qed.

Lemma int_expr_ok {T} (pv : parser T) mv x r : value_parser pv mv -> wf_x x -> is_stop ";" r ->
  p_int_exponent_expr k pv (print_x x ++ r) = let? e := mean_x mv (mean_exp k) x in Some (e, r).
Proof.
  intros Hv W A. apply stop_at_end in A.
  destruct (mean_map_exp mv (mean_raw_exp k) (read_exponent k) (mean_exp k) (read_exponent_mean k))
    as [Q _].
  rewrite Q. unfold p_int_exponent_expr.
  rewrite (p_expr_ok _ _ _ _ Hv (exponent_parser k) _ _ W A).
  now destruct (mean_x mv (mean_raw_exp k) x).
Qed.
Lemma int_expr_sound {T} (pv : parser T) mv ts e r : value_parser pv mv ->
  p_int_exponent_expr k pv ts = Some (e, r) ->
  exists x, wf_x x /\ ts = print_x x ++ r /\ mean_x mv (mean_exp k) x = Some e /\ is_stop ";" r.
Proof.
  intros Hv H. unfold p_int_exponent_expr in H. dopt H. destruct p as [e0 r0]. dopt H. inversion H; subst.
  destruct (p_expr_sound _ _ _ _ Hv (exponent_parser k) _ _ _ E) as (x & W & -> & M & A).
  destruct (mean_map_exp mv (mean_raw_exp k) (read_exponent k) (mean_exp k) (read_exponent_mean k))
    as [Q _].
  exists x. rewrite Q, M. cbv beta iota. apply stop_at_end in A. auto.
Qed.

Lemma stop_peek sep r c : is_stop sep r -> c <> sep -> peek_punct c r = false.
Proof.
  intros [->|[r' ->]] N; [reflexivity|]. cbn. apply Ascii.eqb_neq. congruence.
Qed.

(** ** Lists *)
Lemma print_items_cons {A} (pr : A -> list tok) sep a b l t :
  print_items pr sep (a :: b :: l) t = pr a ++ TPunct sep :: print_items pr sep (b :: l) t.
Proof. reflexivity. Qed.
Section Terminated.
Context {A B : Type} (p : parser B) (sep : ascii) (pr : A -> list tok) (wf : A -> Prop)
  (mean : A -> option B).
Context (Hok : forall a r, wf a -> is_stop sep r -> p (pr a ++ r) = let? b := mean a in Some (b, r))
  (Hsound : forall ts b r, p ts = Some (b, r) -> exists a, wf a /\ ts = pr a ++ r /\ mean a = Some b)
  (Hne : forall a, pr a <> []).

Lemma print_items_nonempty a l t : print_items pr sep (a :: l) t <> [].
Proof.
  destruct l as [|b l]; [cbn|rewrite print_items_cons]; intros H; apply app_eq_nil in H as [H _];
    now apply Hne in H.
Qed.

Lemma terminated_n_ok l : forall t n, Forall wf l ->
  (t = true -> l <> []) -> List.length (print_items pr sep l t) < n ->
  p_terminated_n n p sep (print_items pr sep l t) = collect mean l.
Proof.
  induction l as [|a l IH]; intros t n W Ht Hn; (destruct n as [|n]; [lia|]).
  - reflexivity.
  - inversion W as [|a' l' Wa Wl]; subst. cbn [collect].
    cbn [p_terminated_n]. pose proof (print_items_nonempty a l t) as NE.
    destruct (print_items pr sep (a :: l) t) as [|t0 ts] eqn:Ets; [easy|]. rewrite <- Ets in *.
    clear Ets t0 ts. destruct l as [|a2 l].
    + cbn [print_items collect].
      rewrite (Hok a); auto; [|destruct t; [right; eexists; reflexivity|now left]].
      destruct (mean a); [|reflexivity].
      cbv beta iota. destruct t; [|reflexivity]. rewrite p_punct_ok. cbv beta iota.
      destruct n as [|n]; [|reflexivity]. cbn in Hn. rewrite app_length in Hn. cbn in Hn. lia.
    + rewrite print_items_cons in *. rewrite app_length in Hn. cbn [List.length] in Hn.
      rewrite (Hok a); auto; [|right; eexists; reflexivity]. destruct (mean a); [|reflexivity].
      cbv beta iota. rewrite p_punct_ok. cbv beta iota.
      rewrite (IH t n Wl); [reflexivity|discriminate|lia].
Qed.
Lemma terminated_ok l : wf_slist l -> Forall wf (sl_items l) ->
  p_terminated p sep (print_slist pr sep l) = collect mean (sl_items l).
Proof.
  intros W F. unfold p_terminated, print_slist. apply terminated_n_ok; auto.
Qed.

Lemma terminated_n_sound n : forall ts bs, p_terminated_n n p sep ts = Some bs ->
  exists l, wf_slist l /\ Forall wf (sl_items l) /\ ts = print_slist pr sep l /\
    collect mean (sl_items l) = Some bs.
Proof.
  induction n as [|n IH]; [discriminate|]. intros ts bs H. cbn [p_terminated_n] in H.
  destruct ts as [|t0 ts0].
  - inversion H; subst. exists {| sl_items := []; sl_trailing := false |}. split; [discriminate|]. split; [constructor|]. now split.
  - revert H. generalize (t0 :: ts0) as ts. clear t0 ts0. intros ts H.
    dopt H. destruct p0 as [b r]. destruct (Hsound _ _ _ E) as (a & Wa & -> & Ma).
    destruct r as [|t1 r1].
    + inversion H; subst. exists {| sl_items := [a]; sl_trailing := false |}.
      repeat apply conj; [discriminate|cbn; auto|reflexivity|cbn; now rewrite Ma].
    + dopt H. destruct p0 as [u r2]. apply p_punct_iff in E0. rewrite E0 in *. clear E0 t1 r1.
      destruct (p_terminated_n n p sep r2) as [bs'|] eqn:Er; [|discriminate H]. inversion H; subst.
      destruct (IH _ _ Er) as ([l t] & Wl & Fl & -> & Ml).
      cbn [sl_items sl_trailing] in *. unfold print_slist in *; cbn [sl_items sl_trailing] in *.
      destruct l as [|a2 l].
      * exists {| sl_items := [a]; sl_trailing := true |}. cbn in Ml. inversion Ml; subst.
        repeat apply conj; [easy|cbn; auto|reflexivity|cbn; now rewrite Ma].
      * exists {| sl_items := a :: a2 :: l; sl_trailing := t |}.
        split; [intros _; easy|]. split; [cbn [sl_items]; auto|]. cbn [sl_items sl_trailing].
        rewrite print_items_cons. split; [reflexivity|].
        change (collect mean (a :: a2 :: l)) with
          (let? b := mean a in let? bs := collect mean (a2 :: l) in Some (b :: bs)).
        rewrite Ma, Ml. reflexivity.
Qed.
Lemma terminated_sound ts bs : p_terminated p sep ts = Some bs ->
  exists l, wf_slist l /\ Forall wf (sl_items l) /\ ts = print_slist pr sep l /\
    collect mean (sl_items l) = Some bs.
Proof. apply terminated_n_sound. Qed.
End Terminated.

Lemma collect_Some {A} (l : list A) : collect Some l = Some l.
Proof. induction l; cbn; [reflexivity|now rewrite IHl]. Qed.
Lemma Forall_True {A} (l : list A) : Forall (fun _ => True) l.
Proof. induction l; auto. Qed.

Lemma p_ident_list_iff ts l : p_terminated p_ident "," ts = Some l <->
  exists s, wf_slist s /\ Forall wf_ident (sl_items s) /\ ts = print_slist print_ident "," s /\
    sl_items s = l.
Proof.
  split.
  - intros H. apply (terminated_sound p_ident "," print_ident wf_ident Some) in H.
    + destruct H as (s & W & F & -> & M). rewrite collect_Some in M. inversion M. eauto 6.
    + intros ts' b r P. apply p_ident_iff in P as [-> P]. now exists b.
  - intros (s & W & F & -> & <-). rewrite (terminated_ok _ _ _ wf_ident Some); auto.
    + apply collect_Some.
    + intros a r Wa _. now apply p_ident_iff.
    + easy.
Qed.

Lemma prefix_name_inj p q : prefix_keyword p = prefix_keyword q -> p = q.
Proof. destruct p, q; intros H; try reflexivity; discriminate H. Qed.
Lemma p_prefix_iff ts p r : p_prefix ts = Some (p, r) <-> ts = TIdent (si_name p) :: r.
Proof.
  rewrite <- prefix_keyword_si.
  split.
  - unfold p_prefix. destruct ts as [|[s| | |] ts]; try discriminate.
    destruct (find _ _) eqn:F; [|discriminate]. intros H; inversion H; subst.
    apply find_some in F as [_ F]. apply String.eqb_eq in F. now subst.
  - intros ->. destruct p; reflexivity.
Qed.
Lemma p_prefix_list_iff ts l : p_terminated p_prefix "," ts = Some l <->
  exists s, wf_slist s /\ ts = print_slist print_prefix "," s /\ sl_items s = l.
Proof.
  split.
  - intros H. apply (terminated_sound p_prefix "," print_prefix (fun _ => True) Some) in H.
    + destruct H as (s & W & F & -> & M). rewrite collect_Some in M. inversion M. eauto 6.
    + intros ts' b r P. apply p_prefix_iff in P as ->. now exists b.
  - intros (s & W & -> & <-). rewrite (terminated_ok _ _ _ (fun _ => True) Some); auto.
    + apply collect_Some.
    + intros a r Wa _. now apply p_prefix_iff.
    + easy.
    + apply Forall_True.
Qed.

(** ** Attributes *)
Definition attribute_keyword (n : attribute_name) : string :=
  match n with
  | ABase => "base" | AAlias => "alias" | ASymbol => "symbol"
  | AMetricPrefixes => "metric_prefixes" | APrefix => "prefix"
  end.
Definition print_attr (a : attribute) : list tok :=
  print_attribute (attribute_keyword (at_name a)) (at_inner a).

Lemma p_attribute_name_iff ts n r :
  p_attribute_name ts = Some (n, r) <-> ts = TIdent (attribute_keyword n) :: r.
Proof.
  split.
  - unfold p_attribute_name. intros H.
    repeat match type of H with
    | (if peek_kw ?w ts then _ else _) = _ =>
        let P := fresh "P" in destruct (peek_kw w ts) eqn:P;
        [dopt H; destruct p as [u r']; apply p_kw_iff in E; inversion H; subst; reflexivity|]
    end. discriminate.
  - intros ->. destruct n; reflexivity.
Qed.

Lemma attribute_of_iff c a : attribute_of c = Some a <->
  c = TIdent (attribute_keyword (at_name a)) ::
      match at_inner a with Some i => [TGroup DParen i] | None => [] end.
Proof.
  unfold attribute_of. split.
  - intros H. dopt H. destruct p as [n r]. apply p_attribute_name_iff in E. subst c.
    destruct r as [|[s|l|ch|[| |] inner] [|t' r']]; try discriminate; inversion H; subst; reflexivity.
  - intros ->. destruct a as [n i]; cbn [at_name at_inner].
    assert (E : forall r, p_attribute_name (TIdent (attribute_keyword n) :: r) = Some (n, r)).
    { intros r. now apply p_attribute_name_iff. }
    rewrite E. destruct i; reflexivity.
Qed.

Lemma p_attributes_n_ok l : forall r n, peek_punct "#" r = false ->
  List.length (flat_map print_attr l ++ r) < n ->
  p_attributes_n n (flat_map print_attr l ++ r) = Some (l, r).
Proof.
  induction l as [|a l IH]; intros r n P Hn; (destruct n as [|n]; [lia|]).
  - cbn [flat_map app p_attributes_n]. now rewrite P.
  - cbn [flat_map]. unfold print_attr at 1, print_attribute. cbn [app].
    cbn [p_attributes_n]. rewrite peek_punct_ok, p_punct_ok. cbv beta iota.
    rewrite (proj2 (attribute_of_iff _ a) eq_refl). cbv beta iota.
    rewrite IH; [reflexivity|exact P|]. cbn in Hn. lia.
Qed.
Lemma p_attributes_ok l r : peek_punct "#" r = false ->
  p_attributes (flat_map print_attr l ++ r) = Some (l, r).
Proof. intros P. unfold p_attributes. apply p_attributes_n_ok; auto. Qed.
Lemma p_attributes_sound ts l r : p_attributes ts = Some (l, r) -> ts = flat_map print_attr l ++ r.
Proof.
  unfold p_attributes. generalize (S (List.length ts)). intros n. revert ts l r.
  induction n as [|n IH]; [discriminate|]. intros ts l r H. cbn [p_attributes_n] in H.
  destruct (peek_punct "#" ts) eqn:P.
  - dopt H. destruct p as [u r0]. apply p_punct_iff in E. subst ts.
    destruct r0 as [|[| | |[| |] content] r']; try discriminate.
    destruct (attribute_of content) as [a|] eqn:A; [|discriminate].
    destruct (p_attributes_n n r') as [[l' r'']|] eqn:R; [|discriminate]. inversion H; subst.
    apply IH in R. subst r'. apply attribute_of_iff in A. subst content. reflexivity.
  - inversion H; subst. reflexivity.
Qed.

(** The attribute a source attribute stands for. *)
Definition attr_of (u : uattr) : attribute :=
  match u with
  | UBase d => {| at_name := ABase; at_inner := Some [TIdent d] |}
  | UAlias l => {| at_name := AAlias; at_inner := Some (print_slist print_ident "," l) |}
  | USymbol s => {| at_name := ASymbol; at_inner := Some [TIdent s] |}
  | UMetric b => {| at_name := AMetricPrefixes; at_inner := if b then Some [] else None |}
  | UMetricSkip l => {| at_name := AMetricPrefixes;
      at_inner := Some (TIdent "skip" :: TPunct ":" :: print_slist print_prefix "," l) |}
  | UPrefix l => {| at_name := APrefix; at_inner := Some (print_slist print_prefix "," l) |}
  end.
Lemma print_attr_of u : print_attr (attr_of u) = print_uattr u.
Proof. destruct u; reflexivity. Qed.
Lemma print_attrs_of l : flat_map print_attr (map attr_of l) = flat_map print_uattr l.
Proof. induction l; cbn [map flat_map]; [reflexivity|]. now rewrite print_attr_of, IHl. Qed.

Definition is_attr (n : attribute_name) (a : attribute) : bool := attribute_name_eqb n (at_name a).
Lemma partition_filter {A} (f : A -> bool) l :
  partition f l = (filter f l, filter (fun a => negb (f a)) l).
Proof.
  induction l as [|a l IH]; cbn; [reflexivity|]. rewrite IH. destruct (f a); reflexivity.
Qed.
Lemma filter_skip {A} (f g : A -> bool) l : (forall a, f a = true -> g a = false) ->
  filter f (filter (fun a => negb (g a)) l) = filter f l.
Proof.
  intros H. induction l as [|a l IH]; cbn; [reflexivity|].
  destruct (g a) eqn:G; cbn.
  - destruct (f a) eqn:F; [now rewrite (H a F) in G|exact IH].
  - destruct (f a); now rewrite IH.
Qed.
Lemma remove_all_eq {B} n (f : attribute -> option B) l :
  remove_all n f l = let? bs := collect f (filter (is_attr n) l) in
                     Some (bs, filter (fun a => negb (is_attr n a)) l).
Proof. unfold remove_all. now rewrite partition_filter. Qed.
Lemma collect_length {A B} (f : A -> option B) l bs : collect f l = Some bs -> List.length bs = List.length l.
Proof.
  revert bs. induction l as [|a l IH]; intros bs H; cbn in H; [now inversion H|].
  dopt H. dopt H. inversion H; subst. cbn. f_equal. now apply IH.
Qed.
Lemma remove_unique_iff {B} n (f : attribute -> option B) l o r :
  remove_unique n f l = Some (o, r) <->
  exists bs, collect f (filter (is_attr n) l) = Some bs /\ at_most_one bs = Some o /\
             r = filter (fun a => negb (is_attr n a)) l.
Proof.
  unfold remove_unique. rewrite partition_filter. fold (is_attr n).
  change (fun a : attribute => negb (attribute_name_eqb n (at_name a))) with
    (fun a => negb (is_attr n a)).
  destruct (filter (is_attr n) l) as [|a [|a2 ts]].
  - split; [intros H; inversion H; subst; now exists []|].
    intros (bs & C & M & ->). cbn in C. inversion C; subst. now inversion M.
  - split.
    + intros H. dopt H. inversion H; subst. exists [b]. cbn. now rewrite E.
    + intros (bs & C & M & ->). cbn in C. dopt C. inversion C; subst. cbn in M. now inversion M.
  - split; [discriminate|]. intros (bs & C & M & ->). apply collect_length in C.
    destruct bs as [|b [|b2 bs]]; [discriminate|discriminate|discriminate].
Qed.
Lemma is_attr_disjoint n1 n2 a : n1 <> n2 -> is_attr n2 a = true -> is_attr n1 a = false.
Proof. unfold is_attr. destruct a as [m i]; cbn. destruct n1, n2, m; cbn; congruence. Qed.
Lemma is_attr_exhaustive l :
  filter (fun a => negb (is_attr APrefix a))
   (filter (fun a => negb (is_attr AMetricPrefixes a))
    (filter (fun a => negb (is_attr ASymbol a))
     (filter (fun a => negb (is_attr AAlias a))
      (filter (fun a => negb (is_attr ABase a)) l)))) = [].
Proof.
  induction l as [|[n i] l IH]; [reflexivity|].
  destruct n; cbn [filter is_attr at_name attribute_name_eqb negb]; exact IH.
Qed.

(** The attribute half of [parse_with_attributes] in one formula. *)
Definition attr_part (attrs : list attribute) (bases : list ident) (aliases : list ident)
  (symbol : option ident) (metric : option (list prefix)) (explicit : list prefix) : Prop :=
  collect base_of (filter (is_attr ABase) attrs) = Some bases /\
  (exists ls, collect aliases_of (filter (is_attr AAlias) attrs) = Some ls /\ concat ls = aliases) /\
  (exists ss, collect symbol_of (filter (is_attr ASymbol) attrs) = Some ss /\ at_most_one ss = Some symbol) /\
  (exists ms, collect metric_of (filter (is_attr AMetricPrefixes) attrs) = Some ms /\ at_most_one ms = Some metric) /\
  (exists ps, collect prefixes_of (filter (is_attr APrefix) attrs) = Some ps /\ concat ps = explicit).

Lemma filter_skips n ns l : ~ In n ns ->
  filter (is_attr n) (fold_left (fun l m => filter (fun a => negb (is_attr m a)) l) ns l)
  = filter (is_attr n) l.
Proof.
  revert l. induction ns as [|m ns IH]; intros l H; [reflexivity|]. cbn [fold_left].
  rewrite IH; [|intros H'; apply H; now right]. apply filter_skip. intros a.
  apply is_attr_disjoint. intros ->. apply H. now left.
Qed.

(** The definition half. *)
Definition def_part (bases : list ident) (r2 : list tok) (def : definition (ops k) ident magnitude)
  (r3 : list tok) : Prop :=
  (if peek_punct "=" r2 then
       let? (_, r') := p_punct "=" r2 in
       match bases with
       | [] => let? (e, r'') := p_int_exponent_expr k p_unit_factor r' in Some (DefExpr e, r'')
       | _ => None
       end
     else match bases with
          | [b] => Some (DefBase b, r2)
          | _ => None
          end) = Some (def, r3).

Lemma p_unit_template_iff attrs ts t r3 :
  p_unit_template k attrs ts = Some (t, r3) <->
  exists name ann bases r1 r2 def aliases symbol metric explicit,
    ts = TIdent "unit" :: TIdent name :: r1 /\ wf_ident name /\
    p_annotation r1 = Some (ann, r2) /\ def_part bases r2 def r3 /\
    attr_part attrs bases aliases symbol metric explicit /\
    t = {| ut_name := name; ut_symbol := symbol; ut_aliases := aliases;
           ut_prefixes := match metric with Some skip => metric_prefixes skip | None => [] end
                          ++ explicit;
           ut_annotation := ann; ut_definition := def |}.
Proof.
  split.
  - unfold p_unit_template. intros H.
    dopt H. destruct p as [u r]. apply p_kw_iff in E. subst ts.
    dopt H. destruct p as [name r1]. apply p_ident_iff in E as [-> Wn].
    dopt H. destruct p as [ann r2]. rewrite remove_all_eq in H.
    destruct (collect base_of (filter (is_attr ABase) attrs)) as [bases|] eqn:EB; [|discriminate H].
    cbv beta iota in H.
    dopt H. destruct p as [def r3']. rewrite remove_all_eq in H.
    pose proof (filter_skips AAlias [ABase] attrs) as F1. cbn [fold_left] in F1.
    rewrite F1 in H by (intros [|[]]; discriminate).
    destruct (collect aliases_of (filter (is_attr AAlias) attrs)) as [ls|] eqn:EA; [|discriminate H].
    cbv beta iota in H. dopt H. destruct p as [symbol a3].
    apply remove_unique_iff in E1 as (ss & ES & MS & ->).
    pose proof (filter_skips ASymbol [ABase; AAlias] attrs) as F2. cbn [fold_left] in F2.
    rewrite F2 in ES by (intros [|[|[]]]; discriminate).
    dopt H. destruct p as [metric a4].
    apply remove_unique_iff in E1 as (ms & EM & MM & ->).
    pose proof (filter_skips AMetricPrefixes [ABase; AAlias; ASymbol] attrs) as F3. cbn [fold_left] in F3.
    rewrite F3 in EM by (intros [|[|[|[]]]]; discriminate).
    rewrite remove_all_eq in H.
    pose proof (filter_skips APrefix [ABase; AAlias; ASymbol; AMetricPrefixes] attrs) as F4.
    cbn [fold_left] in F4. rewrite F4 in H by (intros [|[|[|[|[]]]]]; discriminate).
    destruct (collect prefixes_of (filter (is_attr APrefix) attrs)) as [ps|] eqn:EP; [|discriminate H].
    cbv beta iota zeta in H. dopt H. inversion H; subst.
    exists name, ann, bases, r1, r2, def, (concat ls), symbol, metric, (concat ps).
    split; [reflexivity|]. split; [exact Wn|]. split; [exact E|]. split; [exact E0|].
    split; [|reflexivity]. split; [exact EB|]. split; [eauto|]. split; [eauto|]. split; eauto.
  - intros (name & ann & bases & r1 & r2 & def & aliases & symbol & metric & explicit & -> & Wn & An & D
      & (EB & (ls & EA & <-) & (ss & ES & MS) & (ms & EM & MM) & (ps & EP & <-)) & ->).
    unfold p_unit_template. rewrite (proj2 (p_kw_iff _ _ tt _) eq_refl). cbv beta iota.
    rewrite (proj2 (p_ident_iff _ name _) (conj eq_refl Wn)). cbv beta iota.
    rewrite An. cbv beta iota. rewrite remove_all_eq, EB. cbv beta iota.
    unfold def_part in D. rewrite D. cbv beta iota. rewrite remove_all_eq.
    pose proof (filter_skips AAlias [ABase] attrs) as F1. cbn [fold_left] in F1.
    rewrite F1 by (intros [|[]]; discriminate). rewrite EA. cbv beta iota.
    pose proof (filter_skips ASymbol [ABase; AAlias] attrs) as F2. cbn [fold_left] in F2.
    rewrite <- F2 in ES by (intros [|[|[]]]; discriminate).
    rewrite (proj2 (remove_unique_iff ASymbol symbol_of _ _ _)
               (ex_intro _ ss (conj ES (conj MS eq_refl)))). cbv beta iota.
    pose proof (filter_skips AMetricPrefixes [ABase; AAlias; ASymbol] attrs) as F3. cbn [fold_left] in F3.
    rewrite <- F3 in EM by (intros [|[|[|[]]]]; discriminate).
    rewrite (proj2 (remove_unique_iff AMetricPrefixes metric_of _ _ _)
               (ex_intro _ ms (conj EM (conj MM eq_refl)))). cbv beta iota.
    pose proof (filter_skips APrefix [ABase; AAlias; ASymbol; AMetricPrefixes] attrs) as F4.
    cbn [fold_left] in F4. rewrite remove_all_eq. rewrite F4 by (intros [|[|[|[|[]]]]]; discriminate).
    rewrite EP. cbv beta iota zeta. rewrite is_attr_exhaustive. reflexivity.
Qed.

Lemma base_of_attr d : wf_ident d -> base_of (attr_of (UBase d)) = Some d.
Proof. intros W. unfold base_of, inner_or_err. cbn [attr_of at_inner]. apply whole_iff. now apply p_ident_iff. Qed.
Lemma symbol_of_attr d : wf_ident d -> symbol_of (attr_of (USymbol d)) = Some d.
Proof. intros W. unfold symbol_of, inner_or_err. cbn [attr_of at_inner]. apply whole_iff. now apply p_ident_iff. Qed.
Lemma aliases_of_attr l : wf_uattr (UAlias l) -> aliases_of (attr_of (UAlias l)) = Some (sl_items l).
Proof.
  intros [W F]. unfold aliases_of, inner_or_err. cbn [attr_of at_inner]. apply p_ident_list_iff. eauto 6.
Qed.
Lemma prefixes_of_attr l : wf_slist l -> prefixes_of (attr_of (UPrefix l)) = Some (sl_items l).
Proof.
  intros W. unfold prefixes_of, inner_or_err. cbn [attr_of at_inner]. apply p_prefix_list_iff. eauto 6.
Qed.
Lemma metric_of_attr l : wf_slist l -> metric_of (attr_of (UMetricSkip l)) = Some (sl_items l).
Proof.
  intros W. unfold metric_of. cbn [attr_of at_inner].
  change (peek_kw "skip" (TIdent "skip" :: TPunct ":" :: print_slist print_prefix "," l)) with true.
  cbv beta iota. rewrite (proj2 (p_kw_iff _ _ tt _) eq_refl). cbv beta iota.
  rewrite p_punct_ok. cbv beta iota. apply p_prefix_list_iff. eauto 6.
Qed.
Lemma metric_of_plain b : metric_of (attr_of (UMetric b)) = Some [].
Proof. now destruct b. Qed.

(** Every attribute that the parser of its kind accepts is spelled by a source attribute. *)
Definition readable (a : attribute) : Prop :=
  match at_name a with
  | ABase => base_of a <> None
  | AAlias => aliases_of a <> None
  | ASymbol => symbol_of a <> None
  | AMetricPrefixes => metric_of a <> None
  | APrefix => prefixes_of a <> None
  end.
Lemma ident_inner (a : attribute) (f : attribute -> option ident) :
  f a = (let? inner := inner_or_err a in whole p_ident inner) -> f a <> None ->
  exists d, wf_ident d /\ at_inner a = Some [TIdent d].
Proof.
  intros -> H. unfold inner_or_err in H. destruct (at_inner a) as [i|]; [|easy].
  destruct (whole p_ident i) as [d|] eqn:E; [|easy].
  apply whole_iff, p_ident_iff in E as [-> W]. eauto.
Qed.
Lemma readable_source a : readable a -> exists u, wf_uattr u /\ attr_of u = a.
Proof.
  destruct a as [n i]. unfold readable; cbn [at_name]. destruct n; intros H.
  - destruct (ident_inner _ base_of eq_refl H) as (d & W & Ei). cbn [at_inner] in Ei. subst i.
    now exists (UBase d).
  - unfold aliases_of, inner_or_err in H. cbn [at_inner] in H. destruct i as [i|]; [|easy].
    destruct (p_terminated p_ident "," i) as [l|] eqn:E; [|easy].
    apply p_ident_list_iff in E as (s & W & F & -> & _). now exists (UAlias s).
  - destruct (ident_inner _ symbol_of eq_refl H) as (d & W & Ei). cbn [at_inner] in Ei. subst i.
    now exists (USymbol d).
  - unfold metric_of in H. cbn [at_inner] in H. destruct i as [i|]; [|now exists (UMetric false)].
    destruct (peek_kw "skip" i) eqn:P.
    + apply peek_kw_iff in P as [r ->]. rewrite (proj2 (p_kw_iff _ _ tt _) eq_refl) in H.
      cbv beta iota in H. destruct (p_punct ":" r) as [[u r1]|] eqn:Q; [|easy].
      apply p_punct_iff in Q as ->. destruct (p_terminated p_prefix "," r1) as [l|] eqn:E; [|easy].
      apply p_prefix_list_iff in E as (s & W & -> & _). now exists (UMetricSkip s).
    + destruct i as [|t i]; [now exists (UMetric true)|easy].
  - unfold prefixes_of, inner_or_err in H. cbn [at_inner] in H. destruct i as [i|]; [|easy].
    destruct (p_terminated p_prefix "," i) as [l|] eqn:E; [|easy].
    apply p_prefix_list_iff in E as (s & W & -> & _). now exists (UPrefix s).
Qed.
Lemma readable_sources l : Forall readable l -> exists us, Forall wf_uattr us /\ map attr_of us = l.
Proof.
  induction 1 as [|a l H _ (us & W & <-)]; [now exists []|].
  destruct (readable_source a H) as (u & Wu & <-). exists (u :: us). now split; [constructor|].
Qed.

(** The values of the source attributes, kind by kind. *)
Lemma collect_kind {B} (n : attribute_name) (f : attribute -> option B) (g : uattr -> list B) l :
  (forall u, wf_uattr u -> if is_attr n (attr_of u) then exists b, f (attr_of u) = Some b /\ g u = [b]
             else g u = []) ->
  Forall wf_uattr l -> collect f (filter (is_attr n) (map attr_of l)) = Some (flat_map g l).
Proof.
  intros H. induction 1 as [|u l W _ IH]; [reflexivity|]. cbn [map filter flat_map].
  specialize (H u W). destruct (is_attr n (attr_of u)).
  - destruct H as (b & E & ->). cbn [collect]. rewrite E. cbv beta iota. rewrite IH. reflexivity.
  - rewrite H. exact IH.
Qed.
Lemma attr_part_source l : Forall wf_uattr l -> forall bases aliases symbol metric explicit,
  attr_part (map attr_of l) bases aliases symbol metric explicit <->
  bases = bases_of l /\ aliases = alias_names l /\ at_most_one (symbols_of l) = Some symbol /\
  at_most_one (metrics_of l) = Some metric /\ explicit = explicit_prefixes l.
Proof.
  intros W bases aliases symbol metric explicit. unfold attr_part.
  rewrite (collect_kind ABase base_of (fun a => match a with UBase d => [d] | _ => [] end) l); cycle 1.
  { intros [d| | | | |] Wu; cbn; try reflexivity. exists d. split; [|reflexivity]. now apply base_of_attr. }
  { exact W. }
  rewrite (collect_kind AAlias aliases_of (fun a => match a with UAlias d => [sl_items d] | _ => [] end) l); cycle 1.
  { intros [|d| | | |] Wu; cbn; try reflexivity. exists (sl_items d). split; [|reflexivity].
    now apply aliases_of_attr. }
  { exact W. }
  rewrite (collect_kind ASymbol symbol_of (fun a => match a with USymbol d => [d] | _ => [] end) l); cycle 1.
  { intros [| |d| | |] Wu; cbn; try reflexivity. exists d. split; [|reflexivity]. now apply symbol_of_attr. }
  { exact W. }
  rewrite (collect_kind AMetricPrefixes metric_of
     (fun a => match a with UMetric _ => [[]] | UMetricSkip s => [sl_items s] | _ => [] end) l); cycle 1.
  { intros [| | |b|d|] Wu; try reflexivity.
    - exists []. split; [apply metric_of_plain|reflexivity].
    - exists (sl_items d). split; [now apply metric_of_attr|reflexivity]. }
  { exact W. }
  rewrite (collect_kind APrefix prefixes_of (fun a => match a with UPrefix d => [sl_items d] | _ => [] end) l); cycle 1.
  { intros [| | | | |d] Wu; cbn; try reflexivity. exists (sl_items d). split; [|reflexivity].
    now apply prefixes_of_attr. }
  { exact W. }
  fold (bases_of l). fold (symbols_of l). fold (metrics_of l).
  assert (CA : concat (flat_map (fun a => match a with UAlias d => [sl_items d] | _ => [] end) l) = alias_names l).
  { clear. induction l as [|[| | | | |] l IH]; cbn; rewrite ?IH; reflexivity. }
  assert (CP : concat (flat_map (fun a => match a with UPrefix d => [sl_items d] | _ => [] end) l) = explicit_prefixes l).
  { clear. induction l as [|[| | | | |] l IH]; cbn; rewrite ?IH; reflexivity. }
  split.
  - intros (E1 & (ls & E2 & <-) & (ss & E3 & M3) & (ms & E4 & M4) & (ps & E5 & <-)).
    inversion E1; inversion E2; inversion E3; inversion E4; inversion E5; subst. auto.
  - intros (-> & -> & M3 & M4 & ->). split; [reflexivity|]. split; [eauto|]. split; [eauto|].
    split; eauto.
Qed.
Lemma attr_part_readable attrs bases aliases symbol metric explicit :
  attr_part attrs bases aliases symbol metric explicit -> Forall readable attrs.
Proof.
  assert (G : forall B (f : attribute -> option B) n (bs : list B),
            collect f (filter (is_attr n) attrs) = Some bs ->
            forall a, In a attrs -> at_name a = n -> f a <> None).
  { intros B f n bs E a Hin Hn.
    assert (Hf : In a (filter (is_attr n) attrs)).
    { apply filter_In. split; [exact Hin|]. unfold is_attr. rewrite Hn. now destruct n. }
    revert bs E Hf. generalize (filter (is_attr n) attrs). intros l.
    induction l as [|b l IH]; intros bs E Hf; [easy|]. cbn in E. dopt E. dopt E.
    destruct Hf as [->|Hf]; [congruence|]. eapply IH; eauto. }
  intros (E1 & (ls & E2 & _) & (ss & E3 & _) & (ms & E4 & _) & (ps & E5 & _)).
  apply Forall_forall. intros a Hin. unfold readable. destruct (at_name a) eqn:N.
  - exact (G _ _ _ _ E1 a Hin N).
  - exact (G _ _ _ _ E2 a Hin N).
  - exact (G _ _ _ _ E3 a Hin N).
  - exact (G _ _ _ _ E4 a Hin N).
  - exact (G _ _ _ _ E5 a Hin N).
Qed.

(** ** Statements *)
Lemma p_annotation_ok a r : wf_opt wf_ident a -> peek_punct ":" r = false ->
  p_annotation (print_ann a ++ r) = Some (a, r).
Proof.
  intros W P. unfold p_annotation. destruct a as [i|]; cbn [print_ann app].
  - rewrite peek_punct_ok, p_punct_ok. cbv beta iota. cbn [wf_opt] in W.
    rewrite (proj2 (p_ident_iff _ i _) (conj eq_refl W)). reflexivity.
  - now rewrite P.
Qed.
Lemma p_annotation_sound ts a r : p_annotation ts = Some (a, r) ->
  wf_opt wf_ident a /\ ts = print_ann a ++ r.
Proof.
  unfold p_annotation. intros H. destruct (peek_punct ":" ts).
  - dopt H. destruct p as [u r1]. apply p_punct_iff in E as ->. dopt H. destruct p as [i r2].
    apply p_ident_iff in E as [-> W]. inversion H; subst. now split.
  - inversion H; subst. now split.
Qed.

Lemma def_part_source bases rhs : wf_opt wf_x rhs -> forall def r r3, is_stop ";" r ->
  def_part bases (print_rhs rhs ++ r) def r3 <-> mean_unit_definition k bases rhs = Some def /\ r3 = r.
Proof.
  intros W def r r3 St. unfold def_part, mean_unit_definition.
  destruct rhs as [x|]; cbn [print_rhs app wf_opt] in *.
  - rewrite peek_punct_ok, p_punct_ok. cbv beta iota.
    destruct bases as [|b [|b2 bs]]; [|split; [discriminate|now intros []]..].
    rewrite (int_expr_ok _ _ _ _ unit_factor_parser W St). unfold mean_unit_rhs.
    destruct (mean_x mean_unit_atom (mean_exp k) x); split; intros H; [|destruct H as [H ->]|discriminate|now destruct H];
      inversion H; now subst.
  - rewrite (stop_peek _ _ "=" St) by discriminate.
    destruct bases as [|b [|b2 bs]]; split; intros H; try discriminate; try (now destruct H).
    + inversion H; now subst.
    + destruct H as [H ->]. now inversion H.
Qed.
Lemma def_part_sound bases r2 def r : def_part bases r2 def r ->
  exists rhs, wf_opt wf_x rhs /\ r2 = print_rhs rhs ++ r /\ mean_unit_definition k bases rhs = Some def.
Proof.
  unfold def_part. intros H. destruct (peek_punct "=" r2).
  - dopt H. destruct p as [u r']. apply p_punct_iff in E as ->. destruct bases; [|discriminate].
    dopt H. destruct p as [e r'']. inversion H; subst.
    destruct (int_expr_sound _ _ _ _ _ unit_factor_parser E) as (x & W & -> & M & _).
    exists (Some x). split; [exact W|]. split; [reflexivity|]. cbn. unfold mean_unit_rhs. now rewrite M.
  - destruct bases as [|b [|b2 bs]]; try discriminate. inversion H; subst. exists None. now split.
Qed.

Lemma p_unit_template_ok l i ann rhs r :
  wf_stmt (SUnit l i ann rhs) -> is_stop ";" r ->
  p_unit_template k (map attr_of l)
    (TIdent "unit" :: TIdent i :: print_ann ann ++ print_rhs rhs ++ r) =
  let? t := mean_unit k l i ann rhs in Some (t, r).
Proof.
  intros (Wl & Wi & Wa & Wx) St.
  assert (An : p_annotation (print_ann ann ++ print_rhs rhs ++ r) = Some (ann, print_rhs rhs ++ r)).
  { apply p_annotation_ok; [exact Wa|]. destruct rhs; [reflexivity|].
    apply (stop_peek _ _ ":" St). discriminate. }
  destruct (mean_unit k l i ann rhs) as [t|] eqn:M.
  - unfold mean_unit in M.
    destruct (mean_unit_definition k (bases_of l) rhs) as [def|] eqn:D; [|discriminate].
    destruct (at_most_one (symbols_of l)) as [symbol|] eqn:S; [|discriminate].
    destruct (at_most_one (metrics_of l)) as [metric|] eqn:Me; [|discriminate].
    inversion M; subst. apply p_unit_template_iff.
    exists i, ann, (bases_of l), (print_ann ann ++ print_rhs rhs ++ r), (print_rhs rhs ++ r), def,
      (alias_names l), symbol, metric, (explicit_prefixes l).
    split; [reflexivity|]. split; [exact Wi|]. split; [exact An|].
    split; [now apply def_part_source|]. split; [apply attr_part_source; auto|].
    destruct metric; rewrite ?metric_prefixes_si; reflexivity.
  - destruct (p_unit_template k (map attr_of l) _) as [[t r3]|] eqn:P; [|reflexivity]. exfalso.
    apply p_unit_template_iff in P as
      (name & ann' & bases & r1 & r2 & def & aliases & symbol & metric & explicit & Ets & Wn & An' & D & A & _).
    inversion Ets; subst. rewrite An in An'. inversion An'; subst.
    apply (attr_part_source l Wl) in A as (-> & -> & MS & MM & ->).
    apply def_part_source in D as [D _]; auto. unfold mean_unit in M. now rewrite D, MS, MM in M.
Qed.
Lemma p_unit_template_sound attrs ts t r : p_unit_template k attrs ts = Some (t, r) ->
  exists l i ann rhs, attrs = map attr_of l /\ wf_stmt (SUnit l i ann rhs) /\
    ts = TIdent "unit" :: TIdent i :: print_ann ann ++ print_rhs rhs ++ r /\
    mean_unit k l i ann rhs = Some t.
Proof.
  intros H. apply p_unit_template_iff in H as
    (name & ann & bases & r1 & r2 & def & aliases & symbol & metric & explicit & -> & Wn & An & D & A & ->).
  destruct (readable_sources attrs (attr_part_readable _ _ _ _ _ _ A)) as (us & Wu & <-).
  apply (attr_part_source us Wu) in A as (-> & -> & MS & MM & ->).
  apply p_annotation_sound in An as [Wa ->].
  apply def_part_sound in D as (rhs & Wr & -> & MD).
  exists us, name, ann, rhs. split; [reflexivity|]. split; [repeat split; auto|].
  split; [reflexivity|]. unfold mean_unit. rewrite MD, MS, MM.
  destruct metric; rewrite ?metric_prefixes_si; reflexivity.
Qed.

Definition battr_of (a : battr) : attribute :=
  {| at_name := match find (fun n => String.eqb (ba_name a) (attribute_keyword n))
                      [ABase; AAlias; ASymbol; AMetricPrefixes; APrefix] with
                | Some n => n | None => ABase end;
     at_inner := if ba_parens a then Some [] else None |}.
Lemma print_battr_of a : wf_battr a -> print_attr (battr_of a) = print_battr a.
Proof.
  destruct a as [n b]. unfold wf_battr; cbn [ba_name]. intros H.
  repeat (destruct H as [<-|H]; [destruct b; reflexivity|]). destruct H.
Qed.
Lemma print_battrs_of l : Forall wf_battr l -> flat_map print_attr (map battr_of l) = flat_map print_battr l.
Proof.
  induction 1 as [|a l W _ IH]; [reflexivity|]. cbn [map flat_map]. now rewrite print_battr_of, IH.
Qed.
Lemma battrs_silent l : forallb dropped_silently (map battr_of l) = true.
Proof. induction l as [|[n [|]] l IH]; cbn; auto. Qed.
Lemma silent_battrs l : forallb dropped_silently l = true ->
  exists bs, Forall wf_battr bs /\ flat_map print_attr l = flat_map print_battr bs.
Proof.
  induction l as [|[n i] l IH]; intros H; [now exists []|]. cbn [forallb] in H.
  apply andb_true_iff in H as [Ha H]. destruct (IH H) as (bs & W & E).
  exists ({| ba_name := attribute_keyword n; ba_parens := match i with Some _ => true | None => false end |} :: bs).
  split; [constructor; [destruct n; cbn; tauto|exact W]|]. cbn [flat_map]. rewrite E. f_equal.
  unfold dropped_silently in Ha; cbn [at_inner] in Ha. destruct i as [[|]|]; try discriminate; reflexivity.
Qed.

Lemma peek_kw_self w r : peek_kw w (TIdent w :: r) = true.
Proof. apply peek_kw_iff; eauto. Qed.

Lemma p_entry_ok s r : wf_stmt s -> is_stop ";" r ->
  p_entry k (print_stmt s ++ r) = let? e := mean_stmt k s in Some (e, r).
Proof.
  intros W St. destruct s as [l i|l i|l i rhs|l i ann rhs|l i ann x]; cbn [print_stmt wf_stmt] in *.
  - destruct W as [Wl Wi]. rewrite <- app_assoc. rewrite <- print_battrs_of by exact Wl.
    unfold p_entry. rewrite p_attributes_ok by reflexivity. cbv beta iota zeta.
    rewrite battrs_silent. cbn [app]. rewrite peek_kw_self, (proj2 (p_kw_iff _ _ tt _) eq_refl).
    cbv beta iota. rewrite (proj2 (p_ident_iff _ i _) (conj eq_refl Wi)). reflexivity.
  - destruct W as [Wl Wi]. rewrite <- app_assoc. rewrite <- print_battrs_of by exact Wl.
    unfold p_entry. rewrite p_attributes_ok by reflexivity. cbv beta iota zeta.
    rewrite battrs_silent. cbn [app].
    change (peek_kw "quantity_type" (TIdent "dimension_type" :: TIdent i :: r)) with false. cbv beta iota.
    rewrite peek_kw_self, (proj2 (p_kw_iff _ _ tt _) eq_refl).
    cbv beta iota. rewrite (proj2 (p_ident_iff _ i _) (conj eq_refl Wi)). reflexivity.
  - destruct W as (Wl & Wi & Wx). rewrite <- !app_assoc. rewrite <- print_battrs_of by exact Wl.
    unfold p_entry. rewrite p_attributes_ok by reflexivity. cbv beta iota zeta.
    rewrite battrs_silent. cbn [app].
    change (peek_kw "quantity_type" (TIdent "dimension" :: TIdent i :: print_rhs rhs ++ r)) with false.
    change (peek_kw "dimension_type" (TIdent "dimension" :: TIdent i :: print_rhs rhs ++ r)) with false.
    cbv beta iota. rewrite peek_kw_self. unfold p_dimension_entry.
    rewrite (proj2 (p_kw_iff _ _ tt _) eq_refl). cbv beta iota.
    rewrite (proj2 (p_ident_iff _ i _) (conj eq_refl Wi)). cbv beta iota. unfold p_definition.
    destruct rhs as [x|]; cbn [print_rhs app mean_stmt wf_opt] in *.
    + unfold mean_dimension_rhs. rewrite peek_punct_ok, p_punct_ok. cbv beta iota.
      rewrite (int_expr_ok _ _ _ _ dimension_factor_parser Wx St).
      now destruct (mean_x mean_dimension_atom (mean_exp k) x).
    + now rewrite (stop_peek _ _ "=" St) by discriminate.
  - pose proof W as (Wl & Wi & Wa & Wx). rewrite <- !app_assoc. rewrite <- print_attrs_of.
    unfold p_entry. rewrite p_attributes_ok by reflexivity. cbv beta iota zeta. cbn [app].
    set (ts := TIdent "unit" :: TIdent i :: print_ann ann ++ print_rhs rhs ++ r).
    change (peek_kw "quantity_type" ts) with false. change (peek_kw "dimension_type" ts) with false.
    change (peek_kw "dimension" ts) with false. change (peek_kw "unit" ts) with true. cbv beta iota.
    cbn [mean_stmt]. unfold ts. rewrite (p_unit_template_ok _ _ _ _ _ W St).
    now destruct (mean_unit k l i ann rhs).
  - destruct W as (Wl & Wi & Wa & Wx). rewrite <- !app_assoc. rewrite <- print_battrs_of by exact Wl.
    unfold p_entry. rewrite p_attributes_ok by reflexivity. cbv beta iota zeta.
    rewrite battrs_silent. cbn [app].
    set (ts := TIdent "constant" :: TIdent i :: print_ann ann ++ print_rhs (Some x) ++ r).
    change (peek_kw "quantity_type" ts) with false. change (peek_kw "dimension_type" ts) with false.
    change (peek_kw "dimension" ts) with false. change (peek_kw "unit" ts) with false.
    change (peek_kw "constant" ts) with true. cbv beta iota. unfold p_constant_entry, ts.
    rewrite (proj2 (p_kw_iff _ _ tt _) eq_refl). cbv beta iota.
    rewrite (proj2 (p_ident_iff _ i _) (conj eq_refl Wi)). cbv beta iota.
    rewrite p_annotation_ok by (auto; reflexivity). cbv beta iota. cbn [print_rhs app].
    rewrite p_punct_ok. cbv beta iota. cbn [mean_stmt]. unfold mean_unit_rhs.
    rewrite (int_expr_ok _ _ _ _ unit_factor_parser Wx St).
    now destruct (mean_x mean_unit_atom (mean_exp k) x).
Qed.

Lemma p_entry_sound ts e r : p_entry k ts = Some (e, r) ->
  exists s, wf_stmt s /\ ts = print_stmt s ++ r /\ mean_stmt k s = Some e.
Proof.
  unfold p_entry. intros H. destruct (p_attributes ts) as [[attrs r0]|] eqn:A; [|discriminate].
  cbv beta iota zeta in H. apply p_attributes_sound in A. subst ts.
  assert (D : forallb dropped_silently attrs = true ->
              exists bs, Forall wf_battr bs /\ flat_map print_attr attrs = flat_map print_battr bs)
    by apply silent_battrs.
  destruct (peek_kw "quantity_type" r0); [|destruct (peek_kw "dimension_type" r0);
    [|destruct (peek_kw "dimension" r0); [|destruct (peek_kw "unit" r0);
      [|destruct (peek_kw "constant" r0); [|discriminate]]]]].
  - destruct (forallb dropped_silently attrs); [|discriminate].
    destruct (D eq_refl) as (bs & W & ->).
    dopt H. destruct p as [u r1]. apply p_kw_iff in E as ->. dopt H. destruct p as [i r2].
    apply p_ident_iff in E as [-> Wi]. inversion H; subst.
    exists (SQuantityType bs i). cbn [print_stmt wf_stmt mean_stmt]. rewrite <- app_assoc. now repeat split.
  - destruct (forallb dropped_silently attrs); [|discriminate].
    destruct (D eq_refl) as (bs & W & ->).
    dopt H. destruct p as [u r1]. apply p_kw_iff in E as ->. dopt H. destruct p as [i r2].
    apply p_ident_iff in E as [-> Wi]. inversion H; subst.
    exists (SDimensionType bs i). cbn [print_stmt wf_stmt mean_stmt]. rewrite <- app_assoc. now repeat split.
  - destruct (forallb dropped_silently attrs); [|discriminate].
    destruct (D eq_refl) as (bs & W & ->). clear D.
    destruct (p_dimension_entry k r0) as [[d r1]|] eqn:P; [|discriminate H]. inversion H; subst. clear H.
    unfold p_dimension_entry in P. dopt P. destruct p as [u r1]. apply p_kw_iff in E as ->.
    dopt P. destruct p as [i r2]. apply p_ident_iff in E as [-> Wi].
    destruct (p_definition k r2) as [[def r3]|] eqn:Q; [|discriminate P]. inversion P; subst. clear P.
    unfold p_definition in Q. destruct (peek_punct "=" r2).
    + dopt Q. destruct p as [u' r']. apply p_punct_iff in E as ->.
      destruct (p_int_exponent_expr k p_dimension_factor r') as [[e r'']|] eqn:X; [|discriminate Q].
      inversion Q; subst.
      destruct (int_expr_sound _ _ _ _ _ dimension_factor_parser X) as (x & Wx & -> & M & _).
      exists (SDimension bs i (Some x)). cbn [print_stmt wf_stmt mean_stmt wf_opt print_rhs].
      unfold mean_dimension_rhs. rewrite M. rewrite <- !app_assoc. now repeat split.
    + inversion Q; subst. exists (SDimension bs i None). cbn [print_stmt wf_stmt mean_stmt wf_opt print_rhs].
      rewrite <- !app_assoc. now repeat split.
  - destruct (p_unit_template k attrs r0) as [[t r1]|] eqn:P; [|discriminate H]. inversion H; subst. clear H.
    apply p_unit_template_sound in P as (l & i & ann & rhs & -> & W & -> & M).
    exists (SUnit l i ann rhs). split; [exact W|]. cbn [print_stmt mean_stmt]. rewrite M.
    rewrite print_attrs_of, <- !app_assoc. now split.
  - destruct (forallb dropped_silently attrs); [|discriminate].
    destruct (D eq_refl) as (bs & W & ->). clear D.
    destruct (p_constant_entry k r0) as [[d r1]|] eqn:P; [|discriminate H]. inversion H; subst. clear H.
    unfold p_constant_entry in P. dopt P. destruct p as [u r1]. apply p_kw_iff in E as ->.
    dopt P. destruct p as [i r2]. apply p_ident_iff in E as [-> Wi].
    dopt P. destruct p as [ann r3]. apply p_annotation_sound in E as [Wa ->].
    dopt P. destruct p as [u' r4]. apply p_punct_iff in E as ->.
    destruct (p_int_exponent_expr k p_unit_factor r4) as [[e r5]|] eqn:X; [|discriminate P].
    inversion P; subst.
    destruct (int_expr_sound _ _ _ _ _ unit_factor_parser X) as (x & Wx & -> & M & _).
    exists (SConstant bs i ann x). cbn [print_stmt wf_stmt mean_stmt wf_opt print_rhs].
    unfold mean_unit_rhs. rewrite M. rewrite <- !app_assoc. now repeat split.
Qed.

Lemma print_stmt_nonempty s : print_stmt s <> [].
Proof.
  destruct s; cbn [print_stmt]; intros H; apply app_eq_nil in H as [_ H]; discriminate.
Qed.

(** Parsing what is printed gives what is meant, or an error if it means nothing. *)
Theorem parse_print f : wf_file f -> parse_system k (print_file f) = mean_file k f.
Proof.
  intros [W F]. unfold parse_system, mean_file, print_file.
  rewrite (terminated_ok (p_entry k) ";" print_stmt wf_stmt (mean_stmt k) p_entry_ok
      print_stmt_nonempty f W F). reflexivity.
Qed.
(** Everything that is accepted can be printed. *)
Theorem parse_sound_file ts T : parse_system k ts = Some T -> exists f, wf_file f /\ print_file f = ts.
Proof.
  unfold parse_system. intros H.
  destruct (p_terminated (p_entry k) ";" ts) as [l|] eqn:P; [|discriminate].
  destruct (terminated_sound (p_entry k) ";" print_stmt wf_stmt (mean_stmt k) p_entry_sound ts l P)
      as (f & W & F & -> & M).
  exists f. now split.
Qed.
End Statements.
