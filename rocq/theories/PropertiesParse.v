(** * Properties of the definition language: C53 - C57

    [parse_system k] is the model of the macro's parser (Parse.v); [print_file]/[mean_file] are the
    specification of the language (Grammar.v). *)
From Coq Require Import String Ascii List Bool ZArith Lia Arith Reals Lra QArith Qcanon.
From Flocq Require Import Core.Core IEEE754.Binary IEEE754.Bits.
From Verif Require Import MachineInt Ratio RatioFacts F64 DecimalFacts Magnitude MagnitudeFacts Exponent
  ExponentFacts Expression Types PrefixSpec Resolve SystemSpec ResolveFacts ResolveEquations Setting SystemFacts Parse
  Grammar ParseFacts.
Import ListNotations.
Close Scope Q_scope. Close Scope Qc_scope. Close Scope R_scope.
Local Open Scope string_scope.
Local Open Scope list_scope.

(** ** C53: left associativity *)

(** The value of an expression when its atoms are values and its operations are given. *)
Section Value.
Context {V E : Type} (mul div : V -> V -> V) (pw : V -> E -> V).
Fixpoint value (x : expr V E) : V :=
  match x with
  | EVal f => fvalue f
  | EBin l f OMul => mul (value l) (fvalue f)
  | EBin l f ODiv => div (value l) (fvalue f)
  end
with fvalue (f : factor V E) : V :=
  match f with FVal v => v | FPow v e => pw v e | FParen x => value x end.
End Value.

(** The tokens [f0 o1 f1 o2 f2 ...]. *)
Definition chain (f0 : sf) (l : list (sop * sf)) : list tok :=
  print_f f0 ++ flat_map (fun '(o, f) => print_op o ++ print_f f) l.
(** Every factor is well formed, and one that follows directly begins with an identifier. *)
Definition chain_ok (f0 : sf) (l : list (sop * sf)) : Prop :=
  wf_f f0 /\ Forall (fun '(o, f) => wf_f f /\ (o = ByJuxtaposition -> begins_with_ident f)) l.

Definition the_constant (k : mode) (c : ident) (e : expr (fac magnitude) (ops k))
  : unresolved (ops k) (unit_template (ops k)) :=
  {| u_dimension_types := []; u_quantity_types := []; u_dimensions := []; u_units := [];
     u_constants := [{| ce_name := c; ce_rhs := e; ce_annotation := None |}] |}.

Lemma chain_print f0 l : exists x, print_x x = chain f0 l /\ (chain_ok f0 l -> wf_x x) /\
  forall T E (mv : atom -> option T) (me : sexp -> option E) v0 vs,
    mean_f mv me f0 = Some v0 ->
    collect (fun '(o, f) => let? v := mean_f mv me f in Some (mean_op o, v)) l = Some vs ->
    mean_x mv me x = Some (fold_left (fun e '(o, v) => EBin e v o) vs (EVal v0)).
Proof.
  induction l as [|[o f] l IH] using rev_ind.
  - exists (SxOne f0). split; [unfold chain; cbn; now rewrite app_nil_r|]. split; [now intros []|].
    intros T E mv me v0 vs M0 M. cbn in M. inversion M; subst. rewrite mean_one, M0. reflexivity.
  - destruct IH as (x & P & W & M). exists (SxBin x o f). unfold chain in *. split.
    + cbn [print_x]. rewrite P, flat_map_app. cbn. now rewrite app_nil_r, <- !app_assoc.
    + split.
      * intros [W0 F]. apply Forall_app in F as [F1 F2]. apply Forall_inv in F2. destruct F2 as [Wf J].
        cbn [wf_x]. split; [now apply W|]. now split.
      * intros T E mv me v0 vs M0 C.
        assert (A : forall (g : sop * sf -> option (operator * factor T E)) l1 l2, collect g (l1 ++ l2) =
           let? a := collect g l1 in let? b := collect g l2 in Some (a ++ b)).
        { intros g l1 l2. induction l1 as [|a l1 IH]; cbn; [now destruct (collect g l2)|].
          destruct (g a); [|reflexivity]. rewrite IH. destruct (collect g l1); [|reflexivity].
          now destruct (collect g l2). }
        rewrite A in C. destruct (collect _ l) as [vs1|] eqn:C1; [|discriminate]. cbv beta iota in C.
        cbn [collect] in C. destruct (mean_f mv me f) as [v|] eqn:Mf; [|discriminate].
        inversion C; subst. rewrite fold_left_app. rewrite mean_bin.
        rewrite (M T E mv me v0 vs1 M0 C1), Mf. reflexivity.
Qed.

(** A constant defined by [f0 o1 f1 o2 f2 ...] is recorded as [((f0 o1 f1) o2 f2) ...], where a
    missing operator is a multiplication; and the value of the recorded expression is
    [((v0 op1 v1) op2 v2) ...], whatever multiplication, division and powers mean.  Each [vi] is the
    value of the factor on its own, so [^] binds tighter and parentheses group. *)
Theorem C53_left_associative : forall k c f0 l v0 vs,
  wf_ident c -> chain_ok f0 l ->
  mean_f mean_unit_atom (mean_exp k) f0 = Some v0 ->
  collect (fun '(o, f) => let? v := mean_f mean_unit_atom (mean_exp k) f in Some (mean_op o, v)) l
    = Some vs ->
  exists e, parse_system k (TIdent "constant" :: TIdent c :: TPunct "=" :: chain f0 l)
              = Some (the_constant k c e) /\
    forall V (mul div : V -> V -> V) (pw : V -> ops k -> V) (val : fac magnitude -> V),
      let of_factor f := fvalue mul div pw (factor_map val f) in
      value mul div pw (expr_map val e) =
      fold_left (fun a '(o, f) => match o with OMul => mul a (of_factor f) | ODiv => div a (of_factor f) end)
        vs (of_factor v0).
Proof.
  intros k c f0 l v0 vs Wc Wl M0 M. destruct (chain_print f0 l) as (x & P & W & Mx).
  specialize (W Wl). specialize (Mx _ _ _ _ _ _ M0 M).
  exists (fold_left (fun e '(o, v) => EBin e v o) vs (EVal v0)). split.
  - pose proof (parse_print k {| sl_items := [SConstant [] c None x]; sl_trailing := false |}) as Q.
    unfold print_file, print_slist in Q.
    cbn [sl_items sl_trailing print_items print_stmt flat_map print_ann print_rhs app] in Q.
    rewrite app_nil_r, P in Q. rewrite Q.
    + unfold mean_file. cbn [sl_items collect mean_stmt]. unfold mean_unit_rhs.
      destruct (mean_x mean_unit_atom (mean_exp k) x); [|discriminate Mx]. now inversion Mx.
    + split; [discriminate|]. constructor; [|constructor]. cbn. auto.
  - intros V mul div pw val. cbv zeta.
    assert (G : forall acc, value mul div pw
        (expr_map val (fold_left (fun e '(o, v) => EBin e v o) vs acc)) =
      fold_left (fun a '(o, f) => match o with
          | OMul => mul a (fvalue mul div pw (factor_map val f))
          | ODiv => div a (fvalue mul div pw (factor_map val f)) end)
        vs (value mul div pw (expr_map val acc))).
    { clear. induction vs as [|[o v] vs IH]; intros acc; [reflexivity|].
      cbn [fold_left]. rewrite IH. destruct o; reflexivity. }
    rewrite G. reflexivity.
Qed.
Print Assumptions C53_left_associative.

(** A group counts as the value of what it contains, [^] takes just the atom before it. *)
Theorem C53_factors : forall k x a e (mv : atom -> option (fac magnitude)) V
    (mul div : V -> V -> V) (pw : V -> ops k -> V) (val : fac magnitude -> V) y t p,
  (mean_x mv (mean_exp k) x = Some y -> exists f, mean_f mv (mean_exp k) (SfParen x) = Some f /\
     fvalue mul div pw (factor_map val f) = value mul div pw (expr_map val y)) /\
  (mv a = Some t -> mean_exp k e = Some p -> exists f, mean_f mv (mean_exp k) (SfPow a e) = Some f /\
     fvalue mul div pw (factor_map val f) = pw (val t) p).
Proof.
  intros. split.
  - intros H. rewrite mean_paren, H. eexists. split; [reflexivity|]. reflexivity.
  - intros Ht Hp. rewrite mean_pow, Ht, Hp. eexists. split; reflexivity.
Qed.
Print Assumptions C53_factors.

(** [constant X = a * b^2 / c d]. *)
Example C53_applies : exists v0 vs,
  let f0 := SfVal (AtIdent "a") in
  let l := [(ByStar, SfPow (AtIdent "b") (SxInt (SInt false 2))); (BySlash, SfVal (AtIdent "c"));
            (ByJuxtaposition, SfVal (AtIdent "d"))] in
  chain_ok f0 l /\ mean_f mean_unit_atom (mean_exp IntegerExponents) f0 = Some v0 /\
  collect (fun '(o, f) => let? v := mean_f mean_unit_atom (mean_exp IntegerExponents) f in Some (mean_op o, v)) l
    = Some vs /\
  vs = [(OMul, FPow (Other "b") 2%Z); (ODiv, FVal (Other "c")); (OMul, FVal (Other "d"))].
Proof.
  eexists. eexists. cbv zeta. split; [|split; [reflexivity|split; reflexivity]].
  split; [now apply accept_name|]. repeat (first [apply accept_name; reflexivity | constructor]); try discriminate.
Qed.

(** ** C54: the parser accepts exactly the grammar *)
Theorem C54_parser_is_the_grammar : forall k ts T,
  parse_system k ts = Some T <->
  exists f, wf_file f /\ print_file f = ts /\ mean_file k f = Some T.
Proof.
  intros k ts T. split.
  - intros H. destruct (parse_sound_file k ts T H) as (f & W & <-). exists f.
    rewrite <- (parse_print k f W). auto.
  - intros (f & W & <- & M). now rewrite parse_print.
Qed.
Print Assumptions C54_parser_is_the_grammar.

(** Printing a source and parsing it gives its meaning back; if it has none (a number out of range,
    a unit without definition, ...) the macro rejects it. *)
Theorem C54_parse_print : forall k f, wf_file f -> parse_system k (print_file f) = mean_file k f.
Proof. exact parse_print. Qed.
Print Assumptions C54_parse_print.

(** No text has two meanings. *)
Theorem C54_unambiguous : forall k f g, wf_file f -> wf_file g -> print_file f = print_file g ->
  mean_file k f = mean_file k g.
Proof. intros k f g Wf Wg E. rewrite <- !parse_print by assumption. now rewrite E. Qed.
Print Assumptions C54_unambiguous.

(** Syntax trees are unique too: if two well-formed expressions are written with the same tokens,
    then they are the same tree of atoms and exponents (up to [a * b] against [a b]). *)
Definition p_slit : parser slit := fun ts =>
  match ts with
  | TLit (LInt n) :: r => Some (SInt false n, r)
  | TLit (LFloat d k) :: r => Some (SDec false d k, r)
  | TPunct c :: TLit (LInt n) :: r => if Ascii.eqb c "-" then Some (SInt true n, r) else None
  | TPunct c :: TLit (LFloat d k) :: r => if Ascii.eqb c "-" then Some (SDec true d k, r) else None
  | _ => None
  end.
Lemma p_slit_print l r : p_slit (print_lit l ++ r) = Some (l, r).
Proof. destruct l as [[|] n|[|] d k]; reflexivity. Qed.
Lemma p_slit_sound ts l r : p_slit ts = Some (l, r) -> ts = print_lit l ++ r.
Proof.
  destruct ts as [|[s|[n|d k|]|c|d l'] ts]; cbn [p_slit]; try discriminate.
  - intros H; inversion H; reflexivity.
  - intros H; inversion H; reflexivity.
  - destruct ts as [|[s|[n|d k|]|c'|d' l'] ts]; try discriminate;
      destruct (Ascii.eqb_spec c "-"); try discriminate; intros H; inversion H; subst; reflexivity.
Qed.
Definition p_atom : parser atom := fun ts =>
  if peek_ident ts then let? (i, r) := p_ident ts in Some (AtIdent i, r)
  else let? (l, r) := p_slit ts in Some (AtLit l, r).
Definition p_sexp : parser sexp := fun ts =>
  match p_slit ts with
  | Some (l, r) => Some (SxInt l, r)
  | None =>
      match ts with
      | TGroup DParen c :: r =>
          let? (n, c1) := p_slit c in
          let? (_, c2) := p_punct "/" c1 in
          let? d := whole p_slit c2 in Some (SxRatio n d, r)
      | _ => None
      end
  end.
Lemma atom_parser : value_parser p_atom Some.
Proof.
  split.
  - intros [i|l] r W; unfold p_atom; cbn [print_atom app wf_atom] in *.
    + now rewrite (peek_ident_ok i r W), (p_ident_ok i r W).
    + now rewrite peek_ident_print_lit, p_slit_print.
  - intros ts v r H. unfold p_atom in H. destruct (peek_ident ts).
    + dopt H. destruct p as [i r']. inversion H; subst. apply p_ident_iff in E as [-> W].
      now exists (AtIdent i).
    + dopt H. destruct p as [l r']. inversion H; subst. apply p_slit_sound in E as ->.
      now exists (AtLit l).
Qed.
Lemma sexp_parser : exp_parser p_sexp Some.
Proof.
  split.
  - intros [l|n d] r; unfold p_sexp; cbn [print_exp].
    + now rewrite p_slit_print.
    + cbn [app]. change (p_slit (TGroup _ _ :: r)) with (@None (slit * list tok)). cbv beta iota.
      rewrite p_slit_print. cbv beta iota. rewrite p_punct_ok. cbv beta iota.
      assert (W : whole p_slit (print_lit d) = Some d).
      { unfold whole. now rewrite <- (app_nil_r (print_lit d)), p_slit_print. }
      now rewrite W.
  - intros ts v r H. unfold p_sexp in H. destruct (p_slit ts) as [[l r']|] eqn:E.
    + inversion H; subst. apply p_slit_sound in E. now exists (SxInt l).
    + destruct ts as [|[| | |[| |] c] ts]; try discriminate. dopt H. destruct p as [n c1].
      apply p_slit_sound in E0 as ->. dopt H. destruct p as [u c2]. apply p_punct_iff in E0 as ->.
      dopt H. inversion H; subst. apply whole_iff, p_slit_sound in E0 as ->.
      exists (SxRatio n s). now rewrite app_nil_r.
Qed.
Theorem C54_unique_tree : forall x y, wf_x x -> wf_x y -> print_x x = print_x y ->
  mean_x Some Some x = mean_x Some Some y /\
  forall T E (mv : atom -> option T) (me : sexp -> option E), mean_x mv me x = mean_x mv me y.
Proof.
  intros x y Wx Wy E.
  assert (S : mean_x Some Some x = mean_x Some Some y).
  { pose proof (p_expr_ok _ _ _ _ atom_parser sexp_parser x [] Wx eq_refl) as Px.
    pose proof (p_expr_ok _ _ _ _ atom_parser sexp_parser y [] Wy eq_refl) as Py.
    rewrite E in Px. rewrite Px in Py.
    destruct (mean_x Some Some x), (mean_x Some Some y); congruence. }
  split; [exact S|]. intros T E' mv me.
  pose (interp := fix ix (t : expr atom sexp) : option (expr T E') :=
          match t with
          | EVal f => let? f' := ifc f in Some (EVal f')
          | EBin l f o => let? l' := ix l in let? f' := ifc f in Some (EBin l' f' o)
          end
        with ifc (f : factor atom sexp) : option (factor T E') :=
          match f with
          | FVal a => let? v := mv a in Some (FVal v)
          | FPow a e => let? v := mv a in let? p := me e in Some (FPow v p)
          | FParen x => let? x' := ix x in Some (FParen x')
          end
        for ix).
  pose (ifc := fix ix (t : expr atom sexp) : option (expr T E') :=
          match t with
          | EVal f => let? f' := ifc f in Some (EVal f')
          | EBin l f o => let? l' := ix l in let? f' := ifc f in Some (EBin l' f' o)
          end
        with ifc (f : factor atom sexp) : option (factor T E') :=
          match f with
          | FVal a => let? v := mv a in Some (FVal v)
          | FPow a e => let? v := mv a in let? p := me e in Some (FPow v p)
          | FParen x => let? x' := ix x in Some (FParen x')
          end
        for ifc).
  assert (G : (forall x, mean_x mv me x = let? t := mean_x Some Some x in interp t) /\
              (forall f, mean_f mv me f = let? t := mean_f Some Some f in ifc t)).
  { apply sx_sf_ind.
    - intros f IH. rewrite !mean_one, IH. destruct (mean_f Some Some f); reflexivity.
    - intros l IHl o f IHf. rewrite !mean_bin, IHl, IHf. destruct (mean_x Some Some l); [|reflexivity].
      cbv beta iota. destruct (mean_f Some Some f); [reflexivity|]. destruct (interp e); reflexivity.
    - intros a. rewrite !mean_val. reflexivity.
    - intros a e. rewrite !mean_pow. reflexivity.
    - intros z IH. rewrite !mean_paren, IH. destruct (mean_x Some Some z); reflexivity. }
  destruct G as [G _]. rewrite !G, S. reflexivity.
Qed.
Print Assumptions C54_unique_tree.

(** A text with every kind of statement. *)
Definition example_file : slist stmt := {| sl_trailing := true; sl_items :=
  [SQuantityType [] "Quantity"; SDimensionType [] "Dimension";
   SDimension [] "Length" None; SDimension [] "Time" None;
   SDimension [] "Velocity" (Some (SxBin (SxOne (SfVal (AtIdent "Length"))) BySlash (SfVal (AtIdent "Time"))));
   SUnit [UMetricSkip {| sl_items := [Kilo; Mega]; sl_trailing := false |}; USymbol "m"; UBase "Length";
          UAlias {| sl_items := ["metre"; "metres"]; sl_trailing := true |}] "meter" (Some "Length") None;
   SUnit [] "inch" None (Some (SxBin (SxOne (SfVal (AtLit (SDec false 254 (-4))))) ByJuxtaposition
                                    (SfVal (AtIdent "meter"))));
   SConstant [] "C" (Some "Length") (SxBin (SxOne (SfVal (AtLit (SInt false 3)))) ByStar
                                    (SfParen (SxOne (SfPow (AtIdent "inch") (SxInt (SInt true 1))))))] |}.
Example C54_applies : wf_file example_file /\
  exists T, parse_system IntegerExponents (print_file example_file) = Some T /\
    map ut_name (u_units T) = ["meter"; "inch"] /\ map (@ut_aliases _) (u_units T) = [["metre"; "metres"]; []].
Proof.
  assert (W : wf_file example_file).
  { split; [easy|]. cbn [sl_items example_file]. unfold wf_stmt, wf_ident.
    repeat (first [apply accept_name; reflexivity | constructor | discriminate | reflexivity]). }
  split; [exact W|]. eexists. rewrite (parse_print _ _ W).
  split; [reflexivity|]. split; reflexivity.
Qed.

(** ** C55: numbers in dimension definitions *)

(** The number written. *)
Definition lit_real (l : slit) : R :=
  match l with
  | SInt neg n => IZR (signed neg n)
  | SDec neg d k => ((if neg then -1 else 1) * (IZR (Z.of_N d) * powerRZ 10 k))%R
  end.
Fixpoint atoms_x (x : sx) : list atom :=
  match x with SxOne f => atoms_f f | SxBin l _ f => atoms_x l ++ atoms_f f end
with atoms_f (f : sf) : list atom :=
  match f with SfVal a | SfPow a _ => [a] | SfParen x => atoms_x x end.

Lemma mean_atoms {T E} (mv : atom -> option T) (me : sexp -> option E) :
  (forall x e, mean_x mv me x = Some e -> forall a, In a (atoms_x x) -> mv a <> None) /\
  (forall f v, mean_f mv me f = Some v -> forall a, In a (atoms_f f) -> mv a <> None).
Proof.
  apply sx_sf_ind.
  - intros f IH e M a Ha. rewrite mean_one in M. destruct (mean_f mv me f) as [v|] eqn:Mf; [|discriminate].
    exact (IH v eq_refl a Ha).
  - intros l IHl o f IHf e M a Ha. rewrite mean_bin in M.
    destruct (mean_x mv me l) as [el|] eqn:Ml; [|discriminate]. cbv beta iota in M.
    destruct (mean_f mv me f) as [v|] eqn:Mf; [|discriminate].
    cbn [atoms_x] in Ha. apply in_app_iff in Ha as [Ha|Ha]; [exact (IHl el eq_refl a Ha)|exact (IHf v eq_refl a Ha)].
  - intros a v M b [<-|[]]. rewrite mean_val in M. destruct (mv a); [discriminate|easy].
  - intros a e v M b [<-|[]]. rewrite mean_pow in M. destruct (mv a); [discriminate|easy].
  - intros x IH v M a Ha. rewrite mean_paren in M. destruct (mean_x mv me x) as [e|] eqn:Mx; [|discriminate].
    exact (IH e eq_refl a Ha).
Qed.

Lemma mean_number_nearest l x : mean_number l = Some x -> is_finite 53 1024 x = true ->
  B2R 53 1024 x = rnd64 (lit_real l).
Proof.
  assert (N : forall r y, nearest r y -> is_finite 53 1024 y = true -> B2R 53 1024 y = rnd64 r).
  { intros r y. unfold nearest. destruct (Rlt_bool _ _); [now intros []|]. now intros ->. }
  destruct l as [neg n|neg d k]; cbn [mean_number lit_real].
  - destruct (is_i64 (signed neg n)); [|discriminate]. intros H F. inversion H; subst.
    apply N; [apply f64_of_Z_nearest|exact F].
  - intros H F. inversion H; subst; clear H.
    assert (D := f64_of_decimal_nearest (Z.of_N d) k (N2Z.is_nonneg d)).
    destruct neg.
    + unfold b64_opp in *. rewrite B2R_Bopp. rewrite is_finite_Bopp in F.
      rewrite (N _ _ D F). unfold rnd64. rewrite <- round_NE_opp. cbn [round_mode].
      f_equal. lra.
    + rewrite (N _ _ D F). f_equal. lra.
Qed.

Lemma is_one_close l x : mean_number l = Some x -> f64_eqb x f64_one = true ->
  (Rabs (lit_real l - 1) <= bpow radix2 (-53))%R.
Proof.
  intros M E.
  destruct (f64_of_Z_exact 1) as (F1 & R1 & _); [reflexivity|]. fold f64_one in F1, R1.
  assert (Fx : is_finite 53 1024 x = true /\ B2R 53 1024 x = 1%R).
  { unfold f64_eqb, b64_compare in E. destruct (is_finite 53 1024 x) eqn:Fx.
    - split; [reflexivity|]. rewrite (Bcompare_correct 53 1024 x f64_one Fx F1), R1 in E.
      destruct (Rcompare_spec (B2R 53 1024 x) 1); try discriminate. assumption.
    - exfalso. destruct x as [s|s|s p e0|s m e e0]; try discriminate.
      + destruct s; vm_compute in E; discriminate. }
  destruct Fx as [Fx Rx]. pose proof (mean_number_nearest l x M Fx) as Hr. rewrite Rx in Hr.
  assert (P53 : Prec_gt_0 53) by reflexivity.
  pose proof (error_le_half_ulp_round radix2 (FLT_exp (-1074) 53) (fun z => negb (Z.even z)) (lit_real l)) as HE.
  change (round radix2 (FLT_exp (-1074) 53) (Znearest (fun z => negb (Z.even z))) (lit_real l)) with (rnd64 (lit_real l)) in HE.
  rewrite <- Hr in HE. rewrite Rabs_minus_sym. eapply Rle_trans; [exact HE|].
  replace 1%R with (bpow radix2 0) by reflexivity. rewrite ulp_bpow.
  change (FLT_exp (-1074) 53 (0 + 1)) with (-52)%Z.
  replace (bpow radix2 (-53)) with (/ 2 * bpow radix2 (-52))%R; [lra|].
  replace (-52)%Z with (-53 + 1)%Z by reflexivity. rewrite bpow_plus. change (bpow radix2 1) with 2%R. field.
Qed.

Lemma collect_member {A B} (f : A -> option B) l bs a : collect f l = Some bs -> In a l -> f a <> None.
Proof.
  revert bs. induction l as [|b l IH]; intros bs H Ha; [easy|]. cbn in H.
  destruct (f b) eqn:Eb; [|discriminate]. destruct (collect f l) eqn:El; [|discriminate].
  destruct Ha as [->|Ha]; [congruence|]. now apply (IH l0).
Qed.

(** A text with a dimension definition in which a number occurs (at any depth) whose double is not
    1 is rejected. *)
Theorem C55_only_one : forall k f l i x n,
  wf_file f -> In (SDimension l i (Some x)) (sl_items f) -> In (AtLit n) (atoms_x x) ->
  (forall v, mean_number n = Some v -> f64_eqb v f64_one = false) ->
  parse_system k (print_file f) = None.
Proof.
  intros k f l i x n W Hs Ha Hn. rewrite parse_print by exact W. unfold mean_file.
  destruct (collect (mean_stmt k) (sl_items f)) as [es|] eqn:C; [|reflexivity]. exfalso.
  apply (collect_member _ _ _ _ C) in Hs. apply Hs. cbn [mean_stmt]. unfold mean_dimension_rhs.
  destruct (mean_x mean_dimension_atom (mean_exp k) x) as [e|] eqn:M; [|reflexivity]. exfalso.
  apply (proj1 (mean_atoms mean_dimension_atom (mean_exp k)) x e M _ Ha).
  cbn [mean_dimension_atom]. destruct (mean_number n) as [v|]; [|reflexivity]. now rewrite (Hn v eq_refl).
Qed.
Print Assumptions C55_only_one.

(** In terms of the number written: an integer other than 1, or a decimal that differs from 1 by
    more than [2^-53], is rejected. *)
Theorem C55_only_one_real : forall k f l i x n,
  wf_file f -> In (SDimension l i (Some x)) (sl_items f) -> In (AtLit n) (atoms_x x) ->
  (bpow radix2 (-53) < Rabs (lit_real n - 1))%R ->
  parse_system k (print_file f) = None.
Proof.
  intros k f l i x n W Hs Ha Hr. apply (C55_only_one k f l i x n W Hs Ha). intros v M.
  destruct (f64_eqb v f64_one) eqn:E; [|reflexivity]. exfalso.
  pose proof (is_one_close n v M E). lra.
Qed.
Print Assumptions C55_only_one_real.
Theorem C55_integer : forall k f l i x neg n,
  wf_file f -> In (SDimension l i (Some x)) (sl_items f) -> In (AtLit (SInt neg n)) (atoms_x x) ->
  signed neg n <> 1%Z -> parse_system k (print_file f) = None.
Proof.
  intros k f l i x neg n W Hs Ha Hz. apply (C55_only_one_real k f l i x _ W Hs Ha).
  cbn [lit_real]. rewrite <- minus_IZR, <- abs_IZR.
  apply Rlt_le_trans with (bpow radix2 0); [apply bpow_lt; lia|]. change (bpow radix2 0) with (IZR 1).
  apply IZR_le. lia.
Qed.
Print Assumptions C55_integer.
(** 1, 1.0, 10e-1 are accepted, and [2] is not. *)
Definition one_file (n : slit) : slist stmt := {| sl_trailing := false; sl_items :=
  [SDimension [] "Length" None;
   SDimension [] "Wavenumber" (Some (SxBin (SxOne (SfVal (AtLit n))) BySlash (SfVal (AtIdent "Length"))))] |}.
Example C55_applies :
  (forall n, wf_file (one_file n)) /\
  (forall n, In n [SInt false 1; SDec false 10 (-1); SDec false 1 0] ->
     parse_system IntegerExponents (print_file (one_file n)) <> None) /\
  parse_system IntegerExponents (print_file (one_file (SInt false 2))) = None.
Proof.
  assert (W : forall n, wf_file (one_file n)).
  { intros n. split; [easy|]. repeat (first [apply accept_name; reflexivity | apply Forall_nil | constructor | discriminate]). }
  split; [auto|]. split.
  - intros n H. rewrite parse_print by apply W.
    assert (G : forall m, In m [SInt false 1; SDec false 10 (-1); SDec false 1 0] ->
       match mean_file IntegerExponents (one_file m) with Some _ => true | None => false end = true).
    { intros m [<-|[<-|[<-|[]]]]; vm_compute; reflexivity. }
    specialize (G n H). intros E. rewrite E in G. discriminate.
  - apply (C55_integer _ _ [] "Wavenumber"
      (SxBin (SxOne (SfVal (AtLit (SInt false 2)))) BySlash (SfVal (AtIdent "Length"))) false 2 (W _)).
    + right. now left.
    + now left.
    + discriminate.
Qed.

(** ** C56: unit attributes *)

(** The statement [attrs unit i [: ann] [= rhs]] on its own. *)
Definition unit_text (attrs : list uattr) (i : ident) (ann : option ident) (rhs : option sx) : list tok :=
  flat_map print_uattr attrs ++ [TIdent "unit"; TIdent i] ++ print_ann ann ++ print_rhs rhs.

(** Accepted exactly when: one base attribute and no expression or the other way round; at most one
    symbol; at most one [metric_prefixes]; (and the expression is meaningful).  Then the unit has
    the names written, in order, the metric prefixes without the skipped ones followed by the
    explicit ones. *)
Theorem C56_unit_attributes : forall k attrs i ann rhs,
  Forall wf_uattr attrs -> wf_ident i -> wf_opt wf_ident ann -> wf_opt wf_x rhs ->
  forall T, parse_system k (unit_text attrs i ann rhs) = Some T <->
  exists t, T = {| u_dimension_types := []; u_quantity_types := []; u_dimensions := [];
                   u_units := [t]; u_constants := [] |} /\
    ut_name t = i /\ ut_annotation t = ann /\ ut_aliases t = alias_names attrs /\
    ((exists b, bases_of attrs = [b] /\ rhs = None /\ ut_definition t = DefBase b) \/
     (bases_of attrs = [] /\ exists x e, rhs = Some x /\ mean_unit_rhs k x = Some e /\
        ut_definition t = DefExpr e)) /\
    ((symbols_of attrs = [] /\ ut_symbol t = None) \/
     (exists s, symbols_of attrs = [s] /\ ut_symbol t = Some s)) /\
    ((metrics_of attrs = [] /\ ut_prefixes t = explicit_prefixes attrs) \/
     (exists skip, metrics_of attrs = [skip] /\
        ut_prefixes t = si_without skip ++ explicit_prefixes attrs)).
Proof.
  intros k attrs i ann rhs Wa Wi Wn Wx T.
  pose proof (parse_print k {| sl_items := [SUnit attrs i ann rhs]; sl_trailing := false |}) as P.
  unfold print_file, print_slist in P. cbn [sl_items sl_trailing print_items print_stmt] in P.
  rewrite app_nil_r in P. fold (unit_text attrs i ann rhs) in P.
  rewrite P; [|split; [discriminate|]; constructor; [cbn; auto|constructor]]. clear P.
  unfold mean_file. cbn [sl_items collect mean_stmt]. unfold mean_unit, mean_unit_definition. split.
  - intros H. destruct (bases_of attrs) as [|b [|b2 bs]] eqn:EB; [destruct rhs as [x|]; [|discriminate]|destruct rhs as [x|]; [discriminate|]|destruct rhs; discriminate].
    + destruct (mean_unit_rhs k x) as [e|] eqn:Me; [|discriminate]. cbv beta iota in H.
      destruct (symbols_of attrs) as [|s [|s2 ss]] eqn:ES; cbn [at_most_one] in H; try discriminate;
      destruct (metrics_of attrs) as [|m [|m2 ms]] eqn:EM; cbn [at_most_one] in H; try discriminate;
      inversion H; subst; (eexists; split; [reflexivity|]);
      cbn [ut_name ut_annotation ut_aliases ut_definition ut_symbol ut_prefixes];
      (split; [reflexivity|]); (split; [reflexivity|]); (split; [reflexivity|]);
      (split; [right; eauto 7|]); split; eauto 7.
    + cbv beta iota in H.
      destruct (symbols_of attrs) as [|s [|s2 ss]] eqn:ES; cbn [at_most_one] in H; try discriminate;
      destruct (metrics_of attrs) as [|m [|m2 ms]] eqn:EM; cbn [at_most_one] in H; try discriminate;
      inversion H; subst; (eexists; split; [reflexivity|]);
      cbn [ut_name ut_annotation ut_aliases ut_definition ut_symbol ut_prefixes];
      (split; [reflexivity|]); (split; [reflexivity|]); (split; [reflexivity|]);
      (split; [left; eauto 7|]); split; eauto 7.
  - intros (t & -> & Hn & Han & Hal & HB & HS & HM).
    destruct t as [tn ts ta tp tan td]. cbn [ut_name ut_annotation ut_aliases ut_definition ut_symbol ut_prefixes] in *.
    subst. destruct HB as [(b & -> & -> & ->)|(-> & x & e & -> & Me & ->)]; [|rewrite Me; cbv beta iota];
      (destruct HS as [(-> & ->)|(s & -> & ->)]; destruct HM as [(-> & ->)|(m & -> & ->)]; reflexivity).
Qed.
Print Assumptions C56_unit_attributes.

(** In an accepted text a [#] is always the start of one of the attributes of the grammar. *)
Definition is_attribute (c : list tok) : Prop :=
  (exists a, wf_uattr a /\ print_uattr a = [TPunct "#"; TGroup DBracket c]) \/
  (exists a, wf_battr a /\ print_battr a = [TPunct "#"; TGroup DBracket c]).

Definition guarded (ts : list tok) : Prop :=
  forall before after, ts = before ++ TPunct "#" :: after ->
  exists c r, after = TGroup DBracket c :: r /\ is_attribute c.
Lemma guarded_app a b : guarded a -> guarded b -> guarded (a ++ b).
Proof.
  intros Ha Hb before after E. revert a Ha E. induction before as [|t before IH]; intros a Ha E.
  - destruct a as [|t a]; [exact (Hb [] after E)|]. injection E as -> E.
    destruct (Ha [] a eq_refl) as (c & r & -> & A). exists c, (r ++ b). split; [now rewrite <- E|exact A].
  - destruct a as [|u a]; [exact (Hb (t :: before) after E)|]. injection E as <- E.
    apply (IH a); [|exact E]. intros be af E'. apply (Ha (u :: be) af). now rewrite E'.
Qed.
Definition plain (ts : list tok) : Prop := ~ In (TPunct "#") ts.
Lemma plain_guarded ts : plain ts -> guarded ts.
Proof. intros H before after ->. exfalso. apply H. apply in_or_app. right. now left. Qed.
Lemma plain_app a b : plain a -> plain b -> plain (a ++ b).
Proof. intros Ha Hb I. apply in_app_or in I as [I|I]; [exact (Ha I)|exact (Hb I)]. Qed.
Lemma plain_lit l : plain (print_lit l).
Proof. destruct l as [[] n|[] d e]; intros I; cbn in I; intuition discriminate. Qed.
Lemma plain_atom a : plain (print_atom a).
Proof. destruct a as [s|l]; [intros [I|[]]; discriminate|apply plain_lit]. Qed.
Lemma plain_exp e : plain (print_exp e).
Proof. destruct e as [l|n d]; [apply plain_lit|intros [I|[]]; discriminate]. Qed.
Lemma plain_x : (forall x, plain (print_x x)) /\ (forall f, plain (print_f f)).
Proof.
  apply sx_sf_ind.
  - intros f H. exact H.
  - intros l Hl o f Hf. cbn [print_x]. apply plain_app; [exact Hl|]. apply plain_app; [|exact Hf].
    destruct o; intros I; cbn in I; intuition discriminate.
  - intros a. apply plain_atom.
  - intros a e. cbn [print_f]. apply plain_app; [apply plain_atom|]. apply plain_app; [|apply plain_exp].
    intros [I|[]]; discriminate.
  - intros x _ [I|[]]. discriminate.
Qed.
Lemma plain_rhs r : plain (print_rhs r).
Proof. destruct r as [x|]; [|intros []]. intros [I|I]; [discriminate|]. exact (proj1 plain_x x I). Qed.
Lemma plain_ann a : plain (print_ann a).
Proof. destruct a; intros I; cbn in I; intuition discriminate. Qed.
Lemma guarded_attribute t c : t = [TPunct "#"; TGroup DBracket c] -> is_attribute c -> guarded t.
Proof.
  intros -> A [|u [|v before]] after E; cbn in E.
  - injection E as <-. now exists c, [].
  - discriminate.
  - injection E as _ _ E. destruct before; discriminate.
Qed.
Lemma guarded_uattrs l : Forall wf_uattr l -> guarded (flat_map print_uattr l).
Proof.
  induction 1 as [|a l W _ IH]; [now apply plain_guarded|]. apply guarded_app; [|exact IH].
  assert (E : exists c, print_uattr a = [TPunct "#"; TGroup DBracket c]) by (destruct a; eexists; reflexivity).
  destruct E as [c E]. apply (guarded_attribute _ c E). left. now exists a.
Qed.
Lemma guarded_battrs l : Forall wf_battr l -> guarded (flat_map print_battr l).
Proof.
  induction 1 as [|a l W _ IH]; [now apply plain_guarded|]. apply guarded_app; [|exact IH].
  assert (E : exists c, print_battr a = [TPunct "#"; TGroup DBracket c]) by (eexists; reflexivity).
  destruct E as [c E]. apply (guarded_attribute _ c E). right. now exists a.
Qed.
Lemma guarded_stmt s : wf_stmt s -> guarded (print_stmt s).
Proof.
  destruct s as [l i|l i|l i r|l i a r|l i a x]; cbn [wf_stmt print_stmt]; intros W;
    (apply guarded_app; [first [apply guarded_battrs; apply W|apply guarded_uattrs; apply W]|]);
    apply plain_guarded.
  - intros I; cbn in I; intuition discriminate.
  - intros I; cbn in I; intuition discriminate.
  - apply plain_app; [intros I; cbn in I; intuition discriminate|apply plain_rhs].
  - apply plain_app; [intros I; cbn in I; intuition discriminate|]. apply plain_app; [apply plain_ann|apply plain_rhs].
  - apply plain_app; [intros I; cbn in I; intuition discriminate|]. apply plain_app; [apply plain_ann|apply (plain_rhs (Some x))].
Qed.
Lemma guarded_file f : wf_file f -> guarded (print_file f).
Proof.
  intros [_ W]. unfold print_file, print_slist. induction W as [|a l Wa _ IH]; [now apply plain_guarded|].
  destruct l as [|b l].
  - apply guarded_app; [now apply guarded_stmt|]. destruct (sl_trailing f); apply plain_guarded; [|intros []].
    intros [I|[]]; discriminate.
  - change (guarded (print_stmt a ++ [TPunct ";"] ++ print_items print_stmt ";" (b :: l) (sl_trailing f))).
    apply guarded_app; [now apply guarded_stmt|]. apply guarded_app; [|exact IH].
    apply plain_guarded. intros [I|[]]; discriminate.
Qed.

Theorem C56_only_known_attributes : forall k T before after,
  parse_system k (before ++ TPunct "#" :: after) = Some T ->
  exists content rest, after = TGroup DBracket content :: rest /\ is_attribute content.
Proof.
  intros k T before after H. apply C54_parser_is_the_grammar in H as (f & W & E & _).
  exact (guarded_file f W before after E).
Qed.
Print Assumptions C56_only_known_attributes.

(** So an unknown attribute is never accepted, wherever it is written. *)
Theorem C56_unknown_attribute : forall k before content after,
  (forall w r, In w attribute_keywords -> content <> TIdent w :: r) ->
  parse_system k (before ++ TPunct "#" :: TGroup DBracket content :: after) = None.
Proof.
  intros k before content after H. destruct (parse_system k _) as [T|] eqn:E; [exfalso|reflexivity].
  apply C56_only_known_attributes in E as (c & r & E & A). injection E as <- <-.
  destruct A as [(a & _ & E)|(a & W & E)].
  - destruct a; unfold print_uattr, print_attribute in E; injection E as <-; eapply H; try reflexivity; cbn; tauto.
  - unfold print_battr, print_attribute in E. injection E as <-. eapply H; [exact W|reflexivity].
Qed.
Print Assumptions C56_unknown_attribute.

(** [#[symbol(m)] #[alias(a, b,)] #[metric_prefixes(skip: kilo)] #[prefix(kilo)] #[base(Length)] unit meter]. *)
Definition C56_text : list tok :=
  unit_text [USymbol "m"; UAlias {| sl_items := ["a"; "b"]; sl_trailing := true |};
             UMetricSkip {| sl_items := [Kilo]; sl_trailing := false |};
             UPrefix {| sl_items := [Kilo]; sl_trailing := false |}; UBase "Length"]
    "meter" None None.
Definition rejected (ts : list tok) : bool :=
  match parse_system IntegerExponents ts with Some _ => false | None => true end.
Example C56_applies :
  option_map (fun T => (map (@ut_aliases _) (u_units T), map (fun t => List.length (ut_prefixes t)) (u_units T)))
    (parse_system IntegerExponents C56_text) = Some ([["a"; "b"]], [16%nat]) /\
  map rejected [unit_text [] "meter" None None;
                unit_text [UBase "Length"; UBase "Length"] "meter" None None;
                unit_text [USymbol "m"; USymbol "m"; UBase "Length"] "meter" None None]
  = [true; true; true].
Proof. split; vm_compute; reflexivity. Qed.

(** ** C57: attributes on other statements *)
Definition other_keywords : list string := ["quantity_type"; "dimension_type"; "dimension"; "constant"].
Definition C57_statement : Prop := forall k attrs w r,
  attrs <> [] -> In w other_keywords ->
  parse_system k (flat_map print_attr attrs ++ TIdent w :: r) = None.
(** [#[symbol] dimension Length] is accepted and the attribute ignored. *)
Theorem C57_refuted : ~ C57_statement.
Proof.
  intros S. specialize (S IntegerExponents [{| at_name := ASymbol; at_inner := None |}] "dimension"
    [TIdent "Length"]).
  assert (R : rejected (flat_map print_attr [{| at_name := ASymbol; at_inner := None |}] ++
     [TIdent "dimension"; TIdent "Length"]) = false) by (vm_compute; reflexivity).
  unfold rejected in R. rewrite S in R; [discriminate|discriminate|cbn; tauto].
Qed.
Print Assumptions C57_refuted.

(** An attribute with arguments before a [dimension], [constant], [quantity_type] or
    [dimension_type] statement, anywhere in a system, is an error.  Missing: attributes without
    arguments, which are ignored (above). *)
Theorem C57_attributes_with_arguments_partial : forall k before attrs a t inner w r,
  Forall wf_stmt before -> In a attrs -> at_inner a = Some (t :: inner) -> In w other_keywords ->
  parse_system k (flat_map (fun s => print_stmt s ++ [TPunct ";"]) before ++
                  flat_map print_attr attrs ++ TIdent w :: r) = None.
Proof.
  intros k before attrs a t inner w r Wb Ha Hi Hw.
  destruct (parse_system k _) as [T|] eqn:P; [exfalso|reflexivity].
  unfold parse_system in P. destruct (p_terminated (p_entry k) ";" _) as [l|] eqn:Q; [|discriminate].
  unfold p_terminated in Q.
  assert (Hp : p_entry k (flat_map print_attr attrs ++ TIdent w :: r) = None).
  { unfold p_entry. rewrite p_attributes_ok by reflexivity. cbv beta iota zeta.
    assert (D : forallb dropped_silently attrs = false).
    { destruct (forallb dropped_silently attrs) eqn:D; [|reflexivity].
      rewrite forallb_forall in D. specialize (D a Ha). unfold dropped_silently in D. now rewrite Hi in D. }
    rewrite D. cbn [peek_kw].
    repeat (destruct Hw as [<-|Hw]; [reflexivity|]). destruct Hw. }
  revert Q. generalize (S (Datatypes.length (flat_map (fun s => print_stmt s ++ [TPunct ";"]) before ++
                  flat_map print_attr attrs ++ TIdent w :: r))) as n.
  clear P. intros n. revert n l. induction before as [|s before IH]; intros n l Q; (destruct n as [|n]; [discriminate|]).
  - cbn [flat_map app] in Q. cbn [p_terminated_n] in Q. rewrite Hp in Q.
    destruct (flat_map print_attr attrs ++ TIdent w :: r) eqn:Z; [now apply app_eq_nil in Z as [_ Z]|discriminate].
  - cbn [flat_map] in Q. rewrite <- !app_assoc in Q. cbn [app] in Q. cbn [p_terminated_n] in Q.
    inversion Wb as [|s' b' Ws Wb']; subst.
    destruct (print_stmt s ++ _) eqn:Z in Q; [now apply app_eq_nil in Z as [_ Z]|]. rewrite <- Z in Q. clear Z.
    rewrite p_entry_ok in Q; [|exact Ws|right; eauto].
    destruct (mean_stmt k s) as [e|]; [|discriminate]. cbv beta iota in Q.
    rewrite p_punct_ok in Q. cbv beta iota in Q.
    destruct (p_terminated_n n (p_entry k) ";" _) as [l'|] eqn:Q' in Q; [|discriminate].
    exact (IH Wb' n l' Q').
Qed.
Print Assumptions C57_attributes_with_arguments_partial.
Example C57_applies :
  rejected (print_stmt (SDimension [] "Length" None) ++ [TPunct ";"] ++
    print_attr {| at_name := ASymbol; at_inner := Some [TIdent "m"] |} ++
    [TIdent "dimension"; TIdent "Time"]) = true /\
  rejected (print_stmt (SDimension [] "Length" None) ++ [TPunct ";"] ++
    [TIdent "dimension"; TIdent "Time"]) = false.
Proof. split; vm_compute; reflexivity. Qed.
