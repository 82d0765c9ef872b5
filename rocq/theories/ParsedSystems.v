(** * What every parsed system satisfies: its literals are well formed

    [literals_ok] is the hypothesis of many theorems about the resolver.  It holds of every system
    that comes out of the parser; with rational exponents, provided no exponent is written with a
    negative denominator. *)
From Coq Require Import String Ascii List Bool ZArith Lia Arith QArith Qcanon.
From Verif Require Import MachineInt Ratio RatioFacts F64 Magnitude MagnitudeFacts Exponent
  ExponentFacts Expression Types Resolve SystemSpec ResolveFacts ResolveEquations Setting SystemFacts Parse
  Grammar ParseFacts.
Import ListNotations.
Close Scope Q_scope. Close Scope Qc_scope.
Local Open Scope string_scope.
Local Open Scope list_scope.

Fixpoint exps_x (x : sx) : list sexp :=
  match x with SxOne f => exps_f f | SxBin l _ f => exps_x l ++ exps_f f end
with exps_f (f : sf) : list sexp :=
  match f with SfVal _ => [] | SfPow _ e => [e] | SfParen x => exps_x x end.

Definition stmt_exps (s : stmt) : list sexp :=
  match s with
  | SDimension _ _ (Some x) | SUnit _ _ _ (Some x) | SConstant _ _ _ x => exps_x x
  | _ => []
  end.
(** No exponent [n / d] with [d <= 0]. *)
Definition positive_denominators (f : slist stmt) : Prop :=
  forall s n d z, In s (sl_items f) -> In (SxRatio n d) (stmt_exps s) -> mean_int d = Some z -> (0 < z)%Z.

Lemma mean_exponents {T} (X : exp_ops) (mv : atom -> option T) (me : sexp -> option X) :
  (forall x e, mean_x mv me x = Some e -> forall p, In p (exponents e) ->
     exists s, In s (exps_x x) /\ me s = Some p) /\
  (forall f v, mean_f mv me f = Some v -> forall p, In p (fexponents v) ->
     exists s, In s (exps_f f) /\ me s = Some p).
Proof.
  apply sx_sf_ind.
  - intros f IH e M p Hp. rewrite mean_one in M. destruct (mean_f mv me f) as [v|] eqn:Mf; [|discriminate].
    inversion M; subst. exact (IH v eq_refl p Hp).
  - intros l IHl o f IHf e M p Hp. rewrite mean_bin in M.
    destruct (mean_x mv me l) as [el|] eqn:Ml; [|discriminate]. cbv beta iota in M.
    destruct (mean_f mv me f) as [v|] eqn:Mf; [|discriminate]. inversion M; subst.
    cbn [exponents] in Hp. apply in_app_iff in Hp as [Hp|Hp].
    + destruct (IHl _ eq_refl p Hp) as (s & Hs & Es). exists s. split; [cbn; apply in_app_iff; now left|exact Es].
    + destruct (IHf _ eq_refl p Hp) as (s & Hs & Es). exists s. split; [cbn; apply in_app_iff; now right|exact Es].
  - intros a v M p Hp. rewrite mean_val in M. destruct (mv a); [|discriminate]. inversion M; subst. destruct Hp.
  - intros a e v M p Hp. rewrite mean_pow in M. destruct (mv a); [|discriminate]. cbv beta iota in M.
    destruct (me e) as [q|] eqn:Eq; [|discriminate]. inversion M; subst.
    destruct Hp as [<-|[]]. exists e. split; [now left|exact Eq].
  - intros x IH v M p Hp. rewrite mean_paren in M. destruct (mean_x mv me x) as [e|] eqn:Mx; [|discriminate].
    inversion M; subst. exact (IH e eq_refl p Hp).
Qed.
Lemma mean_vals {T E} (mv : atom -> option T) (me : sexp -> option E) :
  (forall x e, mean_x mv me x = Some e -> forall t, In t (expr_vals e) -> exists a, mv a = Some t) /\
  (forall f v, mean_f mv me f = Some v -> forall t, In t (factor_vals v) -> exists a, mv a = Some t).
Proof.
  apply sx_sf_ind.
  - intros f IH e M t Ht. rewrite mean_one in M. destruct (mean_f mv me f) as [v|] eqn:Mf; [|discriminate].
    inversion M; subst. exact (IH v eq_refl t Ht).
  - intros l IHl o f IHf e M t Ht. rewrite mean_bin in M.
    destruct (mean_x mv me l) as [el|] eqn:Ml; [|discriminate]. cbv beta iota in M.
    destruct (mean_f mv me f) as [v|] eqn:Mf; [|discriminate]. inversion M; subst.
    cbn [expr_vals] in Ht. apply in_app_iff in Ht as [Ht|Ht]; [exact (IHl _ eq_refl t Ht)|exact (IHf _ eq_refl t Ht)].
  - intros a v M t Ht. rewrite mean_val in M. destruct (mv a) eqn:Ea; [|discriminate]. inversion M; subst.
    destruct Ht as [<-|[]]. eauto.
  - intros a e v M t Ht. rewrite mean_pow in M. destruct (mv a) eqn:Ea; [|discriminate]. cbv beta iota in M.
    destruct (me e); [|discriminate]. inversion M; subst. destruct Ht as [<-|[]]. eauto.
  - intros x IH v M t Ht. rewrite mean_paren in M. destruct (mean_x mv me x) as [e|] eqn:Mx; [|discriminate].
    inversion M; subst. exact (IH e eq_refl t Ht).
Qed.
Lemma unit_vals_encoded k x e c : mean_unit_rhs k x = Some e -> In (Concrete c) (expr_vals e) -> encoded c.
Proof.
  intros M H. destruct (proj1 (mean_vals _ _) x e M _ H) as ([i|l] & E); [discriminate|].
  cbn [mean_unit_atom] in E. destruct (mean_number l) as [v|]; [|discriminate]. inversion E. now exists v.
Qed.

Lemma rnew_canonical n d r : (0 < d)%Z -> rnew Checked n d = Some r -> canonical r.
Proof.
  intros Hd H. destruct d as [|d|d]; try lia.
  apply (rnew_represents n (Zpos d) r (n # d)); [lia|exact H|]. cbn. lia.
Qed.

Lemma exp_valid k s p : (forall n d z, s = SxRatio n d -> mean_int d = Some z -> (0 < z)%Z) ->
  mean_exp k s = Some p -> l_valid (ops k) (laws k) p.
Proof.
  destruct k; cbn [mean_exp ops laws]; [easy|]. intros Hd M. change (canonical p).
  destruct s as [l|n d].
  - destruct (mean_int l) as [z|]; [|discriminate]. apply (rnew_canonical z 1); [lia|exact M].
  - destruct (mean_int n) as [z|]; [|discriminate]. destruct (mean_int d) as [w|] eqn:Ed; [|discriminate].
    apply (rnew_canonical z w); [exact (Hd n d w eq_refl Ed)|exact M].
Qed.

Lemma collect_in {A B} (f : A -> option B) l bs b : collect f l = Some bs -> In b bs ->
  exists a, In a l /\ f a = Some b.
Proof.
  revert bs. induction l as [|a l IH]; intros bs H Hb; cbn in H; [inversion H; subst; easy|].
  destruct (f a) eqn:Ea; [|discriminate]. destruct (collect f l) as [bs'|]; [|discriminate].
  inversion H; subst. destruct Hb as [->|Hb]; [exists a; split; [now left|exact Ea]|].
  destruct (IH bs' eq_refl Hb) as (a' & Ha & E). exists a'. split; [now right|exact E].
Qed.

Theorem source_literals_ok k f T : mean_file k f = Some T ->
  (k = RationalExponents -> positive_denominators f) -> template_literals_ok k T.
Proof.
  intros M Hp. unfold mean_file in M. destruct (collect (mean_stmt k) (sl_items f)) as [es|] eqn:C; [|discriminate].
  inversion M; subst; clear M.
  assert (V : forall s x, In s (sl_items f) -> stmt_exps s = exps_x x ->
     forall q p, In q (exps_x x) -> mean_exp k q = Some p -> l_valid (ops k) (laws k) p).
  { intros s x Hs Ex q p Hq Mq. apply (exp_valid k q p); [|exact Mq]. intros n d z -> Md.
    destruct k; [cbn in Mq; discriminate|]. apply (Hp eq_refl s n d z Hs); [now rewrite Ex|exact Md]. }
  split; [|split]; cbn [u_units u_constants u_dimensions].
  - intros t e Ht Et. apply in_flat_map in Ht as (en & Hen & Ht).
    destruct en as [| | |u|]; try easy. destruct Ht as [->|[]].
    destruct (collect_in _ _ _ _ C Hen) as (s & Hs & Ms). destruct s as [| |? ? [?|]|l i ann rhs|]; cbn in Ms; try discriminate.
    + destruct (mean_dimension_rhs k s); discriminate.
    + destruct (mean_unit k l i ann rhs) as [u|] eqn:Mu; [|discriminate]. inversion Ms; subst; clear Ms.
      unfold mean_unit in Mu. destruct (mean_unit_definition k (bases_of l) rhs) as [def|] eqn:D; [|discriminate].
      destruct (at_most_one (symbols_of l)); [|discriminate]. destruct (at_most_one (metrics_of l)); [|discriminate].
      inversion Mu; subst; clear Mu. cbn [ut_definition] in Et. subst def.
      unfold mean_unit_definition in D. destruct (bases_of l) as [|b [|b2 bs]], rhs as [x|]; try discriminate.
      destruct (mean_unit_rhs k x) as [e'|] eqn:Mx; [|discriminate]. inversion D; subst e'; clear D. split.
      * intros c Hc. apply (unit_vals_encoded k x e c Mx Hc).
      * intros p Hpin. destruct (proj1 (mean_exponents (ops k) _ _) x e Mx p Hpin) as (q & Hq & Eq).
        exact (V _ x Hs eq_refl q p Hq Eq).
    + destruct (mean_unit_rhs k rhs); discriminate.
  - intros c Hc. apply in_flat_map in Hc as (en & Hen & Hc). destruct en; try easy. destruct Hc as [->|[]].
    destruct (collect_in _ _ _ _ C Hen) as (s & Hs & Ms). destruct s as [| |? ? [?|]|l i ann rhs|l i ann x]; cbn in Ms; try discriminate.
    + destruct (mean_dimension_rhs k s); discriminate.
    + destruct (mean_unit k l i ann rhs); discriminate.
    + destruct (mean_unit_rhs k x) as [e|] eqn:Mx; [|discriminate]. inversion Ms; subst; clear Ms.
      cbn [ce_rhs]. split.
      * intros y Hy. apply (unit_vals_encoded k x e y Mx Hy).
      * intros p Hpin. destruct (proj1 (mean_exponents (ops k) _ _) x e Mx p Hpin) as (q & Hq & Eq).
        exact (V _ x Hs eq_refl q p Hq Eq).
  - intros d e Hd Ed p Hpin. apply in_flat_map in Hd as (en & Hen & Hd). destruct en; try easy. destruct Hd as [->|[]].
    destruct (collect_in _ _ _ _ C Hen) as (s & Hs & Ms). destruct s as [| |l i [x|]|l i ann rhs|l i ann x]; cbn in Ms; try discriminate.
    + destruct (mean_dimension_rhs k x) as [e'|] eqn:Mx; [|discriminate]. inversion Ms; subst; clear Ms.
      cbn [de_rhs] in Ed. inversion Ed; subst e'. destruct (proj1 (mean_exponents (ops k) _ _) x e Mx p Hpin) as (q & Hq & Eq).
      exact (V _ x Hs eq_refl q p Hq Eq).
    + inversion Ms; subst. discriminate Ed.
    + destruct (mean_unit k l i ann rhs); discriminate.
    + destruct (mean_unit_rhs k x); discriminate.
Qed.

(** With integer exponents every parsed system qualifies. *)
Theorem integer_literals_ok ts T : parse_system IntegerExponents ts = Some T ->
  literals_ok IntegerExponents T.
Proof.
  intros H. destruct (parse_sound_file _ _ _ H) as (f & W & <-). rewrite parse_print in H by exact W.
  apply template_literals. apply (source_literals_ok _ f T H). discriminate.
Qed.
(** With rational exponents every parsed system without non-positive denominators. *)
Theorem rational_literals_ok f T : wf_file f -> positive_denominators f ->
  parse_system RationalExponents (print_file f) = Some T -> literals_ok RationalExponents T.
Proof.
  intros W P H. rewrite parse_print in H by exact W.
  apply template_literals. apply (source_literals_ok _ f T H). auto.
Qed.
