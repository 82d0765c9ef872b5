(** * Exponents as written in the source: C68; dimension literals from source text: C60 *)
From Coq Require Import String Ascii List Bool ZArith Lia QArith Qcanon.
From Verif Require Import MachineInt Ratio RatioFacts F64 Magnitude MagnitudeFacts Exponent ExponentFacts SMap
  Expression DimensionMath Types Resolve SystemSpec ResolveFacts ResolveEquations Expansion Setting SystemFacts Parse Grammar
  ParseFacts ParsedSystems ExampleSystems CodegenDimension CodegenDimensionFacts CodegenLiteral PropertiesDimension.
Import ListNotations.
Close Scope Q_scope. Close Scope Qc_scope.
Local Open Scope string_scope.
Local Open Scope list_scope.
Local Open Scope Z_scope.

(** ** Every exponent of a parsed system is an [i64], or a fraction of two *)

Lemma rnew_range m n d r : rnew m n d = Some r -> in_i64 (Ratio.num r) = true /\ in_i64 (Ratio.denom r) = true.
Proof.
  unfold rnew. destruct (gcd m n d) as [g|]; [|discriminate].
  destruct (i64_div n g) as [x|] eqn:E1; [|discriminate]. destruct (i64_div d g) as [y|] eqn:E2; [|discriminate].
  intros H; inversion H; subst; cbn [Ratio.num Ratio.denom].
  apply i64_div_Some in E1 as (_ & _ & ?), E2 as (_ & _ & ?). auto.
Qed.
Lemma mean_int_range l z : mean_int l = Some z -> in_i64 z = true.
Proof.
  destruct l as [neg n|]; [|discriminate]. cbn [mean_int]. rewrite is_i64_in.
  destruct (in_i64 (signed neg n)) eqn:E; [|discriminate]. intros H; inversion H; now subst.
Qed.
Lemma mean_exp_range k s p : mean_exp k s = Some p -> i64_exponent k p.
Proof.
  destruct k; cbn [mean_exp i64_exponent].
  - destruct s; [apply mean_int_range|discriminate].
  - destruct s as [l|n d].
    + destruct (mean_int l); [|discriminate]. apply rnew_range.
    + destruct (mean_int n); [|discriminate]. destruct (mean_int d); [|discriminate]. apply rnew_range.
Qed.

(** The variants a unit definition is expanded into contain no exponents of their own. *)
Lemma expand_one_exponents {X} (t : unit_template X) pr a p :
  In p (decl_exponents (DUnit (expand_one t pr a))) ->
  exists e, ut_definition t = DefExpr e /\ In p (exponents e).
Proof.
  destruct pr as [pr|], a as [a|];
    cbn [decl_exponents expand_one ue_definition get_definition exponents fexponents app];
    try (intros []).
  destruct (ut_definition t) as [|e]; [intros []|]. eauto.
Qed.

(** The exponents of the declarations come from the source. *)
Lemma source_exponents k f T : mean_file k f = Some T ->
  forall x p, In x (decls (expand_templates T)) -> In p (decl_exponents x) ->
  exists s e, In s (sl_items f) /\ In e (stmt_exps s) /\ mean_exp k e = Some p.
Proof.
  intros M x p Hx Hp. unfold mean_file in M.
  destruct (collect (mean_stmt k) (sl_items f)) as [es|] eqn:C; [|discriminate].
  inversion M; subst; clear M.
  unfold decls in Hx. cbn [expand_templates u_dimensions u_units u_constants] in Hx.
  apply in_app_iff in Hx as [Hx|Hx]; [|apply in_app_iff in Hx as [Hx|Hx]].
  - apply in_map_iff in Hx as (d & <- & Hd). cbn [decl_exponents] in Hp.
    destruct (de_rhs d) as [|e] eqn:Ed; [easy|].
    apply in_flat_map in Hd as (en & Hen & Hd). destruct en; try easy. destruct Hd as [->|[]].
    destruct (collect_in _ _ _ _ C Hen) as (s & Hs & Ms). destruct s as [| |l i [y|]|l i ann rhs|l i ann y]; cbn in Ms; try discriminate.
    + destruct (mean_dimension_rhs k y) as [e'|] eqn:My; [|discriminate]. inversion Ms; subst; clear Ms.
      cbn [de_rhs] in Ed. inversion Ed; subst e'.
      destruct (proj1 (mean_exponents (ops k) _ _) y e My p Hp) as (q & Hq & Eq). eauto.
    + inversion Ms; subst. discriminate Ed.
    + destruct (mean_unit k l i ann rhs); discriminate.
    + destruct (mean_unit_rhs k y); discriminate.
  - apply in_map_iff in Hx as (u & <- & Hu). 
    apply in_flat_map in Hu as (t & Ht & Hu). apply expand_In in Hu as (pr & a & _ & _ & ->).
    apply expand_one_exponents in Hp as (e & D & Hp).
    apply in_flat_map in Ht as (en & Hen & Ht). destruct en as [| | |u'|]; try easy. destruct Ht as [->|[]].
    destruct (collect_in _ _ _ _ C Hen) as (s & Hs & Ms). destruct s as [| |? ? [?|]|l i ann rhs|l i ann y]; cbn in Ms; try discriminate.
    + destruct (mean_dimension_rhs k s); discriminate.
    + destruct (mean_unit k l i ann rhs) as [u|] eqn:Mu; [|discriminate]. inversion Ms; subst; clear Ms.
      unfold mean_unit in Mu. destruct (mean_unit_definition k (bases_of l) rhs) as [def|] eqn:Dd; [|discriminate].
      destruct (at_most_one (symbols_of l)); [|discriminate]. destruct (at_most_one (metrics_of l)); [|discriminate].
      inversion Mu; subst; clear Mu. cbn [ut_definition] in D. subst def.
      unfold mean_unit_definition in Dd. destruct (bases_of l) as [|b [|b2 bs]], rhs as [y|]; try discriminate.
      destruct (mean_unit_rhs k y) as [e'|] eqn:My; [|discriminate]. inversion Dd; subst e'; clear Dd.
      destruct (proj1 (mean_exponents (ops k) _ _) y e My p Hp) as (q & Hq & Eq). eauto.
    + destruct (mean_unit_rhs k y); discriminate.
  - apply in_map_iff in Hx as (c & <- & Hc). cbn [decl_exponents] in Hp.
    apply in_flat_map in Hc as (en & Hen & Hc). destruct en; try easy. destruct Hc as [->|[]].
    destruct (collect_in _ _ _ _ C Hen) as (s & Hs & Ms). destruct s as [| |? ? [?|]|l i ann rhs|l i ann y]; cbn in Ms; try discriminate.
    + destruct (mean_dimension_rhs k s); discriminate.
    + destruct (mean_unit k l i ann rhs); discriminate.
    + destruct (mean_unit_rhs k y) as [e|] eqn:My; [|discriminate]. inversion Ms; subst; clear Ms.
      cbn [ce_rhs] in Hp. destruct (proj1 (mean_exponents (ops k) _ _) y e My p Hp) as (q & Hq & Eq). eauto.
Qed.
Lemma parsed_i64_exponents k ts T : parse_system k ts = Some T -> i64_exponents k T.
Proof.
  intros H. destruct (parse_sound_file _ _ _ H) as (f & W & <-). rewrite parse_print in H by exact W.
  intros x p Hx Hp. destruct (source_exponents k f T H x p Hx Hp) as (s & e & _ & _ & E).
  exact (mean_exp_range k e p E).
Qed.

(** ** C68: an exponent [(a / b)] means the fraction written; the denominator zero is rejected *)

Definition int_lit (z : Z) : slit := SInt (z <? 0) (Z.to_N (Z.abs z)).
Lemma int_lit_signed z : signed (z <? 0) (Z.to_N (Z.abs z)) = z.
Proof. unfold signed. destruct (Z.ltb_spec z 0); lia. Qed.

(** [quantity_type Quantity; dimension_type Dimension; dimension Length; dimension Fraction = Length^(a / b); dimension More = Fraction * Length] *)
Definition fraction_file (a b : Z) : slist stmt := {| sl_trailing := false; sl_items :=
  [SQuantityType [] "Quantity"; SDimensionType [] "Dimension"; SDimension [] "Length" None;
   SDimension [] "Fraction" (Some (SxOne (SfPow (AtIdent "Length") (SxRatio (int_lit a) (int_lit b)))));
   SDimension [] "More" (Some (SxBin (SxOne (SfVal (AtIdent "Fraction"))) ByStar (SfVal (AtIdent "Length"))))] |}.
Lemma fraction_wf a b : wf_file (fraction_file a b).
Proof.
  split; [easy|].
  repeat (first [apply accept_name; reflexivity | apply Forall_nil | constructor | discriminate]).
Qed.

(** The exponent of the dimension [Fraction] as recorded by the parser. *)
Definition fraction_entry (r : ops RationalExponents) : dimension_entry (ops RationalExponents) :=
  {| de_name := "Fraction"; de_rhs := DefExpr (EVal (FPow (Other "Length") r)) |}.

Definition C68_statement : Prop := forall a b, - 2 ^ 63 < a < 2 ^ 63 -> - 2 ^ 63 < b < 2 ^ 63 ->
  match parse_system RationalExponents (print_file (fraction_file a b)) with
  | Some T => b <> 0 /\ exists r, In (fraction_entry r) (u_dimensions T) /\ denom r <> 0 /\ Ratio.num r * b = a * denom r
  | None => b = 0
  end.

Lemma mean_int_lit z : - 2 ^ 63 <= z < 2 ^ 63 -> mean_int (int_lit z) = Some z.
Proof.
  intros H. unfold mean_int, int_lit. rewrite int_lit_signed, is_i64_in.
  now rewrite (proj2 (in_i64_iff z)).
Qed.

(** Everything but [b = 0]: the fraction is recorded, in lowest terms. *)
Theorem C68_fraction_partial : forall a b, - 2 ^ 63 < a < 2 ^ 63 -> - 2 ^ 63 < b < 2 ^ 63 -> b <> 0 ->
  exists T r, parse_system RationalExponents (print_file (fraction_file a b)) = Some T /\
    In (fraction_entry r) (u_dimensions T) /\ denom r <> 0 /\ Ratio.num r * b = a * denom r /\
    Z.gcd (Ratio.num r) (denom r) = 1.
Proof.
  intros a b Ha Hb Nb. rewrite parse_print by apply fraction_wf.
  assert (Ng : Z.gcd a b <> 0) by (intros E; apply Z.gcd_eq_0 in E; lia).
  destruct (rnew_def Checked a b) as [r Hr]; try lia.
  assert (Me : mean_exp RationalExponents (SxRatio (int_lit a) (int_lit b)) = Some r).
  { cbn [mean_exp]. rewrite !mean_int_lit by lia. exact Hr. }
  unfold mean_file, fraction_file. cbn [sl_items collect mean_stmt].
  unfold mean_dimension_rhs. cbn [mean_x mean_f mean_dimension_atom]. rewrite Me.
  cbn [flat_map app mean_op].
  apply rnew_checked_Some in Hr as (Pg & En & Ed & G1).
  eexists _, r. split; [reflexivity|]. split; [right; now left|].
  split; [intros E; rewrite E in Ed; lia|]. split; [|exact G1].
  set (g := Z.gcd a b) in *. clearbody g. subst a b. ring.
Qed.
Print Assumptions C68_fraction_partial.

(** [(0 / 0)] is rejected (the macro panics). *)
Theorem C68_zero_over_zero_partial : parse_system RationalExponents (print_file (fraction_file 0 0)) = None.
Proof.
  rewrite parse_print by apply fraction_wf.
  assert (B : match mean_file RationalExponents (fraction_file 0 0) with Some _ => true | None => false end = false)
    by (vm_compute; reflexivity).
  destruct (mean_file RationalExponents (fraction_file 0 0)); [discriminate B|reflexivity].
Qed.
Print Assumptions C68_zero_over_zero_partial.

(** [(1 / 0)] is accepted by the parser and by the resolver, without any report; and multiplying the
    resulting dimension by [Length] changes nothing: [More] and [Fraction] are the same dimension. *)
Theorem C68_refuted : ~ C68_statement.
Proof.
  intros H. specialize (H 1 0 ltac:(lia) ltac:(lia)). rewrite parse_print in H by apply fraction_wf.
  destruct (mean_file RationalExponents (fraction_file 1 0)) as [T|] eqn:E.
  - destruct H as [H _]. now apply H.
  - assert (B : match mean_file RationalExponents (fraction_file 1 0) with Some _ => true | None => false end = true)
      by (vm_compute; reflexivity).
    rewrite E in B. discriminate.
Qed.
Print Assumptions C68_refuted.

Theorem C68_infinite_exponent_refuted : exists T d,
  parse_system RationalExponents (print_file (fraction_file 1 0)) = Some T /\
  run_dims RationalExponents T "Fraction" = Some (d, []) /\
  run_dims RationalExponents T "More" = Some (d, []) /\ d <> [].
Proof.
  assert (B : match parse_system RationalExponents (print_file (fraction_file 1 0)) with
              | Some T => match run_dims RationalExponents T "Fraction", run_dims RationalExponents T "More" with
                          | Some ([(f, mkRatio 1 0)], []), Some ([(g, mkRatio 1 0)], []) => String.eqb f "length" && String.eqb g "length"
                          | _, _ => false
                          end
              | None => false end = true) by (rewrite parse_print by apply fraction_wf; vm_compute; reflexivity).
  destruct (parse_system RationalExponents (print_file (fraction_file 1 0))) as [T|]; [|discriminate].
  exists T, [("length", mkRatio 1 0)].
  destruct (run_dims RationalExponents T "Fraction") as [[[|[f [[|[]|] []]] [|]] [|]]|]; try discriminate B.
  destruct (run_dims RationalExponents T "More") as [[[|[g [[|[]|] []]] [|]] [|]]|]; try discriminate B.
  apply andb_true_iff in B as [B1 B2]. apply String.eqb_eq in B1, B2. subst. repeat split; auto. discriminate.
Qed.
Print Assumptions C68_infinite_exponent_refuted.

(** ** C60 from the source text *)

(** As [C60_literal], without hypotheses about the template: for every text the macro accepts; with
    rational exponents, if no exponent is written with a non-positive denominator. *)
Theorem C60_source : forall k env f T o ds d,
  wf_file f -> parse_system k (print_file f) = Some T -> (k = RationalExponents -> positive_denominators f) ->
  run_unit_system (ops k) env T = Some (o, ds) ->
  struct_declaration_ok (df_base_dimensions o) = true ->
  (exists y, In y (df_dimensions o) /\ d_dims y = d) \/
  (exists y, In y (df_units o) /\ un_dims y = d) \/
  (exists y, In y (df_constants o) /\ c_dims y = d) ->
  exists v, dim_expr (ops k) (CodegenLiteral.lit k) (df_base_dimensions o) d = Some v /\
    denotes k (df_base_dimensions o) v
      (fun f => match find (fun kv => String.eqb f (fst kv)) d with
                | Some kv => l_val _ (laws k) (snd kv)
                | None => 0%Qc
                end).
Proof.
  intros k env f T o ds d W P Pd R N Hd.
  refine (C60_literal k env T o ds d _ (parsed_i64_exponents k _ T P) R N Hd).
  destruct k; [exact (integer_literals_ok _ T P)|exact (rational_literals_ok f T W (Pd eq_refl) P)].
Qed.
Print Assumptions C60_source.
Example C60_source_applies : exists T o,
  parse_system RationalExponents (print_file (fraction_file 3 6)) = Some T /\
  positive_denominators (fraction_file 3 6) /\
  run_unit_system (ops RationalExponents) env0 T = Some (o, []) /\
  df_base_dimensions o = ["length"%string] /\
  exists y, In y (df_dimensions o) /\ d_name y = "Fraction"%string /\ d_dims y = [("length"%string, mkRatio 1 2)].
Proof.
  assert (B : match parse_system RationalExponents (print_file (fraction_file 3 6)) with
              | Some T => match run_unit_system (ops RationalExponents) env0 T with
                          | Some (o, []) => match df_base_dimensions o, option_map d_dims (find (fun y => String.eqb (d_name y) "Fraction") (df_dimensions o)) with
                              | [g], Some [(f, mkRatio 1 2)] => String.eqb f "length" && String.eqb g "length"
                              | _, _ => false end
                          | _ => false
                          end
              | None => false end = true) by (rewrite parse_print by apply fraction_wf; vm_compute; reflexivity).
  assert (Pd : positive_denominators (fraction_file 3 6)).
  { intros s n d z Hs Hd Hz. assert (d = int_lit 6).
    { cbn [fraction_file sl_items In] in Hs. destruct Hs as [<-|[<-|[<-|[<-|[<-|[]]]]]]; cbn in Hd; try easy.
      - destruct Hd as [Hd|[]]. inversion Hd; subst. reflexivity. }
    subst d. rewrite mean_int_lit in Hz by lia. inversion Hz. lia. }
  destruct (parse_system RationalExponents (print_file (fraction_file 3 6))) as [T|]; [|discriminate].
  destruct (run_unit_system (ops RationalExponents) env0 T) as [[o [|]]|] eqn:Er; try discriminate B.
  exists T, o. split; [reflexivity|]. split; [exact Pd|]. split; [exact Er|].
  destruct (df_base_dimensions o) as [|g [|]]; try discriminate B.
  destruct (find (fun y => String.eqb (d_name y) "Fraction") (df_dimensions o)) as [y|] eqn:Ef; [|discriminate B].
  apply find_some in Ef as [H1 H2]. apply String.eqb_eq in H2. cbn [option_map] in B.
  destruct (d_dims y) as [|[f [n d]] ds] eqn:En; [discriminate B|].
  assert (E : n = 1 /\ d = 2 /\ ds = [] /\ f = "length"%string /\ g = "length"%string).
  { destruct n as [|[]|]; try discriminate B. destruct d as [|[|[]|]|]; try discriminate B.
    destruct ds; [|discriminate B]. apply andb_true_iff in B as [B1 B2]. apply String.eqb_eq in B1, B2. auto. }
  destruct E as (-> & -> & -> & -> & ->). split; [reflexivity|].
  exists y. auto.
Qed.
