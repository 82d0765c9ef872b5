(** * Exactly when the properties of the definition language that fail do hold: C57, C68 *)
From Coq Require Import String Ascii List Bool ZArith Lia Arith.
From Verif Require Import MachineInt Ratio RatioFacts F64 Magnitude Exponent Expression Types Resolve SystemSpec Setting Parse
  Grammar ParseFacts PropertiesParse PropertiesExponents.
Import ListNotations.
Close Scope Q_scope. Close Scope Qc_scope. Close Scope R_scope.
Local Open Scope string_scope.
Local Open Scope list_scope.

(** ** C57 *)
Lemma entry_consumes k ts e r : p_entry k ts = Some (e, r) -> List.length r < List.length ts.
Proof.
  intros H. apply p_entry_sound in H as (s & _ & -> & _). rewrite app_length.
  assert (N : print_stmt s <> []).
  { destruct s; cbn [print_stmt]; intros H; apply app_eq_nil in H as [_ H]; discriminate H. }
  destruct (print_stmt s); [easy|]. cbn. lia.
Qed.
Lemma punct_consumes c ts u r : p_punct c ts = Some (u, r) -> List.length r < List.length ts.
Proof. intros H. apply p_punct_iff in H as ->. cbn. lia. Qed.
(** The number of steps granted does not matter. *)
Lemma terminated_fuel {A} (p : parser A) sep : (forall ts a r, p ts = Some (a, r) -> List.length r < List.length ts) ->
  forall ts n m, List.length ts < n -> List.length ts < m -> p_terminated_n n p sep ts = p_terminated_n m p sep ts.
Proof.
  intros Hp. assert (G : forall N ts n m, List.length ts < N -> List.length ts < n -> List.length ts < m ->
    p_terminated_n n p sep ts = p_terminated_n m p sep ts).
  { induction N as [|N IH]; [lia|]. intros ts [|n] [|m] L1 L2 L3; try lia. cbn [p_terminated_n]. destruct ts as [|t ts]; [reflexivity|].
    destruct (p (t :: ts)) as [[a r]|] eqn:E; [|reflexivity]. cbv beta iota. apply Hp in E. destruct r as [|t1 r]; [reflexivity|].
    destruct (p_punct sep (t1 :: r)) as [[u r']|] eqn:E1; [|reflexivity]. cbv beta iota. apply punct_consumes in E1.
    rewrite (IH r' n m) by lia. reflexivity. }
  intros ts n m. apply (G (S (List.length ts))). lia.
Qed.

(** An attribute without arguments: [#[symbol]] or [#[symbol()]]. *)
Definition without_arguments (a : attribute) : Prop := at_inner a = None \/ at_inner a = Some [].

(** Attributes before any statement but [unit], anywhere in a system: if none has arguments they change
    nothing, otherwise the system is rejected. *)
Theorem C57_exactly : forall k before attrs w r,
  Forall wf_stmt before -> In w other_keywords ->
  let text := fun attributes => flat_map (fun s => print_stmt s ++ [TPunct ";"]) before ++
                flat_map print_attr attributes ++ TIdent w :: r in
  (Forall without_arguments attrs -> parse_system k (text attrs) = parse_system k (text [])) /\
  (~ Forall without_arguments attrs -> parse_system k (text attrs) = None).
Proof.
  intros k before attrs w r Wb Hw text.
  assert (Sil : forall a, dropped_silently a = true <-> without_arguments a).
  { intros a. unfold dropped_silently, without_arguments. destruct (at_inner a) as [[|t l]|]; intuition discriminate. }
  split.
  - intros F.
    assert (D : forallb dropped_silently attrs = true).
    { apply forallb_forall. intros a Ha. apply Sil. rewrite Forall_forall in F. now apply F. }
    assert (P : forall l, forallb dropped_silently l = true ->
      p_entry k (flat_map print_attr l ++ TIdent w :: r) = p_entry k (flat_map print_attr [] ++ TIdent w :: r)).
    { intros l Dl. unfold p_entry. rewrite !p_attributes_ok by reflexivity. cbv beta iota zeta. rewrite Dl. cbn [forallb peek_kw].
      repeat (destruct Hw as [<-|Hw]; [reflexivity|]). destruct Hw. }
    unfold parse_system. assert (E : p_terminated (p_entry k) ";" (text attrs) = p_terminated (p_entry k) ";" (text [])); [|now rewrite E].
    unfold p_terminated.
    assert (K : forall n, List.length (text attrs) < n -> List.length (text []) < n ->
      p_terminated_n n (p_entry k) ";" (text attrs) = p_terminated_n n (p_entry k) ";" (text [])).
    { unfold text. clear text. induction before as [|s before IH]; intros n L1 L2; (destruct n as [|n]; [lia|]).
      - cbn [flat_map app] in *. cbn [p_terminated_n]. pose proof (P attrs D) as PD. cbn [flat_map app] in PD.
        destruct (flat_map print_attr attrs ++ TIdent w :: r) as [|t0 l0] eqn:Z; [now apply app_eq_nil in Z as [_ Z]|]. rewrite <- Z in *.
        rewrite PD. reflexivity.
      - inversion Wb as [|s' b' Ws Wb']; subst. cbn [flat_map] in *. rewrite <- !app_assoc in *. cbn [app] in *.
        assert (N : print_stmt s <> []).
        { destruct s; cbn [print_stmt]; intros H; apply app_eq_nil in H as [_ H]; discriminate H. }
        cbn [p_terminated_n].
        destruct (print_stmt s ++ TPunct ";" :: flat_map (fun s => print_stmt s ++ [TPunct ";"]) before ++ flat_map print_attr attrs ++ TIdent w :: r) eqn:Z1; [now apply app_eq_nil in Z1 as [Z1 _]|].
        destruct (print_stmt s ++ TPunct ";" :: flat_map (fun s => print_stmt s ++ [TPunct ";"]) before ++ TIdent w :: r) eqn:Z2; [now apply app_eq_nil in Z2 as [Z2 _]|].
        rewrite <- Z1, <- Z2 in *. clear Z1 Z2.
        rewrite !p_entry_ok; [|exact Ws|right; eauto|exact Ws|right; eauto].
        destruct (mean_stmt k s) as [e|]; [|reflexivity]. cbv beta iota. rewrite !p_punct_ok. cbv beta iota.
        rewrite !app_length in L1, L2. cbn [List.length] in L1, L2. rewrite !app_length in L1, L2.
        rewrite (IH Wb' n); [reflexivity| |]; cbn [flat_map app]; rewrite !app_length; cbn [List.length] in *; rewrite ?app_length in *; cbn [List.length] in *; lia. }
    set (M := S (List.length (text attrs)) + S (List.length (text []))).
    rewrite (terminated_fuel _ ";" (entry_consumes k) (text attrs) _ M) by (unfold M; lia).
    rewrite (terminated_fuel _ ";" (entry_consumes k) (text []) _ M) by (unfold M; lia).
    apply K; unfold M; lia.
  - intros F. assert (E : Exists (fun a => ~ without_arguments a) attrs).
    { apply neg_Forall_Exists_neg; [|exact F]. intros a. destruct (dropped_silently a) eqn:Da; [left; now apply Sil|right].
      intros H. apply Sil in H. congruence. }
    apply Exists_exists in E as (a & Ha & Na). unfold without_arguments in Na.
    destruct (at_inner a) as [[|t inner]|] eqn:Ei; try tauto.
    exact (C57_attributes_with_arguments_partial k before attrs a t inner w r Wb Ha Ei Hw).
Qed.
Print Assumptions C57_exactly.
Example C57_exactly_applies :
  Forall without_arguments [{| at_name := ASymbol; at_inner := None |}; {| at_name := ABase; at_inner := Some [] |}] /\
  ~ Forall without_arguments [{| at_name := ASymbol; at_inner := None |}; {| at_name := ABase; at_inner := Some [TIdent "m"] |}] /\
  Forall wf_stmt [SDimension [] "Length" None].
Proof.
  split; [apply Forall_cons; [now left|apply Forall_cons; [now right|constructor]]|]. split.
  - intros H. inversion H as [|? ? _ H1]; subst. inversion H1 as [|? ? H2 _]; subst. destruct H2 as [H2|H2]; discriminate H2.
  - repeat (first [apply accept_name; reflexivity | apply Forall_nil | constructor | discriminate]).
Qed.

(** ** C68: a denominator zero is accepted unless the numerator is zero, too, and read as one of two
    exponents, [1 / 0] and [-1 / 0], according to the sign of the numerator. *)
Local Open Scope Z_scope.
Theorem C68_zero_denominator : forall a, - 2 ^ 63 < a < 2 ^ 63 -> a <> 0 ->
  exists T, parse_system RationalExponents (print_file (fraction_file a 0)) = Some T /\
    In (fraction_entry (mkRatio (Z.sgn a) 0)) (u_dimensions T).
Proof.
  intros a Ha Na. rewrite parse_print by apply fraction_wf.
  assert (Ng : Z.gcd a 0 <> 0) by (intros E; apply Z.gcd_eq_0 in E; lia).
  destruct (rnew_def Checked a 0) as [r Hr]; try lia.
  assert (Me : mean_exp RationalExponents (SxRatio (int_lit a) (int_lit 0)) = Some r).
  { cbn [mean_exp]. rewrite !mean_int_lit by lia. exact Hr. }
  unfold mean_file, fraction_file. cbn [sl_items collect mean_stmt].
  unfold mean_dimension_rhs. cbn [mean_x mean_f mean_dimension_atom]. rewrite Me.
  cbn [flat_map app mean_op].
  apply rnew_checked_Some in Hr as (Pg & En & Ed & G1). rewrite Z.gcd_0_r in *.
  assert (r = mkRatio (Z.sgn a) 0).
  { destruct r as [rn rd]. cbn [Ratio.num denom] in *. assert (rd = 0) by nia. subst rd. rewrite Z.gcd_0_r in G1. f_equal. nia. }
  subst r. eexists. split; [reflexivity|]. right; now left.
Qed.
Print Assumptions C68_zero_denominator.

(** So what an exponent [(a / b)] means, for all [a] and [b]. *)
Theorem C68_exactly : forall a b, - 2 ^ 63 < a < 2 ^ 63 -> - 2 ^ 63 < b < 2 ^ 63 ->
  (parse_system RationalExponents (print_file (fraction_file a b)) = None <-> a = 0 /\ b = 0) /\
  forall T, parse_system RationalExponents (print_file (fraction_file a b)) = Some T ->
    exists r, In (fraction_entry r) (u_dimensions T) /\ Ratio.num r * b = a * denom r /\
      Z.gcd (Ratio.num r) (denom r) = 1 /\ Z.sgn (Ratio.num r) = Z.sgn a /\ Z.sgn (denom r) = Z.sgn b.
Proof.
  intros a b Ha Hb. rewrite parse_print by apply fraction_wf.
  destruct (Z.eq_dec (Z.gcd a b) 0) as [G0|Ng].
  - apply Z.gcd_eq_0 in G0 as [-> ->]. pose proof C68_zero_over_zero_partial as Z0. rewrite parse_print in Z0 by apply fraction_wf.
    rewrite Z0. split; [easy|]. discriminate.
  - destruct (rnew_def Checked a b) as [r Hr]; try lia.
    assert (Me : mean_exp RationalExponents (SxRatio (int_lit a) (int_lit b)) = Some r).
    { cbn [mean_exp]. rewrite !mean_int_lit by lia. exact Hr. }
    unfold mean_file, fraction_file. cbn [sl_items collect mean_stmt].
    unfold mean_dimension_rhs. cbn [mean_x mean_f mean_dimension_atom]. rewrite Me.
    cbn [flat_map app mean_op].
    apply rnew_checked_Some in Hr as (Pg & En & Ed & G1).
    split; [split; [discriminate|]|].
    + intros [-> ->]. now destruct Ng.
    + intros T E. assert (ET : In (fraction_entry r) (u_dimensions T)).
      { revert E. clear. intros E. injection E as <-. right; now left. }
      exists r. split; [exact ET|]. set (g := Z.gcd a b) in *. clearbody g.
      split; [rewrite En, Ed; ring|]. split; [exact G1|].
      rewrite En, Ed, !Z.sgn_mul, (Z.sgn_pos g Pg). split; ring.
Qed.
Print Assumptions C68_exactly.
Example C68_exactly_applies : exists T, parse_system RationalExponents (print_file (fraction_file (-6) 4)) = Some T /\
  In (fraction_entry (mkRatio (-3) 2)) (u_dimensions T).
Proof.
  destruct (C68_exactly (-6) 4 ltac:(lia) ltac:(lia)) as [N E].
  destruct (parse_system RationalExponents (print_file (fraction_file (-6) 4))) as [T|]; [|exfalso; destruct (proj1 N eq_refl); lia].
  exists T. split; [reflexivity|]. destruct (E T eq_refl) as (r & Hr & P & G & S1 & S2).
  assert (r = mkRatio (-3) 2); [|now subst].
  destruct r as [n d]. cbn [Ratio.num denom] in *. assert (Q : 2 * n = - 3 * d) by lia.
  assert (exists z, d = 2 * z /\ n = - 3 * z) as (z & -> & ->) by (exists (n + 2 * d); lia).
  replace (-3 * z) with (z * -3) in G by ring. replace (2 * z) with (z * 2) in * by ring. rewrite Z.gcd_mul_mono_l in G.
  replace (Z.gcd (-3) 2) with 1 in G by reflexivity. f_equal; lia.
Qed.
