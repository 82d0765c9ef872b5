(** * Adding declarations to a system *)
From Coq Require Import String List Bool ZArith Lia.
From Verif Require Import MachineInt Ratio F64 Magnitude Exponent ExponentFacts SMap Expression DimensionMath Types ExpansionSpec
  Resolve ResolveLoop ResolveChecks SystemSpec ResolveFacts ResolveEquations Expansion Setting SystemFacts AccuracyFacts.
Import ListNotations.
Local Open Scope list_scope.

Section Extend.
Context (X : exp_ops) (L : exp_laws X) (env : fenv).
Notation sys := (unresolved X (unit_entry X)).
Context (S1 S2 : sys) (o1 o2 : defs X).
Hypothesis G1 : generated_ok X S1.
Hypothesis G2 : generated_ok X S2.
Hypothesis R1 : resolve X env S1 = Some (o1, []).
Hypothesis R2 : resolve X env S2 = Some (o2, []).
Hypothesis Sub : incl (decls S1) (decls S2).

Lemma extend_all : incl (df_dimensions o1) (df_dimensions o2) /\ incl (df_units o1) (df_units o2) /\
  incl (df_constants o1) (df_constants o2).
Proof.
  destruct (accepted_all X L env S1 o1 G1 R1) as (W1 & res1 & d1 & _ & H1 & -> & A1).
  destruct (accepted_all X L env S2 o2 G2 R2) as (W2 & res2 & d2 & _ & H2 & -> & A2).
  pose proof (resolved_wf X env _ _ _ H1) as Wr1. pose proof (resolved_wf X env _ _ _ H2) as Wr2.
  assert (K : forall n, grounded S1 n -> lk_of X res1 n = lk_of X res2 n).
  { intros n Gr. induction Gr as [x Hx Hm IH].
    destruct (A1 x Hx) as (r1 & E1 & I1 & V1 & _). destruct (A2 x (Sub x Hx)) as (r2 & E2 & I2 & V2 & _).
    unfold lk_of. rewrite E1, E2.
    rewrite (eval_look_ext X env (lk_of X res1) (lk_of X res2)) in V1; [congruence|].
    intros m Hm'. apply IH. now apply mentions_item. }
  assert (E : forall n r1, sget n res1 = Some r1 -> exists r2, sget n res2 = Some r2 /\ ri_item r1 = ri_item r2 /\ ri_dims r1 = ri_dims r2).
  { intros n r1 Hr. destruct (entry_decl X env S1 res1 d1 n r1 H1 Hr) as (x & Hx & Ix & <-).
    destruct (A2 x (Sub x Hx)) as (r2 & E2 & I2 & _). exists r2. split; [exact E2|]. split; [congruence|].
    pose proof (K _ (wf_grounded _ _ W1 x Hx)) as Kx. unfold lk_of in Kx. now rewrite Hr, E2 in Kx. }
  cbn [out_of df_dimensions df_units df_constants]. split; [|split]; intros y Hy.
  - apply (get_dimensions_In X _ _ Wr1) in Hy as (n & r & d & Hn & Ht & ->). destruct (E n r Hn) as (r2 & E2 & Ei & Ed).
    apply (get_dimensions_In X _ _ Wr2). exists n, r2, d. rewrite <- Ei, <- Ed. auto.
  - apply (get_units_In X _ _ Wr1) in Hy as (n & r & d & Hn & Ht & ->). destruct (E n r Hn) as (r2 & E2 & Ei & Ed).
    apply (get_units_In X _ _ Wr2). exists n, r2, d. rewrite <- Ei, <- Ed. auto.
  - apply (get_constants_In X _ _ Wr1) in Hy as (n & r & d & Hn & Ht & ->). destruct (E n r Hn) as (r2 & E2 & Ei & Ed).
    apply (get_constants_In X _ _ Wr2). exists n, r2, d. rewrite <- Ei, <- Ed. auto.
Qed.
End Extend.
