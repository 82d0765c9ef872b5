(** * Small rational exponents with a common denominator do not overflow *)
From Coq Require Import String List Bool ZArith QArith Qcanon Qcabs Lia Znumtheory.
From Verif Require Import MachineInt Ratio F64 Magnitude Exponent ExponentFacts SMap Expression DimensionMath Types
  Snake Resolve SystemSpec Setting OverflowSpec OverflowFacts.
Import ListNotations.
Local Close Scope Q_scope.
Local Open Scope Qc_scope.

Lemma parts (q : Qc) : q * ZQc (D q) = ZQc (N q).
Proof.
  apply Qc_is_canon. unfold ZQc, N, D, Qcmult, Q2Qc. cbn [this]. rewrite !Qred_correct.
  unfold Qeq, Qmult, inject_Z. cbn [Qnum Qden this]. rewrite Pos.mul_1_r. lia.
Qed.
Lemma ZQc_mult a b : ZQc a * ZQc b = ZQc (a * b).
Proof. symmetry. apply ZQc_mul. Qed.
Lemma ZQc_plus a b : ZQc a + ZQc b = ZQc (a + b).
Proof. symmetry. apply ZQc_add. Qed.
Lemma D_pos q : (0 < D q)%Z. Proof. reflexivity. Qed.

Section Bound.
Context (d : Z) (Hd : (0 < d)%Z) (Hdd : (d * d < 2 ^ 63)%Z).

(** A multiple of [1/d] has a denominator of at most [d]. *)
Lemma steps_denominator q : in_steps d q -> (D q <= d)%Z.
Proof.
  intros [z Hz]. pose proof (parts q) as P.
  assert (E : (N q * d = z * D q)%Z).
  { apply ZQc_inj. rewrite <- !ZQc_mult, <- P, <- Hz. ring. }
  assert (G : Z.gcd (N q) (D q) = 1%Z).
  { unfold N, D. pose proof (canon q) as C. rewrite <- C. destruct (this q) as [n e]. unfold Qred.
    pose proof (Z.ggcd_gcd n (Zpos e)) as Eg. pose proof (Z.ggcd_correct_divisors n (Zpos e)) as Ed.
    destruct (Z.ggcd n (Zpos e)) as (g & aa & bb). cbn in Eg. destruct Ed as [E1 E2]. cbn [snd fst Qnum Qden].
    assert (Pg : (0 < g)%Z). { pose proof (Z.gcd_nonneg n (Zpos e)). assert (g <> 0%Z) by (intros ->; cbn in E2; discriminate). lia. }
    assert (Pb : (0 < bb)%Z) by nia. rewrite Z2Pos.id by exact Pb.
    assert (K : (Z.gcd (g * aa) (g * bb) = g)%Z) by (rewrite <- E1, <- E2; lia).
    rewrite Z.gcd_mul_mono_l_nonneg in K by lia. nia. }
  assert (Dv : (D q | d)%Z).
  { apply (Z.gauss (D q) (N q) d); [exists z; lia|]. rewrite Z.gcd_comm. exact G. }
  apply Z.divide_pos_le; [exact Hd|exact Dv].
Qed.
Lemma abs_i64 z : (Z.abs z < 2 ^ 63)%Z -> i64 z.
Proof. unfold i64. lia. Qed.
Lemma ZQc_abs a : Qcabs (ZQc a) = ZQc (Z.abs a).
Proof.
  destruct (Z.abs_spec a) as [[H ->]|[H ->]].
  - apply Qcabs_pos. rewrite <- ZQc_0'. now apply ZQc_le.
  - rewrite Qcabs_neg; [symmetry; apply ZQc_neg|]. rewrite <- ZQc_0'. apply ZQc_le. lia.
Qed.
Lemma Dd (e : Z) : (0 < e <= d * d)%Z -> i64 e.
Proof. intros H. apply abs_i64. lia. Qed.

(** An integer [n = x * e] with [0 < e <= d^2] fits if [|x| d^2 < 2^63]. *)
Lemma product_bound x e n : (0 < e <= d * d)%Z -> ZQc n = x * ZQc e -> Qcabs x * ZQc (d * d) < ZQc (2 ^ 63) -> i64 n.
Proof.
  intros He En Hx. apply abs_i64, ZQc_lt. rewrite <- ZQc_abs, En, Qcabs_Qcmult, (ZQc_abs e).
  rewrite Z.abs_eq by lia. eapply Qcle_lt_trans; [|exact Hx].
  rewrite (Qcmult_comm (Qcabs x)), (Qcmult_comm (Qcabs x)). apply Qcmult_le_compat_r; [now apply ZQc_le|apply Qcabs_nonneg].
Qed.

Definition light (w : Qc) : Prop := w * ZQc (d * d) < ZQc (2 ^ 63).
Lemma light_le a b : a <= b -> light b -> light a.
Proof.
  intros H L. eapply Qcle_lt_trans; [|exact L]. apply Qcmult_le_compat_r; [exact H|]. rewrite <- ZQc_0'. apply ZQc_le. nia.
Qed.

Lemma steps_plus x y : in_steps d x -> in_steps d y -> in_steps d (x + y).
Proof. intros [a Ha] [b Hb]. exists (a + b)%Z. rewrite <- ZQc_plus, <- Ha, <- Hb. ring. Qed.
Lemma steps_opp x : in_steps d x -> in_steps d (- x).
Proof. intros [a Ha]. exists (- a)%Z. rewrite ZQc_neg, <- Ha. ring. Qed.

Lemma sum_ok x y : in_steps d x -> in_steps d y -> light (Qcabs x + Qcabs y) -> sum_fits RationalExponents x y.
Proof.
  intros Sx Sy L. pose proof (steps_denominator x Sx) as Bx. pose proof (steps_denominator y Sy) as By.
  pose proof (D_pos x) as Px. pose proof (D_pos y) as Py.
  assert (B : (0 < D x * D y <= d * d)%Z) by nia. split; [|split; [|split]].
  - apply (product_bound x (D x * D y)); [exact B| |].
    + rewrite <- !ZQc_mult, <- (parts x). ring.
    + apply (light_le _ (Qcabs x + Qcabs y)); [|exact L]. rewrite <- (Qcplus_0_r (Qcabs x)) at 1.
      apply Qcplus_le_compat; [apply Qcle_refl|apply Qcabs_nonneg].
  - apply (product_bound y (D x * D y)); [exact B| |].
    + rewrite <- !ZQc_mult, <- (parts y). ring.
    + apply (light_le _ (Qcabs x + Qcabs y)); [|exact L]. rewrite <- (Qcplus_0_l (Qcabs y)) at 1.
      apply Qcplus_le_compat; [apply Qcabs_nonneg|apply Qcle_refl].
  - apply (product_bound (x + y) (D x * D y)); [exact B| |].
    + rewrite <- !ZQc_plus, <- !ZQc_mult, <- (parts x), <- (parts y). ring.
    + apply (light_le _ (Qcabs x + Qcabs y)); [|exact L]. apply Qcabs_triangle.
  - now apply Dd.
Qed.
Lemma opposite_ok x : in_steps d x -> light (Qcabs x) -> opposite_fits RationalExponents x.
Proof.
  intros Sx L. pose proof (steps_denominator x Sx) as Bx. pose proof (D_pos x) as Px.
  apply (product_bound (- x) (D x)); [nia| |].
  - rewrite ZQc_neg, <- (parts x). ring.
  - rewrite Qcabs_opp. exact L.
Qed.
Lemma product_ok x p : in_steps d x -> in_steps d p -> light (Qcabs (x * p)) -> product_fits RationalExponents x p.
Proof.
  intros Sx Sp L. pose proof (steps_denominator x Sx) as Bx. pose proof (steps_denominator p Sp) as Bp.
  pose proof (D_pos x) as Px. pose proof (D_pos p) as Pp.
  assert (B : (0 < D x * D p <= d * d)%Z) by nia. split; [|now apply Dd].
  apply (product_bound (x * p) (D x * D p)); [exact B| |exact L].
  rewrite <- !ZQc_mult, <- (parts x), <- (parts p). ring.
Qed.

Section Weight.
Notation km := RationalExponents.
Notation IR := (ops RationalExponents).
Context {A : Type} (of : A -> degrees).
Lemma rweight_bound :
  (forall e : expr A IR, forall b, Qcabs (degree km of e b) <= weight km of e b) /\
  (forall f : factor A IR, forall b, Qcabs (fdegree km of f b) <= fweight km of f b).
Proof.
  apply expr_factor_ind.
  - intros f IH b. exact (IH b).
  - intros l IHl r IHr op b. specialize (IHl b). specialize (IHr b).
    change (weight km of (EBin l r op) b) with (weight km of l b + fweight km of r b).
    destruct op.
    + change (degree km of (EBin l r OMul) b) with (degree km of l b + fdegree km of r b).
      eapply Qcle_trans; [apply Qcabs_triangle|]. now apply Qcplus_le_compat.
    + change (degree km of (EBin l r ODiv) b) with (degree km of l b - fdegree km of r b).
      unfold Qcminus. eapply Qcle_trans; [apply Qcabs_triangle|]. rewrite Qcabs_opp. now apply Qcplus_le_compat.
  - intros t b. apply Qcle_refl.
  - intros t p b. apply Qcle_refl.
  - intros e IH b. exact (IH b).
Qed.
Lemma rsteps :
  (forall e : expr A IR, expr_in_steps km d of e -> forall b, in_steps d (degree km of e b)) /\
  (forall f : factor A IR, factor_in_steps km d of f -> forall b, in_steps d (fdegree km of f b)).
Proof.
  apply expr_factor_ind.
  - intros f IH H b. exact (IH H b).
  - intros l IHl r IHr op [Hl Hr] b. specialize (IHl Hl b). specialize (IHr Hr b). destruct op.
    + change (degree km of (EBin l r OMul) b) with (degree km of l b + fdegree km of r b). now apply steps_plus.
    + change (degree km of (EBin l r ODiv) b) with (degree km of l b + - fdegree km of r b). now apply steps_plus, steps_opp.
  - intros t H b. exact (H b).
  - intros t p [_ H] b. exact (proj2 (H b)).
  - intros e IH H b. exact (IH H b).
Qed.
Lemma light_fits :
  (forall e : expr A IR, expr_in_steps km d of e -> (forall b, light (weight km of e b)) -> degree_fits km of e) /\
  (forall f : factor A IR, factor_in_steps km d of f -> (forall b, light (fweight km of f b)) -> fdegree_fits km of f).
Proof.
  apply expr_factor_ind.
  - intros f IH Hs H. exact (IH Hs H).
  - intros l IHl r IHr op [Hls Hrs] H.
    assert (E : forall b, weight km of (EBin l r op) b = weight km of l b + fweight km of r b) by reflexivity.
    assert (Nl : forall b, 0 <= weight km of l b) by (intros b; eapply Qcle_trans; [apply Qcabs_nonneg|apply (proj1 rweight_bound)]).
    assert (Nr : forall b, 0 <= fweight km of r b) by (intros b; eapply Qcle_trans; [apply Qcabs_nonneg|apply (proj2 rweight_bound)]).
    assert (Hl : forall b, light (weight km of l b)).
    { intros b. apply (light_le _ _) with (2 := H b). rewrite E, <- (Qcplus_0_r (weight km of l b)) at 1.
      apply Qcplus_le_compat; [apply Qcle_refl|apply Nr]. }
    assert (Hr : forall b, light (fweight km of r b)).
    { intros b. apply (light_le _ _) with (2 := H b). rewrite E, <- (Qcplus_0_l (fweight km of r b)) at 1.
      apply Qcplus_le_compat; [apply Nl|apply Qcle_refl]. }
    split; [now apply IHl|]. split; [now apply IHr|]. intros b.
    pose proof (proj1 rsteps l Hls b) as Sl. pose proof (proj2 rsteps r Hrs b) as Sr.
    pose proof (proj1 rweight_bound l b) as Wl. pose proof (proj2 rweight_bound r b) as Wr.
    assert (L : light (Qcabs (degree km of l b) + Qcabs (fdegree km of r b))).
    { apply (light_le _ _) with (2 := H b). rewrite E. now apply Qcplus_le_compat. }
    destruct op.
    + now apply sum_ok.
    + split; [apply opposite_ok; [exact Sr|now apply (light_le _ _ Wr)]|].
      apply sum_ok; [exact Sl|now apply steps_opp|]. now rewrite Qcabs_opp.
  - intros t Hs H. exact Logic.I.
  - intros t p [Hp Hs] H.
    change (forall b, product_fits km (of t b) (l_val IR (laws km) p)). intros b.
    apply product_ok; [exact (proj1 (Hs b))|exact Hp|exact (H b)].
  - intros e IH Hs H. exact (IH Hs H).
Qed.
End Weight.

Lemma light_declaration V (x : SystemSpec.decl (ops RationalExponents)) :
  declaration_in_steps RationalExponents d V x ->
  (forall b, declaration_weight RationalExponents V x b * ZQc (d * d) < ZQc (2 ^ 63)) -> declaration_fits RationalExponents V x.
Proof.
  destruct x as [y|u|c]; cbn [declaration_in_steps declaration_weight declaration_fits].
  - destruct (de_rhs y); [intros; exact Logic.I|]. apply light_fits.
  - destruct (ue_definition u); [intros; exact Logic.I|]. apply light_fits.
  - apply light_fits.
Qed.
End Bound.
