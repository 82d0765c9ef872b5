(** * Proofs about the [Ratio] model: exactness, canonicity, overflow. *)
From Coq Require Import ZArith Znumtheory QArith Lia Bool.
From Verif Require Import MachineInt Ratio.
Local Open Scope Z_scope.

(** ** The gcd loop *)

Lemma gcd_rem a b : b <> 0 -> Z.gcd b (Z.rem a b) = Z.gcd a b.
Proof.
  intros Hb. rewrite Z.rem_eq by auto. rewrite (Z.gcd_comm a b).
  replace (a - b * Z.quot a b) with (a + (- (Z.quot a b)) * b) by ring.
  now rewrite Z.gcd_add_mult_diag_r.
Qed.

Lemma gcd_loop_sound fuel a b g : gcd_loop fuel a b = Some g -> Z.abs g = Z.gcd a b.
Proof.
  revert a b. induction fuel as [|f IH]; intros a b H; [discriminate|]. cbn [gcd_loop] in H.
  destruct (Z.eqb_spec b 0) as [E|Hb]; [subst b|].
  - inversion H; subst. now rewrite Z.gcd_0_r.
  - destruct (i64_rem a b) as [r|] eqn:E; [|discriminate].
    apply i64_rem_Some in E as [_ ->].
    rewrite (IH _ _ H). now apply gcd_rem.
Qed.

Lemma quot_abs_le a b : b <> 0 -> Z.abs (Z.quot a b) <= Z.abs a.
Proof.
  intros Hb. rewrite <- Z.quot_abs by auto.
  rewrite Z.quot_div_nonneg by lia. apply Z.div_le_upper_bound; nia.
Qed.

Lemma i64_rem_def a b : Z.abs a < 2 ^ 63 -> b <> 0 -> i64_rem a b = Some (Z.rem a b).
Proof.
  intros Ha Hb. unfold i64_rem. destruct (Z.eqb_spec b 0); [lia|].
  replace (in_i64 (Z.quot a b)) with true; auto. symmetry. apply in_i64_iff.
  pose proof (quot_abs_le a b Hb). lia.
Qed.

Lemma rem_abs a b : b <> 0 -> Z.abs (Z.rem a b) = Z.abs a mod Z.abs b.
Proof. intros. rewrite <- Z.rem_abs by auto. apply Z.rem_mod_nonneg; lia. Qed.

(** Two rounds of Euclid at least halve the second argument. *)
Lemma mod_halves b r : 0 < r < b -> 2 * (b mod r) < b.
Proof.
  intros H. pose proof (Z.mod_pos_bound b r ltac:(lia)).
  destruct (Z.le_gt_cases (2 * r) b); [lia|].
  assert (b / r = 1).
  { apply Z.le_antisymm.
    - assert (b / r < 2) by (apply Z.div_lt_upper_bound; lia). lia.
    - apply Z.div_le_lower_bound; lia. }
  pose proof (Z.div_mod b r). nia.
Qed.

Lemma gcd_loop_enough (k : nat) a b :
  Z.abs a < 2 ^ 63 -> Z.abs b < 2 ^ 63 -> Z.abs b < 2 ^ Z.of_nat k ->
  exists g, gcd_loop (2 * k + 1) a b = Some g.
Proof.
  revert a b. induction k as [|k IH]; intros a b Ha Hb Hk.
  - assert (b = 0) by (change (2 ^ Z.of_nat 0) with 1 in Hk; lia). subst. simpl. eauto.
  - replace (2 * S k + 1)%nat with (S (S (2 * k + 1))) by lia.
    cbn [gcd_loop].
    destruct (Z.eqb_spec b 0); [eauto|].
    rewrite i64_rem_def by auto.
    pose proof (rem_abs a b ltac:(auto)) as Hr1.
    pose proof (Z.mod_pos_bound (Z.abs a) (Z.abs b) ltac:(lia)).
    destruct (Z.eqb_spec (Z.rem a b) 0) as [E|E]; [eauto|].
    rewrite i64_rem_def by (auto; lia).
    pose proof (rem_abs b (Z.rem a b) E) as Hr2.
    pose proof (mod_halves (Z.abs b) (Z.abs (Z.rem a b)) ltac:(lia)).
    apply IH; try lia.
    rewrite Nat2Z.inj_succ, Z.pow_succ_r in Hk by lia. lia.
Qed.

Lemma gcd_loop_more f f' a b g :
  gcd_loop f a b = Some g -> (f <= f')%nat -> gcd_loop f' a b = Some g.
Proof.
  revert f' a b. induction f as [|f IH]; intros f' a b H Hle; [discriminate|].
  destruct f' as [|f']; [lia|]. cbn [gcd_loop] in *.
  destruct (b =? 0); auto. destruct (i64_rem a b); [|discriminate].
  apply IH; auto; lia.
Qed.

Lemma gcd_def m a b :
  Z.abs a < 2 ^ 63 -> Z.abs b < 2 ^ 63 -> gcd m a b = Some (Z.gcd a b).
Proof.
  intros Ha Hb. destruct (gcd_loop_enough 63 a b) as [g Hg]; auto.
  apply (gcd_loop_more _ 200) in Hg; [|lia].
  unfold gcd. rewrite Hg. pose proof (gcd_loop_sound _ _ _ _ Hg) as Hs.
  unfold i64_abs. rewrite Hs. apply fit_in. apply in_i64_iff.
  pose proof (Z.gcd_nonneg a b).
  destruct (Z.eq_dec a 0) as [->|Ha0].
  - rewrite Z.gcd_0_l. lia.
  - pose proof (Z.divide_abs_r (Z.gcd a b) a) as Hd.
    assert (Z.gcd a b <= Z.abs a); [|lia].
    apply Z.divide_pos_le; [lia|]. apply Hd. apply Z.gcd_divide_l.
Qed.

Lemma gcd_checked_Some a b g : gcd Checked a b = Some g -> g = Z.gcd a b.
Proof.
  unfold gcd. destruct (gcd_loop 200 a b) as [g'|] eqn:E; [|discriminate].
  intros H. apply fit_checked_Some in H as [-> _]. eapply gcd_loop_sound; eauto.
Qed.

Lemma gcd_checked_agrees m a b g : gcd Checked a b = Some g -> gcd m a b = Some g.
Proof.
  unfold gcd. destruct (gcd_loop 200 a b); auto. apply fit_checked_agrees.
Qed.

(** ** [new] *)

Lemma quot_exact a g x : g <> 0 -> a = x * g -> Z.quot a g = x.
Proof. intros Hg ->. now apply Z.quot_mul. Qed.

Lemma gcd_parts a b :
  Z.gcd a b <> 0 ->
  exists x y, a = x * Z.gcd a b /\ b = y * Z.gcd a b /\ Z.gcd x y = 1.
Proof.
  intros Hg. destruct (Z.gcd_divide_l a b) as [x Hx], (Z.gcd_divide_r a b) as [y Hy].
  exists x, y. repeat split; auto.
  pose proof (Z.gcd_nonneg a b). set (g := Z.gcd a b) in *.
  assert (Hm : Z.gcd (g * x) (g * y) = Z.abs g * Z.gcd x y) by apply Z.gcd_mul_mono_l.
  replace (g * x) with a in Hm by (rewrite Hx at 1; ring).
  replace (g * y) with b in Hm by (rewrite Hy at 1; ring).
  fold g in Hm. pose proof (Z.gcd_nonneg x y). nia.
Qed.

Lemma rnew_checked_Some n d r :
  rnew Checked n d = Some r ->
  0 < Z.gcd n d /\ n = num r * Z.gcd n d /\ d = denom r * Z.gcd n d /\
  Z.gcd (num r) (denom r) = 1.
Proof.
  unfold rnew. destruct (gcd Checked n d) as [g|] eqn:Eg; [|discriminate].
  apply gcd_checked_Some in Eg. subst g.
  destruct (i64_div n _) as [n'|] eqn:En; [|discriminate].
  destruct (i64_div d _) as [d'|] eqn:Ed; [|discriminate].
  intros H. inversion H; subst; simpl; clear H.
  apply i64_div_Some in En as (Hg & -> & _), Ed as (_ & -> & _).
  pose proof (Z.gcd_nonneg n d).
  destruct (gcd_parts n d Hg) as (x & y & Hx & Hy & Hxy).
  rewrite (quot_exact n _ x), (quot_exact d _ y) by auto. repeat split; auto; lia.
Qed.

Lemma rnew_def m n d :
  Z.abs n < 2 ^ 63 -> Z.abs d < 2 ^ 63 -> Z.gcd n d <> 0 -> exists r, rnew m n d = Some r.
Proof.
  intros Hn Hd Hg. unfold rnew. rewrite gcd_def by auto.
  assert (Hq : forall z, Z.abs z < 2 ^ 63 -> exists q, i64_div z (Z.gcd n d) = Some q).
  { intros z Hz. unfold i64_div. destruct (Z.eqb_spec (Z.gcd n d) 0); [lia|].
    replace (in_i64 (Z.quot z (Z.gcd n d))) with true; eauto.
    symmetry. apply in_i64_iff. pose proof (quot_abs_le z _ Hg). lia. }
  destruct (Hq n Hn) as [qn ->], (Hq d Hd) as [qd ->]. eauto.
Qed.

Lemma rnew_checked_agrees m n d r : rnew Checked n d = Some r -> rnew m n d = Some r.
Proof.
  unfold rnew. destruct (gcd Checked n d) as [g|] eqn:E; [|discriminate].
  now rewrite (gcd_checked_agrees m _ _ _ E).
Qed.

(** ** Rational value *)

(** [r] denotes the rational number [q]. *)
Definition represents (r : ratio) (q : Q) : Prop :=
  denom r <> 0 /\ num r * QDen q = Qnum q * denom r.

Definition canonical (r : ratio) : Prop := 0 < denom r /\ Z.gcd (num r) (denom r) = 1.

Lemma represents_Qeq r q1 q2 : represents r q1 -> represents r q2 -> (q1 == q2)%Q.
Proof.
  intros [H0 H1] [_ H2]. unfold Qeq.
  apply (Z.mul_reg_r _ _ (denom r) H0).
  transitivity (num r * QDen q1 * QDen q2); [rewrite H1; ring|].
  transitivity (num r * QDen q2 * QDen q1); [ring|]. rewrite H2. ring.
Qed.

Lemma represents_proper r q1 q2 : (q1 == q2)%Q -> represents r q1 -> represents r q2.
Proof.
  unfold Qeq. intros E [H0 H1]. split; auto.
  pose proof (Pos2Z.is_pos (Qden q1)).
  apply (Z.mul_reg_r _ _ (QDen q1)); [lia|].
  transitivity (num r * QDen q1 * QDen q2); [ring|]. rewrite H1.
  transitivity (Qnum q1 * QDen q2 * denom r); [ring|]. rewrite E. ring.
Qed.

Lemma canonical_unique r1 r2 :
  canonical r1 -> canonical r2 -> num r1 * denom r2 = num r2 * denom r1 -> r1 = r2.
Proof.
  destruct r1 as [n1 d1], r2 as [n2 d2]. unfold canonical; simpl.
  intros [Hd1 Hg1] [Hd2 Hg2] E.
  assert (Hx : (d1 | d2)).
  { apply (Gauss d1 n1 d2).
    - exists n2. lia.
    - apply Zgcd_1_rel_prime. now rewrite Z.gcd_comm. }
  assert (Hy : (d2 | d1)).
  { apply (Gauss d2 n2 d1).
    - exists n1. lia.
    - apply Zgcd_1_rel_prime. now rewrite Z.gcd_comm. }
  assert (d1 = d2) by (apply Z.divide_antisym_nonneg; auto; lia). subst d2.
  f_equal. nia.
Qed.

Lemma represents_canonical_unique r1 r2 q :
  canonical r1 -> canonical r2 -> represents r1 q -> represents r2 q -> r1 = r2.
Proof.
  intros H1 H2 [_ E1] [_ E2]. apply canonical_unique; auto.
  pose proof (Pos2Z.is_pos (Qden q)).
  apply (Z.mul_reg_r _ _ (QDen q)); [lia|].
  transitivity (num r1 * QDen q * denom r2); [ring|]. rewrite E1.
  transitivity (num r2 * QDen q * denom r1); [rewrite E2; ring|ring].
Qed.

Lemma rnew_represents n d r q :
  0 < d -> rnew Checked n d = Some r -> n * QDen q = Qnum q * d ->
  represents r q /\ canonical r.
Proof.
  intros Hd H E. apply rnew_checked_Some in H as (Hg & Hn & Hd' & H1).
  set (g := Z.gcd n d) in *. split; [split; [nia|]|split; [nia|auto]].
  apply (Z.mul_reg_r _ _ g); [lia|].
  transitivity (num r * g * QDen q); [ring|]. rewrite <- Hn, E. rewrite Hd' at 1. ring.
Qed.

(** Auxiliary inversion of the checked operators. *)
Ltac inv_opt :=
  repeat match goal with
  | H : match ?e with Some _ => _ | None => None end = Some _ |- _ =>
      destruct e eqn:?; [|discriminate H]
  | H : i64_mul Checked _ _ = Some _ |- _ => apply fit_checked_Some in H as [-> ?]
  | H : i64_add Checked _ _ = Some _ |- _ => apply fit_checked_Some in H as [-> ?]
  | H : i64_neg Checked _ = Some _ |- _ => apply fit_checked_Some in H as [-> ?]
  | H : Some _ = Some _ |- _ => inversion H; clear H; subst
  end.

Lemma radd_represents a b r qa qb :
  canonical a -> canonical b -> represents a qa -> represents b qb ->
  radd Checked a b = Some r -> represents r (qa + qb) /\ canonical r.
Proof.
  intros [Ha _] [Hb _] [_ Ea] [_ Eb] H. unfold radd in H. inv_opt.
  eapply rnew_represents; [|eassumption|]; [nia|].
  destruct qa as [na da], qb as [nb db]. unfold Qplus; simpl in *. rewrite Pos2Z.inj_mul.
  transitivity ((num a * Z.pos da) * denom b * Z.pos db + (num b * Z.pos db) * denom a * Z.pos da);
    [ring|]. rewrite Ea, Eb. ring.
Qed.

Lemma rneg_represents a r qa :
  canonical a -> represents a qa ->
  rneg Checked a = Some r -> represents r (- qa) /\ canonical r.
Proof.
  intros [Ha Hg] [_ Ea] H. unfold rneg in H. inv_opt.
  unfold represents, canonical; simpl. rewrite Z.gcd_opp_l. repeat split; auto; lia.
Qed.

Lemma rsub_represents a b r qa qb :
  canonical a -> canonical b -> represents a qa -> represents b qb ->
  rsub Checked a b = Some r -> represents r (qa - qb) /\ canonical r.
Proof.
  intros Ca Cb Ra Rb H. unfold rsub in H.
  destruct (rneg Checked b) as [nb|] eqn:E; [|discriminate].
  apply (rneg_represents b nb qb) in E as [Rn Cn]; auto.
  now apply (radd_represents a nb r qa (- qb)) in H.
Qed.

Lemma rmul_represents a b r qa qb :
  canonical a -> canonical b -> represents a qa -> represents b qb ->
  rmul Checked a b = Some r -> represents r (qa * qb) /\ canonical r.
Proof.
  intros [Ha _] [Hb _] [_ Ea] [_ Eb] H. unfold rmul in H. inv_opt.
  eapply rnew_represents; [|eassumption|]; [nia|].
  destruct qa as [na da], qb as [nb db]. unfold Qmult; simpl in *. rewrite Pos2Z.inj_mul.
  transitivity ((num a * Z.pos da) * (num b * Z.pos db)); [ring|]. rewrite Ea, Eb. ring.
Qed.

Lemma rint_represents k : represents (rint k) (inject_Z k) /\ canonical (rint k).
Proof.
  unfold represents, canonical, rint, inject_Z; simpl.
  repeat split; try lia. apply Z.gcd_1_r.
Qed.

(** Division by a ratio with positive numerator (in the generated code: by the integers 2 and 3). *)
Lemma rdiv_represents a b r qa qb :
  canonical a -> canonical b -> 0 < num b -> represents a qa -> represents b qb ->
  rdiv Checked a b = Some r -> represents r (qa / qb) /\ canonical r.
Proof.
  intros Ca [Hb Hgb] Hn Ra [_ Eb] H. unfold rdiv in H.
  apply (rmul_represents a (rinv b) r qa (/ qb)) in H; auto.
  - unfold canonical, rinv; simpl. split; auto. now rewrite Z.gcd_comm.
  - unfold represents, rinv; simpl. split; [lia|].
    destruct qb as [nb db]. unfold Qinv; cbn [Qnum Qden] in *.
    pose proof (Pos2Z.is_pos db).
    destruct nb as [|nb|nb]; cbn [Qnum Qden] in *.
    + nia.
    + lia.
    + pose proof (Pos2Z.neg_is_neg nb). nia.
Qed.

(** ** Sequences of exponent operations *)

(** The operations the library performs on exponents: literals [n/d] of the macro,
    [+], [-], [*], negation, multiplication by an integer and division by a positive integer. *)
Inductive rexp :=
| RLit (n d : Z)
| RInt (n : Z)
| RAdd (a b : rexp)
| RSub (a b : rexp)
| RMul (a b : rexp)
| RNeg (a : rexp)
| RDivInt (a : rexp) (k : Z).

Fixpoint reval (m : ovf) (e : rexp) : option ratio :=
  match e with
  | RLit n d => rnew m n d
  | RInt n => Some (rint n)
  | RAdd a b => let? x := reval m a in let? y := reval m b in radd m x y
  | RSub a b => let? x := reval m a in let? y := reval m b in rsub m x y
  | RMul a b => let? x := reval m a in let? y := reval m b in rmul m x y
  | RNeg a => let? x := reval m a in rneg m x
  | RDivInt a k => let? x := reval m a in rdiv m x (rint k)
  end.

Fixpoint rexp_pos (e : rexp) : Prop :=
  match e with
  | RLit _ d => 0 < d
  | RInt _ => True
  | RAdd a b | RSub a b | RMul a b => rexp_pos a /\ rexp_pos b
  | RNeg a => rexp_pos a
  | RDivInt a k => rexp_pos a /\ 0 < k
  end.

Fixpoint qeval (e : rexp) : Q :=
  match e with
  | RLit n d => inject_Z n / inject_Z d
  | RInt n => inject_Z n
  | RAdd a b => qeval a + qeval b
  | RSub a b => qeval a - qeval b
  | RMul a b => qeval a * qeval b
  | RNeg a => - qeval a
  | RDivInt a k => qeval a / inject_Z k
  end.

Lemma reval_exact e r :
  rexp_pos e -> reval Checked e = Some r -> represents r (qeval e) /\ canonical r.
Proof.
  revert r. induction e as [n d|n|a IHa b IHb|a IHa b IHb|a IHa b IHb|a IHa|a IHa k];
    intros r Hp H; simpl in Hp, H; cbn [qeval].
  - apply (rnew_represents n d); auto.
    destruct d as [|d|d]; [lia| |pose proof (Pos2Z.neg_is_neg d); lia].
    unfold Qdiv, Qmult, Qinv, inject_Z; cbn [Qnum Qden]. rewrite ?Pos2Z.inj_mul. ring.
  - inversion H; subst. apply rint_represents.
  - destruct Hp as [Pa Pb]. destruct (reval Checked a) as [x|]; [|discriminate].
    destruct (reval Checked b) as [y|]; [|discriminate].
    destruct (IHa _ Pa eq_refl), (IHb _ Pb eq_refl). now apply (radd_represents x y).
  - destruct Hp as [Pa Pb]. destruct (reval Checked a) as [x|]; [|discriminate].
    destruct (reval Checked b) as [y|]; [|discriminate].
    destruct (IHa _ Pa eq_refl), (IHb _ Pb eq_refl). now apply (rsub_represents x y).
  - destruct Hp as [Pa Pb]. destruct (reval Checked a) as [x|]; [|discriminate].
    destruct (reval Checked b) as [y|]; [|discriminate].
    destruct (IHa _ Pa eq_refl), (IHb _ Pb eq_refl). now apply (rmul_represents x y).
  - destruct (reval Checked a) as [x|]; [|discriminate].
    destruct (IHa _ Hp eq_refl). now apply (rneg_represents x).
  - destruct Hp as [Pa Hk]. destruct (reval Checked a) as [x|]; [|discriminate].
    destruct (IHa _ Pa eq_refl). destruct (rint_represents k).
    now apply (rdiv_represents x (rint k)).
Qed.

Lemma reval_type_equality e1 e2 r1 r2 :
  rexp_pos e1 -> rexp_pos e2 -> reval Checked e1 = Some r1 -> reval Checked e2 = Some r2 ->
  (r1 = r2 <-> qeval e1 == qeval e2)%Q.
Proof.
  intros P1 P2 H1 H2.
  destruct (reval_exact _ _ P1 H1) as [R1 C1], (reval_exact _ _ P2 H2) as [R2 C2].
  split; intros E.
  - subst. eapply represents_Qeq; eauto.
  - eapply represents_canonical_unique; eauto. eapply represents_proper; eauto. now symmetry.
Qed.

(** *** Overflow checks off *)

Lemma opt_bind_agrees {A B} (e e' : option A) (k k' : A -> option B) r :
  (forall x, e = Some x -> e' = Some x) ->
  (forall x, k x = Some r -> k' x = Some r) ->
  (let? x := e in k x) = Some r -> (let? x := e' in k' x) = Some r.
Proof. intros He Hk H. destruct e as [x|]; [|discriminate]. rewrite (He x); auto. Qed.

Tactic Notation "agrees" integer(n) :=
  do n (refine (opt_bind_agrees _ _ _ _ _ _ _);
          [intros ? ?; first [now apply fit_checked_agrees | eauto]|intros ?]).

Lemma radd_checked_agrees m a b r : radd Checked a b = Some r -> radd m a b = Some r.
Proof. unfold radd. agrees 4. apply rnew_checked_agrees. Qed.

Lemma rneg_checked_agrees m a r : rneg Checked a = Some r -> rneg m a = Some r.
Proof. unfold rneg. agrees 1. auto. Qed.

Lemma rsub_checked_agrees m a b r : rsub Checked a b = Some r -> rsub m a b = Some r.
Proof.
  unfold rsub. refine (opt_bind_agrees _ _ _ _ _ _ _).
  - apply rneg_checked_agrees.
  - intros ?. apply radd_checked_agrees.
Qed.

Lemma rmul_checked_agrees m a b r : rmul Checked a b = Some r -> rmul m a b = Some r.
Proof. unfold rmul. agrees 2. apply rnew_checked_agrees. Qed.

Lemma rdiv_checked_agrees m a b r : rdiv Checked a b = Some r -> rdiv m a b = Some r.
Proof. apply rmul_checked_agrees. Qed.

Lemma reval_checked_agrees m e r : reval Checked e = Some r -> reval m e = Some r.
Proof.
  revert r. induction e as [n d|n|a IHa b IHb|a IHa b IHb|a IHa b IHb|a IHa|a IHa k];
    intros r; cbn [reval].
  - apply rnew_checked_agrees.
  - auto.
  - do 2 (refine (opt_bind_agrees _ _ _ _ _ _ _); [auto|intros ?]). apply radd_checked_agrees.
  - do 2 (refine (opt_bind_agrees _ _ _ _ _ _ _); [auto|intros ?]). apply rsub_checked_agrees.
  - do 2 (refine (opt_bind_agrees _ _ _ _ _ _ _); [auto|intros ?]). apply rmul_checked_agrees.
  - do 1 (refine (opt_bind_agrees _ _ _ _ _ _ _); [auto|intros ?]). apply rneg_checked_agrees.
  - do 1 (refine (opt_bind_agrees _ _ _ _ _ _ _); [auto|intros ?]). apply rdiv_checked_agrees.
Qed.

(** *** Definedness: no abort while the cross products stay below 2^63 *)

Definition small (k : Z) (r : ratio) : Prop := Z.abs (num r) < k /\ Z.abs (denom r) < k.

Lemma radd_defined m a b :
  canonical a -> canonical b -> small (2 ^ 31) a -> small (2 ^ 31) b ->
  exists r, radd m a b = Some r.
Proof.
  intros [Ha _] [Hb _] [A1 A2] [B1 B2]. unfold radd, i64_mul, i64_add.
  change (2 ^ 31) with 2147483648 in *.
  assert (B : forall x y, Z.abs x < 2147483648 -> Z.abs y < 2147483648 ->
                Z.abs (x * y) < 4611686018427387904) by (intros; rewrite Z.abs_mul; nia).
  pose proof (B (num a) (denom b) A1 B2) as P1. pose proof (B (num b) (denom a) B1 A2) as P2.
  pose proof (B (denom a) (denom b) A2 B2) as P3.
  assert (F : forall z, Z.abs z < 9223372036854775808 -> fit m z = Some z)
    by (intros z Hz; apply fit_in, in_i64_iff;
        change (2 ^ 63) with 9223372036854775808; lia).
  rewrite (F (num a * denom b)), (F (num b * denom a)), F, F by lia.
  apply rnew_def; try (change (2 ^ 63) with 9223372036854775808; lia).
  intros E. apply Z.gcd_eq_0_r in E. nia.
Qed.

Lemma rmul_defined m a b :
  canonical a -> canonical b -> small (2 ^ 31) a -> small (2 ^ 31) b ->
  exists r, rmul m a b = Some r.
Proof.
  intros [Ha _] [Hb _] [A1 A2] [B1 B2]. unfold rmul, i64_mul.
  change (2 ^ 31) with 2147483648 in *.
  assert (B : forall x y, Z.abs x < 2147483648 -> Z.abs y < 2147483648 ->
                Z.abs (x * y) < 4611686018427387904) by (intros; rewrite Z.abs_mul; nia).
  pose proof (B (num a) (num b) A1 B1) as P1.
  pose proof (B (denom a) (denom b) A2 B2) as P3.
  assert (F : forall z, Z.abs z < 9223372036854775808 -> fit m z = Some z)
    by (intros z Hz; apply fit_in, in_i64_iff;
        change (2 ^ 63) with 9223372036854775808; lia).
  rewrite !F by lia.
  apply rnew_def; try (change (2 ^ 63) with 9223372036854775808; lia).
  intros E. apply Z.gcd_eq_0_r in E. nia.
Qed.

Lemma rneg_defined m a : small (2 ^ 63) a -> exists r, rneg m a = Some r.
Proof.
  intros [A1 A2]. unfold rneg, i64_neg. rewrite fit_in; eauto.
  apply in_i64_iff. lia.
Qed.

(** ** What goes wrong with negative denominators and with [powi] *)

Lemma rnew_negative_denominator :
  rnew Checked 1 (-2) = Some (mkRatio 1 (-2)) /\ rnew Checked (-1) 2 = Some (mkRatio (-1) 2).
Proof. split; vm_compute; reflexivity. Qed.

Lemma rpowi_never_power r e r' :
  rpowi Checked r e = Some r' -> 0 < e -> canonical r -> r' = r.
Proof.
  intros H He [Hd Hg]. unfold rpowi in H.
  destruct (i64_mul Checked (num r) e) as [n|] eqn:En; [|discriminate].
  destruct (i64_mul Checked (denom r) e) as [d|] eqn:Ed; [|discriminate].
  apply fit_checked_Some in En as [-> _], Ed as [-> _].
  apply rnew_checked_Some in H as (Hp & Hn & Hd' & _).
  rewrite Z.gcd_mul_mono_r, Hg, Z.abs_eq, Z.mul_1_l in * by lia.
  destruct r as [rn rd], r' as [rn' rd']; simpl in *. f_equal; nia.
Qed.
