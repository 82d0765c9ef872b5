(** * Specification: the exact value of a unit

    [exact_solution G f]: [G] gives every unit and constant of the source [f] the exact rational
    number its definition states: base units are 1, numbers are the decimals written, prefixes are
    powers of ten, aliases are equal.  (Whole exponents.)  Used to measure how far
    the generated double factors are from the truth. *)
From Coq Require Import String Ascii List Bool ZArith QArith Qabs Qreals Reals Lra Lia.
From Flocq Require Import Core Binary Bits.
From Verif Require Import MachineInt F64 Types PrefixSpec Parse Grammar.
Import ListNotations.
Close Scope R_scope.
Local Open Scope string_scope.
Local Open Scope list_scope.

Definition lit_Q (l : slit) : Q :=
  match l with
  | SInt neg n => inject_Z (signed neg n)
  | SDec neg d k => (inject_Z (signed neg d) * (10 # 1) ^ k)%Q
  end.

Section Value.
Context (G : ident -> Q).
Definition atom_Q (a : atom) : Q := match a with AtIdent s => G s | AtLit l => lit_Q l end.
Definition exp_Z (e : sexp) : option Z :=
  match e with SxInt (SInt neg n) => Some (signed neg n) | _ => None end.
Inductive is_x : sx -> Q -> Prop :=
| is_one f q : is_f f q -> is_x (SxOne f) q
| is_mul l o f a b : o <> BySlash -> is_x l a -> is_f f b -> is_x (SxBin l o f) (a * b)
| is_div l f a b : is_x l a -> is_f f b -> is_x (SxBin l BySlash f) (a / b)
with is_f : sf -> Q -> Prop :=
| is_val a : is_f (SfVal a) (atom_Q a)
| is_pow a e z : exp_Z e = Some z -> is_f (SfPow a e) (atom_Q a ^ z)
| is_paren x q : is_x x q -> is_f (SfParen x) q.
End Value.

(** What a name stands for. *)
Inductive xdef := XBase | XExpr (x : sx) | XScaled (k : Z) (of : ident).
Definition is_def (G : ident -> Q) (d : xdef) (q : Q) : Prop :=
  match d with
  | XBase => q = 1%Q
  | XExpr x => is_x G x q
  | XScaled k i => q = ((10 # 1) ^ k * G i)%Q
  end.

(** The prefixes of a unit statement. *)
Definition prefixes_of (l : list uattr) : list prefix :=
  flat_map si_without (metrics_of l) ++ explicit_prefixes l.
Definition stmt_defs (s : stmt) : list (ident * xdef) :=
  match s with
  | SUnit l i _ rhs =>
      (i, match rhs with Some x => XExpr x | None => XBase end) ::
      map (fun a => (a, XScaled 0 i)) (alias_names l) ++
      flat_map (fun p => map (fun a => ((si_name p ++ a)%string, XScaled (si_power p) i)) (i :: alias_names l))
        (prefixes_of l)
  | SConstant _ i _ x => [(i, XExpr x)]
  | _ => []
  end.
Definition file_defs (f : slist stmt) : list (ident * xdef) := flat_map stmt_defs (sl_items f).

Definition exact_solution (G : ident -> Q) (f : slist stmt) : Prop :=
  forall n d, In (n, d) (file_defs f) -> exists q, is_def G d q /\ (G n == q)%Q.

(** ** Evaluation *)
Section Eval.
Context (ev : ident -> option Q).
Definition ev_atom (a : atom) : option Q := match a with AtIdent s => ev s | AtLit l => Some (lit_Q l) end.
Fixpoint ev_x (x : sx) : option Q :=
  match x with
  | SxOne f => ev_f f
  | SxBin l o f =>
      match ev_x l, ev_f f with
      | Some a, Some b => Some (Qred (match o with BySlash => a / b | _ => a * b end)%Q)
      | _, _ => None
      end
  end
with ev_f (f : sf) : option Q :=
  match f with
  | SfVal a => ev_atom a
  | SfPow a e => match ev_atom a, exp_Z e with Some q, Some z => Some (Qred (q ^ z))%Q | _, _ => None end
  | SfParen x => ev_x x
  end.
Definition ev_def (d : xdef) : option Q :=
  match d with
  | XBase => Some 1%Q
  | XExpr x => ev_x x
  | XScaled k i => match ev i with Some q => Some (Qred ((10 # 1) ^ k * q)%Q) | None => None end
  end.
End Eval.
Fixpoint ev_name (defs : list (ident * xdef)) (fuel : nat) (n : ident) : option Q :=
  match fuel with
  | O => None
  | S m =>
      match find (fun e => String.eqb n (fst e)) defs with
      | Some e => ev_def (ev_name defs m) (snd e)
      | None => None
      end
  end.

Lemma ev_bin ev l o f : ev_x ev (SxBin l o f) =
  match ev_x ev l, ev_f ev f with
  | Some a, Some b => Some (Qred (match o with BySlash => a / b | _ => a * b end)%Q)
  | _, _ => None
  end.
Proof. reflexivity. Qed.
Lemma ev_pow ev a e : ev_f ev (SfPow a e) =
  match ev_atom ev a, exp_Z e with Some q, Some z => Some (Qred (q ^ z))%Q | _, _ => None end.
Proof. reflexivity. Qed.

Section Sound.
Context (G : ident -> Q) (ev : ident -> option Q).
Hypothesis ev_ok : forall n q, ev n = Some q -> (G n == q)%Q.

Lemma ev_atom_ok a q : ev_atom ev a = Some q -> (atom_Q G a == q)%Q.
Proof. destruct a as [s|l]; cbn; [apply ev_ok|]. intros H. inversion H. reflexivity. Qed.

Lemma ev_x_ok :
  (forall x q q', ev_x ev x = Some q -> is_x G x q' -> (q' == q)%Q) /\
  (forall f q q', ev_f ev f = Some q -> is_f G f q' -> (q' == q)%Q).
Proof.
  apply sx_sf_ind.
  - intros f IH q q' H I. inversion I; subst. eapply IH; eauto.
  - intros l IHl o f IHf q q' H I. rewrite ev_bin in H.
    destruct (ev_x ev l) as [a|] eqn:El; [|discriminate H]. destruct (ev_f ev f) as [b|] eqn:Ef; [|discriminate H].
    injection H as <-. rewrite Qred_correct. inversion I; subst.
    + destruct o; try contradiction; rewrite (IHl a a0 eq_refl), (IHf b b0 eq_refl) by assumption; reflexivity.
    + rewrite (IHl a a0 eq_refl), (IHf b b0 eq_refl) by assumption. reflexivity.
  - intros a q q' H I. inversion I; subst. now apply ev_atom_ok.
  - intros a e q q' H I. rewrite ev_pow in H. destruct (ev_atom ev a) as [b|] eqn:Ea; [|discriminate H].
    inversion I; subst. rewrite H3 in H. injection H as <-. rewrite Qred_correct.
    rewrite (ev_atom_ok a b Ea). reflexivity.
  - intros x IH q q' H I. inversion I; subst. eapply IH; eauto.
Qed.
Lemma ev_def_ok d q q' : ev_def ev d = Some q -> is_def G d q' -> (q' == q)%Q.
Proof.
  destruct d as [|x|k i]; cbn [ev_def is_def].
  - intros H ->. injection H as <-. reflexivity.
  - apply ev_x_ok.
  - intros H ->. destruct (ev i) as [r|] eqn:E; [|discriminate H].
    assert (Eq : q = Qred ((10 # 1) ^ k * r)%Q) by congruence. rewrite Eq, Qred_correct, (ev_ok i r E). reflexivity.
Qed.
End Sound.

Lemma ev_name_ok G f : exact_solution G f -> forall fuel n q,
  ev_name (file_defs f) fuel n = Some q -> (G n == q)%Q.
Proof.
  intros S fuel. induction fuel as [|m IH]; intros n q H; [discriminate|]. cbn [ev_name] in H.
  destruct (find _ _) as [[n' d]|] eqn:F; [|discriminate H]. apply find_some in F as [F E].
  cbn [fst] in E. apply String.eqb_eq in E. subst n'. cbn [snd] in H.
  destruct (S n d F) as (q' & D & Eq). rewrite Eq.
  exact (ev_def_ok G _ (fun n q => IH n q) d q q' H D).
Qed.

(** Existence: the evaluated values solve the equations when they check. *)
Section Check.
Context (ev : ident -> option Q).
Definition ev_all (n : ident) : Q := match ev n with Some q => q | None => 0%Q end.
Lemma ev_x_is :
  (forall x q, ev_x ev x = Some q -> exists q', is_x ev_all x q' /\ (q' == q)%Q) /\
  (forall f q, ev_f ev f = Some q -> exists q', is_f ev_all f q' /\ (q' == q)%Q).
Proof.
  assert (A : forall a q, ev_atom ev a = Some q -> atom_Q ev_all a = q).
  { intros [s|l] q H; cbn in *; [unfold ev_all; now rewrite H|congruence]. }
  apply sx_sf_ind.
  - intros f IH q H. destruct (IH q H) as (q' & I & E). exists q'. split; [now constructor|exact E].
  - intros l IHl o f IHf q H. rewrite ev_bin in H.
    destruct (ev_x ev l) as [a|]; [|discriminate H]. destruct (ev_f ev f) as [b|]; [|discriminate H].
    injection H as <-. destruct (IHl a eq_refl) as (a' & Ia & Ea). destruct (IHf b eq_refl) as (b' & Ib & Eb).
    destruct o.
    + exists (a' * b')%Q. split; [now constructor|]. rewrite Qred_correct, Ea, Eb. reflexivity.
    + exists (a' / b')%Q. split; [now constructor|]. rewrite Qred_correct, Ea, Eb. reflexivity.
    + exists (a' * b')%Q. split; [now constructor|]. rewrite Qred_correct, Ea, Eb. reflexivity.
  - intros a q H. exists (atom_Q ev_all a). split; [constructor|]. rewrite (A a q H). reflexivity.
  - intros a e q H. rewrite ev_pow in H. destruct (ev_atom ev a) as [b|] eqn:Ea; [|discriminate H].
    destruct (exp_Z e) as [z|] eqn:Ez; [|discriminate H]. injection H as <-.
    exists (atom_Q ev_all a ^ z)%Q. split; [now constructor|]. rewrite Qred_correct, (A a b Ea). reflexivity.
  - intros x IH q H. destruct (IH q H) as (q' & I & E). exists q'. split; [now constructor|exact E].
Qed.
Definition def_checks (e : ident * xdef) : bool :=
  match ev (fst e), ev_def ev (snd e) with Some p, Some q => Qeq_bool p q | _, _ => false end.
Lemma checks_solution f : forallb def_checks (file_defs f) = true -> exact_solution ev_all f.
Proof.
  intros H n d Hd. rewrite forallb_forall in H. specialize (H _ Hd). unfold def_checks in H. cbn [fst snd] in H.
  unfold ev_all at 2. destruct (ev n) as [p|]; [|discriminate H].
  destruct (ev_def ev d) as [q|] eqn:E; [|discriminate H]. apply Qeq_bool_iff in H.
  destruct d as [|x|k i]; cbn [ev_def is_def] in *.
  - injection E as <-. now exists 1%Q.
  - destruct (proj1 ev_x_is x q E) as (q' & I & E'). exists q'. split; [exact I|]. now rewrite H, E'.
  - eexists. split; [reflexivity|]. unfold ev_all. destruct (ev i) as [r|]; [|discriminate E].
    assert (Eq : q = Qred ((10 # 1) ^ k * r)%Q) by congruence. rewrite H, Eq, Qred_correct. reflexivity.
Qed.
End Check.

(** ** Doubles as rationals *)
Definition f64_Q (x : f64) : option Q :=
  match x with
  | B754_zero _ _ _ => Some 0%Q
  | B754_finite _ _ s m e _ => Some (inject_Z (cond_Zopp s (Zpos m)) * (2 # 1) ^ e)%Q
  | _ => None
  end.
Lemma Q2R_inject z : Q2R (inject_Z z) = IZR z.
Proof. unfold Q2R, inject_Z. cbn. rewrite Rinv_1. lra. Qed.
Lemma Q2R_pow2 e : Q2R ((2 # 1) ^ e) = bpow radix2 e.
Proof.
  assert (P : forall p, Q2R (Qpower_positive (2 # 1) p) = bpow radix2 (Zpos p)).
  { intros p. assert (E : Qpower_positive (2 # 1) p = inject_Z (2 ^ Zpos p)).
    { replace (inject_Z (2 ^ Zpos p)) with (Qpower (inject_Z 2) (Zpos p)); [reflexivity|].
      cbn [Qpower]. unfold Qpower_positive.
      induction p as [p IH|p IH|].
      - change (pow_pos Qmult (inject_Z 2) p~1) with
          (Qmult (inject_Z 2) (Qmult (pow_pos Qmult (inject_Z 2) p) (pow_pos Qmult (inject_Z 2) p))).
        rewrite IH. unfold inject_Z, Qmult. cbn [Qnum Qden]. f_equal.
        replace (Zpos p~1) with (1 + (Zpos p + Zpos p))%Z by lia. rewrite !Z.pow_add_r by lia. lia.
      - change (pow_pos Qmult (inject_Z 2) p~0) with
          (Qmult (pow_pos Qmult (inject_Z 2) p) (pow_pos Qmult (inject_Z 2) p)).
        rewrite IH. unfold inject_Z, Qmult. cbn [Qnum Qden]. f_equal.
        replace (Zpos p~0) with (Zpos p + Zpos p)%Z by lia. rewrite !Z.pow_add_r by lia. lia.
      - reflexivity. }
    rewrite E, Q2R_inject. rewrite <- (IZR_Zpower radix2) by lia. reflexivity. }
  destruct e as [|p|p]; cbn [Qpower].
  - cbn. unfold Q2R. cbn. lra.
  - apply P.
  - rewrite Q2R_inv, P.
    + rewrite <- bpow_opp. reflexivity.
    + intros H. apply Qeq_eqR in H. rewrite P in H. pose proof (bpow_gt_0 radix2 (Zpos p)).
      replace (Q2R 0) with 0%R in H by (unfold Q2R; cbn; lra). lra.
Qed.
Lemma f64_Q_ok x q : f64_Q x = Some q -> is_finite 53 1024 x = true /\ Q2R q = B2R 53 1024 x.
Proof.
  destruct x as [s|s|s p H|s m e H]; cbn [f64_Q]; try discriminate; intros E; injection E as <-.
  - split; [reflexivity|]. cbn. unfold Q2R. cbn. lra.
  - split; [reflexivity|]. rewrite Q2R_mult, Q2R_inject, Q2R_pow2. reflexivity.
Qed.

(** [x] is within relative error [2^-k] of [q]. *)
Definition close (k : positive) (x : f64) (q : Q) : bool :=
  match f64_Q x with
  | Some r => Qle_bool (Qabs (r - q)) (Qabs q * (1 # Pos.pow 2 k))
  | None => false
  end.
Lemma close_ok k x q : close k x q = true ->
  is_finite 53 1024 x = true /\
  (Rabs (B2R 53 1024 x - Q2R q) <= bpow radix2 (- Zpos k) * Rabs (Q2R q))%R.
Proof.
  unfold close. destruct (f64_Q x) as [r|] eqn:E; [|discriminate]. apply f64_Q_ok in E as [F E].
  intros H. split; [exact F|]. apply Qle_bool_iff in H. apply Qle_Rle in H.
  assert (A : forall z, Q2R (Qabs z) = Rabs (Q2R z)).
  { intros z. destruct (Qlt_le_dec z 0) as [N|N].
    - rewrite (Qeq_eqR _ _ (Qabs_neg z (Qlt_le_weak _ _ N))), Q2R_opp.
      apply Qlt_Rlt in N. replace (Q2R 0) with 0%R in N by (unfold Q2R; cbn; lra).
      now rewrite Rabs_left.
    - rewrite (Qeq_eqR _ _ (Qabs_pos z N)). apply Qle_Rle in N.
      replace (Q2R 0) with 0%R in N by (unfold Q2R; cbn; lra). rewrite Rabs_right; lra. }
  rewrite A, Q2R_minus, Q2R_mult, A, E in H. rewrite Rmult_comm.
  replace (bpow radix2 (- Zpos k)) with (Q2R (1 # Pos.pow 2 k)); [exact H|].
  unfold Q2R. cbn [Qnum Qden]. rewrite bpow_opp, Rmult_1_l. f_equal.
  rewrite <- (IZR_Zpower radix2) by lia. f_equal. change (Z.pow radix2 (Zpos k)) with (2 ^ Zpos k)%Z.
  apply Pos2Z.inj_pow.
Qed.
