(** * The evaluator of the resolver is the two passes of the code: lookup, then [eval] *)
From Coq Require Import List String ZArith.
From Verif Require Import MachineInt Ratio Exponent Expression DimensionMath Types Resolve.
Import ListNotations.

(** The first pass of ident_storage.rs:130-137, [Expr::map] with a function that can panic: [e'] is
    [e] with everything that occurs in it replaced by what was found for it. *)
Definition looked_up {T T2 E} (f : T -> option T2) (e : expr T E) (e' : expr T2 E) : Prop :=
  expr_map f e = expr_map Some e'.

Section Eval.
Context (X : exp_ops) (env : Magnitude.fenv).

Local Notation algebra := (dm_algebra X env).

(** Equations of the two evaluators, by computation. *)
Lemma eval_with_bin lk l r op : eval_with X env lk (EBin l r op) =
  (let? a := eval_with X env lk l in let? b := feval_with X env lk r in
   match op with OMul => dm_mul X env a b | ODiv => dm_div X env a b end).
Proof. reflexivity. Qed.
Lemma expr_eval_bin {T E} (A : muldiv T E) l r op : expr_eval A (EBin l r op) =
  (let? a := expr_eval A l in let? b := factor_eval A r in
   match op with OMul => md_mul A a b | ODiv => md_div A a b end).
Proof. reflexivity. Qed.

Lemma two_passes (lk : fac (dimmag X) -> option (dimmag X)) :
  (forall e e', looked_up lk e e' -> eval_with X env lk e = expr_eval algebra e')
  /\ (forall f f', factor_map lk f = factor_map Some f' ->
        feval_with X env lk f = factor_eval algebra f').
Proof.
  apply expr_factor_ind.
  - intros f IH [f' | l' r' op'] H; cbn in H; [|discriminate].
    injection H as H. exact (IH _ H).
  - intros l IHl r IHr op [f' | l' r' op'] H; cbn in H; [discriminate|].
    injection H as Hl Hr <-.
    rewrite eval_with_bin, expr_eval_bin, (IHl _ Hl), (IHr _ Hr). reflexivity.
  - intros t [t' | t' e' | y'] H; cbn in H; try discriminate. injection H as H. exact H.
  - intros t e [t' | t' e' | y'] H; cbn in H; try discriminate. injection H as H <-.
    change (feval_with X env lk (FPow t e)) with (let? a := lk t in dm_pow X env a e).
    rewrite H. reflexivity.
  - intros y IH [t' | t' e' | y'] H; cbn in H; try discriminate. injection H as H.
    exact (IH _ H).
Qed.

Lemma lookup_succeeds {T T2 E} (lk : T -> option T2) :
  (forall e : expr T E, Forall (fun t => lk t <> None) (expr_vals e) -> exists e', looked_up lk e e')
  /\ (forall f : factor T E, Forall (fun t => lk t <> None) (factor_vals f) ->
        exists f', factor_map lk f = factor_map Some f').
Proof.
  apply expr_factor_ind.
  - intros f IH H. destruct (IH H) as [f' Hf]. exists (EVal f'). unfold looked_up. cbn. congruence.
  - intros l IHl r IHr op H. cbn in H. apply Forall_app in H as [H1 H2].
    destruct (IHl H1) as [l' Hl], (IHr H2) as [r' Hr]. exists (EBin l' r' op).
    unfold looked_up in *. cbn. congruence.
  - intros t H. cbn in H. inversion H; subst. destruct (lk t) as [a|] eqn:L; [|congruence].
    exists (FVal a). cbn. congruence.
  - intros t e H. cbn in H. inversion H; subst. destruct (lk t) as [a|] eqn:L; [|congruence].
    exists (FPow a e). cbn. congruence.
  - intros y IH H. destruct (IH H) as [y' Hy]. exists (FParen y'). unfold looked_up in Hy. cbn. congruence.
Qed.

Lemma lookup_panics (lk : fac (dimmag X) -> option (dimmag X)) :
  (forall e, Exists (fun t => lk t = None) (expr_vals e) -> eval_with X env lk e = None)
  /\ (forall f, Exists (fun t => lk t = None) (factor_vals f) -> feval_with X env lk f = None).
Proof.
  apply expr_factor_ind.
  - intros f IH H. exact (IH H).
  - intros l IHl r IHr op H. cbn in H. apply Exists_app in H.
    rewrite eval_with_bin. destruct H as [H|H].
    + rewrite (IHl H). reflexivity.
    + rewrite (IHr H). destruct (eval_with X env lk l); reflexivity.
  - intros t H. cbn in H. inversion H as [? ? H1|? ? H1]; subst; [exact H1|inversion H1].
  - intros t e H. cbn in H.
    change (feval_with X env lk (FPow t e)) with (let? a := lk t in dm_pow X env a e).
    inversion H as [? ? H1|? ? H1]; subst; [rewrite H1; reflexivity|inversion H1].
  - intros y IH H. exact (IH H).
Qed.

(** C53, evaluation: what the resolver computes for a definition is [eval] of the expression with
    every name replaced by the value that name was given and every number by its own value; a name
    without a value is a panic (index of a missing key). *)
Theorem C53_evaluation (res : resolved_map X) (i : item X) :
  (forall e', looked_up (lookup_factor X res) (it_expr i) e' ->
     resolve_dimensions X env res i = expr_eval algebra e')
  /\ ((exists e', looked_up (lookup_factor X res) (it_expr i) e')
      \/ resolve_dimensions X env res i = None).
Proof.
  split.
  - intros e' H. exact (proj1 (two_passes _) _ _ H).
  - unfold resolve_dimensions. generalize (lookup_factor X res) as lk. intros lk.
    assert (D : Forall (fun t => lk t <> None) (expr_vals (it_expr i))
                \/ Exists (fun t => lk t = None) (expr_vals (it_expr i))).
    { induction (expr_vals (it_expr i)) as [|t l [IH|IH]]; [left; constructor| |right; auto].
      destruct (lk t) eqn:L; [left; constructor; [congruence|exact IH]|right; left; exact L]. }
    destruct D as [H|H].
    + left. exact (proj1 (lookup_succeeds _) _ H).
    + right. exact (proj1 (lookup_panics _) _ H).
Qed.

(** What [eval] is, for any values: the value of a left-associated chain of factors is obtained by
    going through the chain from the left. *)
Theorem C53_eval_chain {T E} (A : muldiv T E) (first : factor T E)
    (rest : list (operator * factor T E)) :
  expr_eval A (fold_left (fun e f => EBin e (snd f) (fst f)) rest (EVal first))
  = fold_left (fun acc f =>
        match acc, factor_eval A (snd f) with
        | Some a, Some b => match fst f with OMul => md_mul A a b | ODiv => md_div A a b end
        | _, _ => None
        end) rest (factor_eval A first).
Proof.
  change (factor_eval A first) with (expr_eval A (EVal first)).
  generalize (EVal first). induction rest as [|[op f] rest IH]; intros e; [reflexivity|].
  cbn [fold_left fst snd]. rewrite IH. f_equal.
Qed.
End Eval.

(** Beside them: [12 / 2 * 3] is 18, not 2, and [2 ^ 3 / (2 * 2)] is 2. *)
Definition integers : muldiv Z Z :=
  {| md_mul a b := Some (a * b)%Z; md_div a b := Some (a / b)%Z; md_pow a e := Some (a ^ e)%Z |}.
Example C53_eval_left :
  expr_eval integers (EBin (EBin (EVal (FVal 12%Z)) (FVal 2%Z) ODiv) (FVal 3%Z) OMul) = Some 18%Z.
Proof. reflexivity. Qed.
Example C53_eval_paren :
  expr_eval integers (EBin (EVal (FPow 2%Z 3%Z))
                           (FParen (EBin (EVal (FVal 2%Z)) (FVal 2%Z) OMul)) ODiv) = Some 2%Z.
Proof. reflexivity. Qed.
(** The hypothesis of [C53_evaluation] is met: a definition with a name that has a value. *)
Example C53_evaluation_applies {T2} (v : T2) :
  looked_up (fun s : string => if string_dec s "metre" then Some v else None)
            (EBin (EVal (FVal "metre"%string)) (FPow "metre"%string 2%Z) ODiv)
            (EBin (EVal (FVal v)) (FPow v 2%Z) ODiv).
Proof. reflexivity. Qed.
