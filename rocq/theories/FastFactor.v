(** * Fast evaluation of the factors of large unit systems (integer exponents)

    The factors of all units, in double arithmetic, and their exact values are collected in tables;
    every entry is correct by construction.  Values that are not stored exactly are left out. *)
From Coq Require Import String Ascii List Bool NArith ZArith QArith Qabs Qreals Reals Lia.
From Flocq Require Import Core Binary Bits.
From Verif Require Import MachineInt Ratio F64 Magnitude MagnitudeFacts Exponent ExponentFacts SMap Expression
  DimensionMath Types Snake Resolve SystemSpec ResolveFacts ResolveEquations Expansion Setting
  Parse Grammar Accuracy FastCheck.
Import ListNotations.
Local Close Scope R_scope.
Local Close Scope Q_scope.
Local Open Scope list_scope.

(** ** Tables filled from definitions *)
Section Fill.
Context {B V : Type} (ev : (ident -> option V) -> B -> option V).
Fixpoint fill (l : list (ident * B)) (t : trie V) : trie V :=
  match l with
  | [] => t
  | (n, b) :: l =>
      match tget (bits n) t with
      | Some _ => fill l t
      | None => match ev (fun m => tget (bits m) t) b with
                | Some v => fill l (tset (bits n) v t)
                | None => fill l t
                end
      end
  end.
Fixpoint fills (k : nat) (l : list (ident * B)) (t : trie V) : trie V :=
  match k with O => t | Datatypes.S k => fills k l (fill l t) end.

Context (P : ident -> V -> Prop) (l : list (ident * B)).
Hypothesis step : forall n b g v, In (n, b) l -> (forall m w, g m = Some w -> P m w) -> ev g b = Some v -> P n v.
Definition correct (t : trie V) : Prop := forall n v, tget (bits n) t = Some v -> P n v.
Lemma fill_correct l' t : (forall e, In e l' -> In e l) -> correct t -> correct (fill l' t).
Proof.
  revert t. induction l' as [|[n b] l' IH]; intros t Sub C; [exact C|]. cbn [fill].
  assert (Sub' : forall e, In e l' -> In e l) by (intros e I; apply Sub; now right).
  destruct (tget (bits n) t); [now apply IH|].
  destruct (ev (fun m => tget (bits m) t) b) as [v|] eqn:E; [|now apply IH].
  apply IH; [exact Sub'|]. intros m w H.
  destruct (tget_tset_value _ _ _ _ _ H) as [[E1 ->]|K]; [|now apply C].
  apply bits_inj in E1. subst m. apply (step n b (fun m => tget (bits m) t)); [apply Sub; now left|exact C|exact E].
Qed.
Lemma fills_correct k t : correct t -> correct (fills k l t).
Proof. revert t. induction k as [|k IH]; intros t C; [exact C|]. cbn [fills]. apply IH, fill_correct; auto. Qed.
End Fill.

(** ** Exact values *)
Definition exact_table (k : nat) (f : slist stmt) : trie Q := fills ev_def k (file_defs f) TLeaf.
Lemma exact_table_ok G f k : exact_solution G f ->
  forall n q, tget (bits n) (exact_table k f) = Some q -> (G n == q)%Q.
Proof.
  intros S. apply (fills_correct ev_def (fun n q => G n == q)%Q).
  - intros n d g q I H E. destruct (S n d I) as (q' & D & Eq). rewrite Eq. exact (ev_def_ok G g H d q q' E D).
  - intros n q H. discriminate H.
Qed.

(** ** Factors *)
Section Factors.
Context (env : fenv) (lo : Z) (Plat : good_platform env lo) (Low : (lo <= -952)%Z).
Notation X := (int_exp Checked).
Notation powf := (pow_int env).

Definition keep (x : f64) : option f64 := if expo_ge (-900) x then Some x else None.
Definition literal (c : magnitude) : option f64 :=
  let y := binary_normalize 53 1024 eq_refl eq_refl mode_NE (msign c * mantissa c) (mexponent c) false in
  if expo_ge (-900) y && mag_eqb (from_f64 y) c then Some y else None.
Lemma keep_ok x y : keep x = Some y -> y = stored env x.
Proof.
  unfold keep. destruct (expo_ge (-900) x) eqn:E; [|discriminate]. intros H.
  assert (x = y) by congruence. subst y. symmetry. apply (roundtrip_stable env lo); [destruct Plat; lia|apply Plat|].
  apply expo_ge_stable. apply (expo_ge_weak (-900)); [|exact E]. destruct Plat; lia.
Qed.
Lemma literal_ok c y : literal c = Some y -> y = into_f64 env c.
Proof.
  unfold literal. cbv zeta. set (x := binary_normalize _ _ _ _ _ _ _ _).
  destruct (expo_ge (-900) x) eqn:E; [|discriminate]. destruct (mag_eqb (from_f64 x) c) eqn:M; [|discriminate].
  intros H. assert (K : keep x = Some y) by (unfold keep; rewrite E; exact H). apply keep_ok in K. rewrite K.
  unfold stored. f_equal. unfold mag_eqb in M. apply andb_prop in M as [M M3]. apply andb_prop in M as [M1 M2].
  apply Z.eqb_eq in M1, M2, M3. destruct (from_f64 x), c. cbn in *. congruence.
Qed.

Definition leaf (g : ident -> option f64) (a : fac magnitude) : option f64 :=
  match a with Concrete c => literal c | Other n => g n end.
Fixpoint feval (g : ident -> option f64) (e : expr (fac magnitude) Z) : option f64 :=
  match e with
  | EVal f => ffeval g f
  | EBin l r op =>
      match feval g l, ffeval g r with
      | Some a, Some b => keep (match op with OMul => f64_mul a b | ODiv => f64_div a b end)
      | _, _ => None
      end
  end
with ffeval (g : ident -> option f64) (f : factor (fac magnitude) Z) : option f64 :=
  match f with
  | FVal a => leaf g a
  | FPow a e => match leaf g a with Some x => keep (f_powi env x (as_i32 e)) | None => None end
  | FParen y => feval g y
  end.
Lemma feval_bin g l r op : feval g (EBin l r op) =
  match feval g l, ffeval g r with
  | Some a, Some b => keep (match op with OMul => f64_mul a b | ODiv => f64_div a b end)
  | _, _ => None
  end.
Proof. reflexivity. Qed.

Section Sound.
Context (R : ident -> f64 -> Prop) (g : ident -> option f64).
Hypothesis G : forall n f, g n = Some f -> forall f', R n f' -> f' = f.
Lemma leaf_ok a f : leaf g a = Some f ->
  match a with Concrete c => f = into_f64 env c | Other n => forall f', R n f' -> f' = f end.
Proof. destruct a as [c|n]; cbn [leaf]; [apply literal_ok|apply G]. Qed.
Lemma feval_ok :
  (forall e f f', feval g e = Some f -> ev_fac X env powf R e f' -> f' = f) /\
  (forall e f f', ffeval g e = Some f -> fev_fac X env powf R e f' -> f' = f).
Proof.
  apply expr_factor_ind.
  - intros v IH f f' E H. inversion H; subst. eapply IH; eauto.
  - intros l IHl r IHr op f f' E H. rewrite feval_bin in E.
    destruct (feval g l) as [a|]; [|discriminate E]. destruct (ffeval g r) as [b|]; [|discriminate E].
    apply keep_ok in E. rewrite E. inversion H; subst.
    + rewrite (IHl a v1 eq_refl), (IHr b v2 eq_refl) by assumption. reflexivity.
    + rewrite (IHl a v1 eq_refl), (IHr b v2 eq_refl) by assumption. reflexivity.
  - intros a f f' E H. apply leaf_ok in E. inversion H; subst; auto.
  - intros a e f f' E H. change (ffeval g (FPow a e)) with
      (match leaf g a with Some x => keep (f_powi env x (as_i32 e)) | None => None end) in E.
    destruct (leaf g a) as [x|] eqn:Ea; [|discriminate E]. apply leaf_ok in Ea. apply keep_ok in E. rewrite E.
    inversion H; subst; unfold pow_int; [now rewrite Ea|]. rewrite (Ea v); auto.
  - intros x IH f f' E H. inversion H; subst. eapply IH; eauto.
Qed.
End Sound.

(** A unit or constant and its definition ([None]: a base unit). *)
Definition factor_defs (S : unresolved X (unit_entry X)) : list (ident * option (expr (fac magnitude) Z)) :=
  map (fun u => (ue_name u, match ue_definition u with DefBase _ => None | DefExpr e => Some e end)) (u_units S) ++
  map (fun c => (ce_name c, Some (ce_rhs c))) (u_constants S).
Definition eval_def (g : ident -> option f64) (b : option (expr (fac magnitude) Z)) : option f64 :=
  match b with None => Some f64_one | Some e => feval g e end.
Definition factor_table (k : nat) (S : unresolved X (unit_entry X)) : trie f64 :=
  fills eval_def k (factor_defs S) TLeaf.

Lemma factor_table_ok k (T : unresolved X (unit_template X)) o :
  run_unit_system X env T = Some (o, []) ->
  forall n f, tget (bits n) (factor_table k (expand_templates T)) = Some f ->
  forall f', fac_result X env o n f' -> f' = f.
Proof.
  intros R. unfold run_unit_system in R. set (S := expand_templates T) in *.
  assert (EQ := fac_equations X int_laws env powf lo S o (pow_int_law Checked env)
    ltac:(destruct Plat; lia) (proj2 Plat) (generated_ok_expand X T) R).
  apply (fills_correct eval_def (fun n f => forall f', fac_result X env o n f' -> f' = f)).
  - intros n b g f I Hg E f' Hf'. unfold factor_defs in I. apply in_app_iff in I as [I|I].
    + apply in_map_iff in I as (u & Eq & Iu). apply unit_decl in Iu.
      pose proof (f_equal fst Eq) as En. pose proof (f_equal snd Eq) as Eb. cbn [fst snd] in En, Eb. subst n b.
      destruct (EQ _ Iu (fun H => H)) as [_ H]. cbn [decl_name fac_equation] in H.
      specialize (H f' Hf'). destruct (ue_definition u) as [d|e]; cbn [eval_def] in E.
      * subst f'. congruence.
      * exact (proj1 (feval_ok _ g Hg) e f f' E H).
    + apply in_map_iff in I as (c & Eq & Ic). apply constant_decl in Ic.
      pose proof (f_equal fst Eq) as En. pose proof (f_equal snd Eq) as Eb. cbn [fst snd] in En, Eb. subst n b.
      destruct (EQ _ Ic (fun H => H)) as [_ H]. cbn [decl_name fac_equation] in H.
      specialize (H f' Hf'). exact (proj1 (feval_ok _ g Hg) _ f f' E H).
  - intros n f H. discriminate H.
Qed.

(** ** The check: all units and constants are in both tables, with close values. *)
Definition factors_close (p : positive) (k : nat) (T : unresolved X (unit_template X)) (src : slist stmt) : bool :=
  let S := expand_templates T in
  let F := factor_table k S in
  let E := exact_table k src in
  forallb (fun d => match tget (bits (fst d)) F, tget (bits (fst d)) E with
                    | Some f, Some q => close p f q
                    | _, _ => false
                    end) (factor_defs S).
Theorem factors_close_ok p k T src o : factors_close p k T src = true -> run_unit_system X env T = Some (o, []) ->
  forall G, exact_solution G src -> forall n f, fac_result X env o n f ->
    is_finite 53 1024 f = true /\
    (Rabs (B2R 53 1024 f - Q2R (G n)) <= bpow radix2 (- Zpos p) * Rabs (Q2R (G n)))%R.
Proof.
  intros C R G Sol n f Hf.
  assert (In n (map fst (factor_defs (expand_templates T)))) as I.
  { unfold run_unit_system in R. apply resolve_some in R as (res & d8 & Hres & -> & _).
    apply (fac_result_iff X env _ res d8) in Hf as (r & x & Hr & Hx & Ex & ND & _); [|exact Hres].
    destruct (entry_decl X env _ _ _ _ _ Hres Hr) as (y & Hy & Ey & <-).
    assert (Hn : decl_name y = decl_name x) by (rewrite <- !(ident_of_item X); now rewrite <- Ex, <- Ey).
    rewrite Hn. unfold factor_defs. rewrite map_app, !map_map. cbn [fst]. apply in_app_iff.
    destruct x as [d|u|c]; [elim ND; exact Logic.I|left|right].
    - apply (in_map ue_name). now apply unit_decl.
    - apply (in_map (@ce_name X)). now apply constant_decl. }
  apply in_map_iff in I as ([n' b] & En & I). cbn [fst] in En. subst n'. unfold factors_close in C. cbv zeta in C.
  rewrite forallb_forall in C. specialize (C (n, b) I). cbv beta in C. cbn [fst] in C.
  match type of C with (match ?x with Some _ => _ | None => _ end) = _ => destruct x as [f'|] eqn:Ef end; [|discriminate C].
  match type of C with (match ?x with Some _ => _ | None => _ end) = _ => destruct x as [q|] eqn:Eq end; [|discriminate C].
  rewrite (factor_table_ok k T o R _ _ Ef f Hf).
  rewrite (Qeq_eqR _ _ (exact_table_ok G src k Sol _ _ Eq)). now apply close_ok.
Qed.
End Factors.
