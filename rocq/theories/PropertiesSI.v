(** * The bundled SI system: C64 and C66 *)
From Coq Require Import String Ascii List Bool ZArith NArith Lia QArith Qcanon Qreals Reals.
From Flocq Require Import Core Binary Bits.
From Verif Require Import MachineInt Ratio RatioFacts F64 DecimalFacts Magnitude MagnitudeFacts
  Exponent ExponentFacts SMap Expression DimensionMath DimensionMathFacts Types PrefixSpec ExpansionSpec Snake Resolve
  SystemSpec ResolveFacts ResolveEquations Expansion Setting SystemFacts
  Parse Grammar ParseFacts ParsedSystems Sources SiTree Accuracy PropertiesSystem
  PropertiesSources FastCheck FastFactor.
Import ListNotations.
Close Scope Qc_scope. Close Scope Q_scope. Close Scope R_scope.
Local Open Scope string_scope.
Local Open Scope list_scope.

(** Deciding the side conditions of the grammar. *)
Definition wf_atomb (a : atom) : bool := match a with AtIdent s => accept_as_ident s | AtLit _ => true end.
Definition begins_with_identb (f : sf) : bool :=
  match f with SfVal (AtIdent _) | SfPow (AtIdent _) _ => true | _ => false end.
Fixpoint wf_xb (x : sx) : bool :=
  match x with
  | SxOne f => wf_fb f
  | SxBin l o f => wf_xb l && wf_fb f && match o with ByJuxtaposition => begins_with_identb f | _ => true end
  end
with wf_fb (f : sf) : bool :=
  match f with SfVal a | SfPow a _ => wf_atomb a | SfParen x => wf_xb x end.
Definition wf_slistb {A} (l : slist A) : bool :=
  match sl_trailing l, sl_items l with true, [] => false | _, _ => true end.
Definition wf_uattrb (a : uattr) : bool :=
  match a with
  | UBase i | USymbol i => accept_as_ident i
  | UAlias l => wf_slistb l && forallb accept_as_ident (sl_items l)
  | UMetric _ => true
  | UMetricSkip l | UPrefix l => wf_slistb l
  end.
Definition wf_optb {A} (p : A -> bool) (o : option A) : bool := match o with Some a => p a | None => true end.
Definition wf_stmtb (s : stmt) : bool :=
  match s with
  | SQuantityType [] i | SDimensionType [] i => accept_as_ident i
  | SDimension [] i r => accept_as_ident i && wf_optb wf_xb r
  | SUnit l i a r => forallb wf_uattrb l && accept_as_ident i && wf_optb accept_as_ident a && wf_optb wf_xb r
  | SConstant [] i a x => accept_as_ident i && wf_optb accept_as_ident a && wf_xb x
  | _ => false
  end.
Lemma wf_atomb_ok a : wf_atomb a = true -> wf_atom a.
Proof. destruct a; [apply accept_name|easy]. Qed.
Lemma wf_xb_ok : (forall x, wf_xb x = true -> wf_x x) /\ (forall f, wf_fb f = true -> wf_f f).
Proof.
  apply sx_sf_ind.
  - intros f IH H. exact (IH H).
  - intros l IHl o f IHf H. cbn [wf_xb] in H. apply andb_true_iff in H as [H Ho].
    apply andb_true_iff in H as [Hl Hf]. cbn [wf_x]. split; [exact (IHl Hl)|]. split; [exact (IHf Hf)|].
    intros ->. destruct f as [[|]|[|]|]; easy.
  - intros a. apply wf_atomb_ok.
  - intros a e. apply wf_atomb_ok.
  - intros x IH H. exact (IH H).
Qed.
Lemma wf_slistb_ok {A} (l : slist A) : wf_slistb l = true -> wf_slist l.
Proof. unfold wf_slistb, wf_slist. destruct (sl_trailing l), (sl_items l); easy. Qed.
Lemma forallb_Forall {A} (p : A -> bool) (P : A -> Prop) l : (forall a, p a = true -> P a) ->
  forallb p l = true -> Forall P l.
Proof. intros H F. rewrite forallb_forall in F. apply Forall_forall. auto. Qed.
Lemma wf_optb_ok {A} (p : A -> bool) (P : A -> Prop) o : (forall a, p a = true -> P a) ->
  wf_optb p o = true -> wf_opt P o.
Proof. intros H. destruct o; cbn; auto. Qed.
Lemma name_ok i : accept_as_ident i = true -> wf_ident i.
Proof. apply accept_name. Qed.
Lemma wf_uattrb_ok a : wf_uattrb a = true -> wf_uattr a.
Proof.
  destruct a as [d|l|d|b|l|l]; cbn [wf_uattrb wf_uattr]; try apply accept_name; try apply wf_slistb_ok; [|easy].
  intros H. apply andb_true_iff in H as [H1 H2]. split; [now apply wf_slistb_ok|].
  exact (forallb_Forall _ _ _ name_ok H2).
Qed.
Lemma wf_stmtb_ok s : wf_stmtb s = true -> wf_stmt s.
Proof.
  destruct s as [[|? ?] i|[|? ?] i|[|? ?] i r|l i a r|[|? ?] i a x]; cbn [wf_stmtb wf_stmt]; try discriminate;
    rewrite ?andb_true_iff; intros H.
  - split; [constructor|now apply name_ok].
  - split; [constructor|now apply name_ok].
  - destruct H. repeat split; [constructor|now apply name_ok|]. eapply wf_optb_ok; [|eassumption]. apply wf_xb_ok.
  - destruct H as (((H1 & H2) & H3) & H4). repeat split.
    + exact (forallb_Forall _ _ _ wf_uattrb_ok H1).
    + now apply name_ok.
    + exact (wf_optb_ok _ _ _ name_ok H3).
    + exact (wf_optb_ok _ _ _ (proj1 wf_xb_ok) H4).
  - destruct H as ((H1 & H2) & H3). repeat split; [constructor|now apply name_ok| |].
    + exact (wf_optb_ok _ _ _ name_ok H2).
    + now apply wf_xb_ok.
Qed.

Lemma si_wfb : forallb wf_stmtb (sl_items si_file) = true.
Proof. vm_compute. reflexivity. Qed.
Lemma si_wf : wf_file si_file.
Proof. split; [discriminate|]. exact (forallb_Forall _ _ _ wf_stmtb_ok si_wfb). Qed.
Lemma si_exponents : forallb (fun s => forallb (fun e => match e with SxInt _ => true | SxRatio _ _ => false end)
  (stmt_exps s)) (sl_items si_file) = true.
Proof. vm_compute. reflexivity. Qed.
Lemma si_positive : positive_denominators si_file.
Proof.
  intros s n d z Hs He _. pose proof si_exponents as F. rewrite forallb_forall in F. specialize (F s Hs).
  rewrite forallb_forall in F. specialize (F _ He). discriminate F.
Qed.

Definition parsed_check (k : mode) (ts : list tok) : bool :=
  match parse_system k ts with Some T => fast_check (ops k) 3 (expand_templates T) | None => false end.
Lemma parsed_check_some k ts T : parse_system k ts = Some T ->
  parsed_check k ts = fast_check (ops k) 3 (expand_templates T).
Proof. intros E. unfold parsed_check. now rewrite E. Qed.
Lemma parsed_check_none k ts : parse_system k ts = None -> parsed_check k ts = false.
Proof. intros E. unfold parsed_check. now rewrite E. Qed.
Lemma si_checks k : parsed_check k si_source = true.
Proof. destruct k; vm_cast_no_check (eq_refl true). Qed.
Lemma si_literals k T : parse_system k si_source = Some T -> literals_ok k T.
Proof.
  intros E. destruct k.
  - exact (integer_literals_ok _ _ E).
  - rewrite <- si_printed in E. exact (rational_literals_ok _ _ si_wf si_positive E).
Qed.

(** The SI system is accepted without a diagnostic in both builds and on every platform; every unit
    (with all its aliases and prefixes) and constant that is annotated has a dimension, and it is exactly
    the one of the annotation. *)
Theorem C64_accepted : forall k env, exists T o,
  parse_system k si_source = Some T /\
  run_unit_system (ops k) env T = Some (o, []) /\
  forall x a, In x (decls (declared T)) -> annotation x = Some a ->
    (exists w, denotes_dim k o (decl_name x) w) /\
    forall v w, denotes_dim k o a v -> denotes_dim k o (decl_name x) w -> forall b, v b = w b.
Proof.
  intros k env. pose proof (si_checks k) as C.
  destruct (parse_system k si_source) as [T|] eqn:E.
  2: { rewrite (parsed_check_none k _ E) in C. discriminate C. }
  rewrite (parsed_check_some k _ T E) in C. unfold fast_check in C. cbv zeta in C.
  destruct (checks_sound (ops k) (laws k) env _ _ C (generated_ok_expand (ops k) T)) as (o & R & A).
  exists T, o. split; [reflexivity|]. split; [exact R|]. intros x a Hx Ha. split.
  - destruct (C24_dimension_equations k env T o (si_literals k T E) R x Hx) as (H & _). exact H.
  - rewrite <- declared_expand in Hx. intros v w. now apply A.
Qed.
Print Assumptions C64_accepted.

(** Every prefixed base unit of it, under every name, has as factor the double nearest to the power of ten. *)
Theorem C64_si_prefixed_base_units : forall k env lo T o t p d (alias : option ident) f,
  good_platform env lo -> parse_system k si_source = Some T -> run_unit_system (ops k) env T = Some (o, []) ->
  In t (u_units T) -> ut_definition t = DefBase d -> In p (ut_prefixes t) ->
  (forall a, alias = Some a -> In a (ut_aliases t)) ->
  denotes_fac k env o (si_name p ++ match alias with None => ut_name t | Some a => a end)%string f ->
  nearest (powerRZ 10%R (si_power p)) f.
Proof.
  intros k env lo T o t p d alias f G E R. exact (C64_prefixed_base_units k env lo T o t p d alias f G (si_literals k T E) R).
Qed.
Print Assumptions C64_si_prefixed_base_units.

(** The system has 77 dimensions, 1167 units and one constant; of the latter 1168 all but the constant [PI] are annotated. *)
Example C64_size : forall k, match parse_system k si_source with
  | Some T => let S := declared T in
      (length (u_dimensions S), length (u_units S), length (u_constants S),
       length (filter (fun x => match annotation x with Some _ => true | None => false end) (decls S)))
  | None => (0, 0, 0, 0)%nat
  end = (77, 1167, 1, 1167)%nat.
Proof. intros []; vm_compute; reflexivity. Qed.

(** ** C66: the factors of the SI units are accurate *)
Definition parsed_close (env : fenv) (ts : list tok) (src : slist stmt) : bool :=
  match parse_system IntegerExponents ts with Some T => factors_close env 51 3 T src | None => false end.
Lemma parsed_close_some env ts src T : parse_system IntegerExponents ts = Some T ->
  parsed_close env ts src = factors_close env 51 3 T src.
Proof. intros E. unfold parsed_close. now rewrite E. Qed.
Lemma accuracy_rt powf : parsed_close (env_rt powf) si_source si_file = true.
Proof. vm_cast_no_check (eq_refl true). Qed.
Lemma accuracy_nt powf : parsed_close (env_nt powf) si_source si_file = true.
Proof. vm_cast_no_check (eq_refl true). Qed.

(** With integer exponents, on both known implementations of [powi]: the factor of every SI unit
    (under all its aliases and prefixes) and constant differs from the exact value its definition states by
    at most [2^-51] of it. *)
Theorem C66_si_factors : forall powf env, env = env_rt powf \/ env = env_nt powf ->
  exists T o, parse_system IntegerExponents si_source = Some T /\
  run_unit_system (ops IntegerExponents) env T = Some (o, []) /\
  forall G, exact_solution G si_file -> forall n f, denotes_fac IntegerExponents env o n f ->
    is_finite 53 1024 f = true /\
    (Rabs (B2R 53 1024 f - Q2R (G n)) <= bpow radix2 (-51) * Rabs (Q2R (G n)))%R.
Proof.
  intros powf env He. destruct (C64_accepted IntegerExponents env) as (T & o & E & R & _).
  exists T, o. split; [exact E|]. split; [exact R|].
  assert (P : exists lo, good_platform env lo /\ (lo <= -952)%Z).
  { destruct He as [->| ->]; eexists; (split; [apply good_rt || apply good_nt|lia]). }
  destruct P as (lo & P & Low).
  assert (C : parsed_close env si_source si_file = true) by (destruct He as [->| ->]; [apply accuracy_rt|apply accuracy_nt]).
  exact (factors_close_ok env lo P Low 51 3 T si_file o (eq_trans (eq_sym (parsed_close_some env _ _ T E)) C) R).
Qed.
Print Assumptions C66_si_factors.

(** There is an exact solution (and only one: [exact_table_ok]). *)
Lemma exact_check : (let t := exact_table 3 si_file in
  forallb (def_checks (fun n => tget (bits n) t)) (file_defs si_file)) = true.
Proof. vm_cast_no_check (eq_refl true). Qed.
Example C66_applies : exists G, exact_solution G si_file.
Proof. exists (ev_all (fun n => tget (bits n) (exact_table 3 si_file))). exact (checks_solution _ _ exact_check). Qed.
(** The factor of the litre is not the double nearest to [10^-3], but the next one. *)
Definition parsed_factor (env : fenv) (ts : list tok) (n : ident) (b : Z) : bool :=
  match parse_system IntegerExponents ts with
  | Some T =>
      match tget (bits n) (factor_table env 3 (expand_templates T)) with
      | Some f => Z.eqb (bits_of_b64 f) b
      | None => false
      end
  | None => false
  end.
Lemma parsed_factor_some env lo ts n b T o f : good_platform env lo -> (lo <= -952)%Z ->
  parsed_factor env ts n b = true -> parse_system IntegerExponents ts = Some T ->
  run_unit_system (ops IntegerExponents) env T = Some (o, []) ->
  denotes_fac IntegerExponents env o n f -> bits_of_b64 f = b.
Proof.
  intros P Low C E R Hf. unfold parsed_factor in C. rewrite E in C.
  match type of C with (match ?x with Some _ => _ | None => _ end) = _ => destruct x as [f'|] eqn:Ef end; [|discriminate C].
  rewrite (factor_table_ok env lo P Low 3 T o R _ _ Ef f Hf). now apply Z.eqb_eq.
Qed.
Lemma litre_table powf :
  parsed_factor (env_rt powf) si_source "litre" (bits_of_b64 (f64_of_decimal 1 (-3)) + 1) = true.
Proof. vm_cast_no_check (eq_refl true). Qed.
Example C66_litre : forall powf T o f,
  parse_system IntegerExponents si_source = Some T ->
  run_unit_system (ops IntegerExponents) (env_rt powf) T = Some (o, []) ->
  denotes_fac IntegerExponents (env_rt powf) o "litre" f ->
  bits_of_b64 f = (bits_of_b64 (f64_of_decimal 1 (-3)) + 1)%Z.
Proof.
  intros powf T o f E R Hf.
  exact (parsed_factor_some _ (-1023) _ _ _ T o f (good_rt powf) ltac:(lia) (litre_table powf) E R Hf).
Qed.
