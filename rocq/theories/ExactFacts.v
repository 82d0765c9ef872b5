(** * The exact meaning of an accepted file exists and is unique *)
From Coq Require Import String List Bool ZArith QArith Lia Permutation.
From Verif Require Import MachineInt Ratio F64 Magnitude Exponent ExponentFacts Expression Types PrefixSpec ExpansionSpec
  Resolve SystemSpec ResolveFacts ResolveEquations ResolveAccept Expansion Setting SystemFacts PropertiesSystem
  Parse Grammar ParseFacts ParsedSystems Accuracy RoundingFacts AccuracyFacts.
Import ListNotations.
Close Scope Q_scope.
Local Open Scope list_scope.

(** The names in a definition. *)
Inductive in_x (s : ident) : sx -> Prop :=
| in_one f : in_f s f -> in_x s (SxOne f)
| in_left l o f : in_x s l -> in_x s (SxBin l o f)
| in_right l o f : in_f s f -> in_x s (SxBin l o f)
with in_f (s : ident) : sf -> Prop :=
| in_val : in_f s (SfVal (AtIdent s))
| in_pow e : in_f s (SfPow (AtIdent s) e)
| in_paren x : in_x s x -> in_f s (SfParen x).
Definition in_def (s : ident) (d : xdef) : Prop :=
  match d with XBase => False | XExpr x => in_x s x | XScaled _ i => s = i end.

(** Exponents are integers. *)
Inductive int_x : sx -> Prop :=
| int_one f : int_f f -> int_x (SxOne f)
| int_bin l o f : int_x l -> int_f f -> int_x (SxBin l o f)
with int_f : sf -> Prop :=
| int_val a : int_f (SfVal a)
| int_pow a e z : exp_Z e = Some z -> int_f (SfPow a e)
| int_paren x : int_x x -> int_f (SfParen x).

Section Mode.
Context {md : mode}.
Notation X := (ops md).
Lemma mean_names :
  (forall x e, mean_unit_rhs md x = Some e -> (md = IntegerExponents -> int_x x) /\ forall s, in_x s x -> occurs s e) /\
  (forall f e, mean_f mean_unit_atom (mean_exp md) f = Some e -> (md = IntegerExponents -> int_f f) /\ forall s, in_f s f -> foccurs s e).
Proof.
  unfold mean_unit_rhs. apply sx_sf_ind.
  - intros f IH e M. rewrite mean_one in M.
    destruct (mean_f mean_unit_atom (mean_exp md) f) as [f'|]; [|discriminate M].
    assert (E : e = EVal f') by congruence. subst e. destruct (IH f' eq_refl) as [I O]. split; [intros Em; constructor; auto|].
    intros s H. inversion H; subst. constructor. auto.
  - intros l IHl o f IHf e M. rewrite mean_bin in M.
    destruct (mean_x mean_unit_atom (mean_exp md) l) as [l'|]; [|discriminate M].
    destruct (mean_f mean_unit_atom (mean_exp md) f) as [f'|]; [|discriminate M].
    assert (E : e = EBin l' f' (mean_op o)) by congruence. subst e.
    destruct (IHl l' eq_refl) as [I O]. destruct (IHf f' eq_refl) as [I' O']. split; [intros Em; constructor; auto|].
    intros s H. inversion H; subst; [apply occ_lhs|apply occ_rhs]; auto.
  - intros a e M. rewrite mean_val in M. split; [intros _; constructor|]. intros s H. inversion H; subst.
    cbn [mean_unit_atom] in M. assert (E : e = FVal (Other s)) by congruence. subst e. constructor.
  - intros a x e M. rewrite mean_pow in M. destruct (mean_unit_atom a) as [w|] eqn:Ma; [|discriminate M].
    destruct (mean_exp md x) as [p|] eqn:Mp; [|discriminate M].
    assert (E : e = FPow w p) by congruence. subst e. split.
    + intros Em. clear -Mp Em. revert p Mp. rewrite Em. intros p Mp. destruct x as [[neg n|? ? ?]|]; cbn [mean_exp] in Mp; try discriminate Mp.
      unfold mean_int in Mp. econstructor. reflexivity.
    + intros s H. inversion H; subst. cbn [mean_unit_atom] in Ma.
      assert (E : w = Other s) by congruence. subst w. constructor.
  - intros x IH e M. rewrite mean_paren in M.
    destruct (mean_x mean_unit_atom (mean_exp md) x) as [x'|]; [|discriminate M].
    assert (E : e = FParen x') by congruence. subst e. destruct (IH x' eq_refl) as [I O]. split; [intros Em; constructor; auto|].
    intros s H. inversion H; subst. constructor. auto.
Qed.

(** A definition stands for what it says in every assignment that gives the same values to its names. *)
Lemma int_has G : (forall x, int_x x -> exists q, is_x G x q) /\ (forall f, int_f f -> exists q, is_f G f q).
Proof.
  apply sx_sf_ind.
  - intros f IH I. inversion I; subst. destruct (IH H0) as [q Hq]. exists q. now constructor.
  - intros l IHl o f IHf I. inversion I as [|? ? ? Il If]; subst. destruct (IHl Il) as [a Ha]. destruct (IHf If) as [b Hb].
    destruct o; eexists; [apply is_mul| apply is_div| apply is_mul]; eauto; discriminate.
  - intros a _. eexists. constructor.
  - intros a e I. inversion I; subst. eexists. econstructor. eassumption.
  - intros x IH I. inversion I; subst. destruct (IH H0) as [q Hq]. exists q. now constructor.
Qed.
Lemma same_value G G' :
  (forall x q q', is_x G x q -> is_x G' x q' -> (forall s, in_x s x -> (G s == G' s)%Q) -> (q == q')%Q) /\
  (forall f q q', is_f G f q -> is_f G' f q' -> (forall s, in_f s f -> (G s == G' s)%Q) -> (q == q')%Q).
Proof.
  apply sx_sf_ind.
  - intros f IH q q' A B H. inversion A; inversion B; subst. apply IH; auto. intros s O. apply H. now constructor.
  - intros l IHl o f IHf q q' A B H.
    assert (Hl : forall s, in_x s l -> (G s == G' s)%Q) by (intros s O; apply H; now apply in_left).
    assert (Hf : forall s, in_f s f -> (G s == G' s)%Q) by (intros s O; apply H; now apply in_right).
    inversion A as [|? ? ? a b Ho Ha Hb|? ? a b Ha Hb]; subst; inversion B as [|? ? ? a' b' Ho' Ha' Hb'|? ? a' b' Ha' Hb'];
      subst; try congruence; rewrite (IHl a a' Ha Ha' Hl), (IHf b b' Hb Hb' Hf); reflexivity.
  - intros a q q' A B H. inversion A; inversion B; subst. destruct a as [s|l]; cbn [atom_Q]; [|reflexivity].
    apply H. constructor.
  - intros a e q q' A B H. inversion A as [|? ? z Hz|]; inversion B as [|? ? z' Hz'|]; subst.
    assert (z = z') by congruence. subst z'. destruct a as [s|l]; cbn [atom_Q]; [|reflexivity].
    assert (K : (G s == G' s)%Q) by (apply H; constructor). rewrite K. reflexivity.
  - intros x IH q q' A B H. inversion A; inversion B; subst. apply IH; auto. intros s O. apply H. now constructor.
Qed.
Definition int_def (d : xdef) : Prop := match d with XExpr x => int_x x | _ => True end.
Lemma int_def_has G d : int_def d -> exists q, is_def G d q.
Proof.
  destruct d as [|x|k i]; cbn [int_def is_def]; intros I; [now exists 1%Q|now apply int_has|eexists; reflexivity].
Qed.
Lemma same_def G G' d q q' : is_def G d q -> is_def G' d q' -> (forall s, in_def s d -> (G s == G' s)%Q) -> (q == q')%Q.
Proof.
  destruct d as [|x|k i]; cbn [is_def in_def].
  - intros -> ->. reflexivity.
  - apply (proj1 (same_value G G')).
  - intros -> -> H. now rewrite (H i eq_refl).
Qed.

(** ** Every definition of the text is a declaration *)
Lemma collect_all {A B} (g : A -> option B) l m x : collect g l = Some m -> In x l -> exists y, In y m /\ g x = Some y.
Proof.
  revert m. induction l as [|a l IH]; intros m C H; [destruct H|]. cbn [collect] in C.
  destruct (g a) as [b|] eqn:E; [|discriminate C]. destruct (collect g l) as [bs|]; [|discriminate C].
  assert (m = b :: bs) by congruence. subst m. destruct H as [<-|H].
  - exists b. split; [now left|exact E].
  - destruct (IH bs eq_refl H) as (y & Hy & Ey). exists y. split; [now right|exact Ey].
Qed.

Lemma source_decl f (T : template md) n d : mean_file md f = Some T ->
  In (n, d) (file_defs f) -> exists x, In x (decls (declared T)) /\ decl_name x = n /\ ~ is_dimension _ x /\ (md = IntegerExponents -> int_def d) /\
    (forall s, in_def s d -> mentions x s) /\
    match x with DDimension _ => False | DUnit u => d = XBase \/ decl_kind (DUnit u) = KUnit | DConstant _ => True end.
Proof.
  intros M Hd. unfold mean_file in M.
  destruct (collect (mean_stmt md) (sl_items f)) as [es|] eqn:Co; [|discriminate M].
  assert (Eu : u_units T = flat_map (fun e => match e with EntUnit _ u => [u] | _ => [] end) es)
    by (injection M as <-; reflexivity).
  assert (Ec : u_constants T = flat_map (fun e => match e with EntConstant _ c => [c] | _ => [] end) es)
    by (injection M as <-; reflexivity).
  clear M. unfold file_defs in Hd. apply in_flat_map in Hd as (s & Hs & Hd).
  destruct (collect_all _ _ _ _ Co Hs) as (en & Hen & Ms).
  destruct s as [| |? ? ?|l i ann rhs|l i ann x]; try easy.
  2: { cbn [stmt_defs] in Hd. destruct Hd as [Hd|[]]. assert (n = i /\ d = XExpr x) as [-> ->] by (split; congruence).
    cbn [mean_stmt] in Ms. destruct (mean_unit_rhs md x) as [e|] eqn:Mx; [|discriminate Ms].
    destruct en as [| | | |c]; try discriminate Ms.
    assert (E : ce_name c = i /\ ce_rhs c = e) by (injection Ms as <-; auto). destruct E as [E1 E2].
    exists (DConstant c). split.
    - unfold decls. rewrite !in_app_iff, !in_map_iff. right. right. exists c. split; [reflexivity|].
      change (u_constants (declared T)) with (u_constants T). rewrite Ec. apply in_flat_map. exists (EntConstant _ c). split; [exact Hen|now left].
    - split; [exact E1|]. split; [cbn; auto|]. destruct (proj1 mean_names x e Mx) as [I O]. split; [exact I|].
      split; [|exact Logic.I]. intros s Ho. cbn [mentions]. rewrite E2. now apply O. }
  cbn [mean_stmt] in Ms. destruct (mean_unit md l i ann rhs) as [t|] eqn:Mu; [|discriminate Ms].
  destruct en as [| | |u|]; try discriminate Ms. assert (E : u = t) by congruence. subst u. clear Ms.
  assert (Ht : In t (u_units T)) by (rewrite Eu; apply in_flat_map; exists (EntUnit _ t); split; [exact Hen|now left]).
  unfold mean_unit in Mu.
  destruct (mean_unit_definition md (bases_of l) rhs) as [def|] eqn:D; [|discriminate Mu].
  destruct (at_most_one (symbols_of l)) as [sy|]; [|discriminate Mu].
  destruct (at_most_one (metrics_of l)) as [me|] eqn:Me; [|discriminate Mu].
  assert (Et : ut_name t = i /\ ut_aliases t = alias_names l /\ ut_definition t = def /\
     ut_prefixes t = match me with Some skip => si_without skip | None => [] end ++ explicit_prefixes l)
    by (injection Mu as <-; auto).
  destruct Et as (En & Ea & Ed & Ep). clear Mu.
  assert (Ep' : ut_prefixes t = prefixes_of l).
  { rewrite Ep. unfold prefixes_of. f_equal. destruct (metrics_of l) as [|m1 [|]]; cbn [at_most_one] in Me;
      try discriminate Me; injection Me as <-; cbn [flat_map]; rewrite ?app_nil_r; reflexivity. }
  assert (IN : forall p a, chosen (ut_prefixes t) p -> chosen (ut_aliases t) a -> In (DUnit (variant t p a)) (decls (declared T))).
  { intros p a Hp Ha. unfold decls. rewrite !in_app_iff, !in_map_iff. right. left. exists (variant t p a). split; [reflexivity|].
    apply declared_units. exists t. split; [exact Ht|]. exists p, a. auto. }
  assert (SC : forall p a k, chosen (ut_prefixes t) p -> chosen (ut_aliases t) a -> (p <> None \/ a <> None) ->
     variant_name t p a = n -> d = XScaled k i ->
     exists x, In x (decls (declared T)) /\ decl_name x = n /\ ~ is_dimension _ x /\ (md = IntegerExponents -> int_def d) /\
    (forall s, in_def s d -> mentions x s) /\
    match x with DDimension _ => False | DUnit u => d = XBase \/ decl_kind (DUnit u) = KUnit | DConstant _ => True end).
  { intros p a k Hp Ha Np Hn ->. exists (DUnit (variant t p a)). split; [now apply IN|]. split; [exact Hn|]. split; [cbn; auto|].
    split; [intros _; exact Logic.I|]. split.
    - cbn [in_def]. intros s ->. cbn [mentions ue_definition variant]. unfold variant_definition. rewrite En.
      destruct p; [apply occ_rhs; constructor|]. destruct a; [apply occ_rhs; constructor|]. destruct Np; congruence.
    - right. cbn [decl_kind ue_definition variant]. unfold variant_definition. destruct p; [reflexivity|]. destruct a; [reflexivity|].
      destruct Np; congruence. }
  cbn [stmt_defs] in Hd. destruct Hd as [Hd|Hd].
  - assert (n = i /\ d = match rhs with Some x => XExpr x | None => XBase end) as [-> ->] by (split; congruence).
    exists (DUnit (variant t None None)). split; [apply IN; exact Logic.I|]. split; [exact En|]. split; [cbn; auto|].
    cbn [mentions decl_kind ue_definition variant]. unfold variant_definition. rewrite Ed.
    unfold mean_unit_definition in D. destruct (bases_of l) as [|b [|b2 bs]], rhs as [x|]; try discriminate D.
    + destruct (mean_unit_rhs md x) as [e|] eqn:Mx; [|discriminate D].
      assert (E : def = DefExpr (B := ident) (C := magnitude) e) by congruence. rewrite E.
      destruct (proj1 mean_names x e Mx) as [I O]. split; [exact I|]. split; [exact O|now right].
    + split; [intros _; exact Logic.I|]. split; [intros s []|now left].
  - apply in_app_iff in Hd as [Hd|Hd].
    + apply in_map_iff in Hd as (a & Hd & Ha). assert (n = a /\ d = XScaled 0 i) as [-> ->] by (split; congruence).
      apply (SC None (Some a) 0%Z); [exact Logic.I|unfold chosen; rewrite Ea; exact Ha|right; discriminate|reflexivity|reflexivity].
    + apply in_flat_map in Hd as (p & Hp & Hd). apply in_map_iff in Hd as (a & Hd & Ha).
      assert (Hn : n = (si_name p ++ a)%string /\ d = XScaled (si_power p) i) by (split; congruence). destruct Hn as [Hn Hdd].
      assert (Hp' : chosen (ut_prefixes t) (Some p)) by (unfold chosen; rewrite Ep'; exact Hp).
      destruct Ha as [<-|Ha].
      * apply (SC (Some p) None (si_power p)); [exact Hp'|exact Logic.I|left; discriminate| |exact Hdd]. rewrite Hn. unfold variant_name. now rewrite En.
      * apply (SC (Some p) (Some a) (si_power p)); [exact Hp'|unfold chosen; rewrite Ea; exact Ha|left; discriminate|now rewrite Hn|exact Hdd].
Qed.

(** ** Names of the text and of the declarations, with multiplicity *)
Definition entry_names (en : entry md) : list ident :=
  match en with
  | EntUnit _ t => flat_map (fun p => map (variant_name t p) (options (ut_aliases t))) (options (ut_prefixes t))
  | EntConstant _ c => [ce_name c]
  | _ => []
  end.
Lemma flat_map_perm {A B} (g h : A -> list B) l : (forall x, Permutation (g x) (h x)) -> Permutation (flat_map g l) (flat_map h l).
Proof. intros H. induction l as [|a l IH]; cbn [flat_map]; [constructor|]. now apply Permutation_app. Qed.
Lemma unit_names (t : unit_template X) i al ps : ut_name t = i -> ut_aliases t = al -> ut_prefixes t = ps ->
  Permutation (i :: al ++ flat_map (fun p => map (fun a => (si_name p ++ a)%string) (i :: al)) ps)
    (flat_map (fun p => map (variant_name t p) (options (ut_aliases t))) (options (ut_prefixes t))).
Proof.
  intros En -> ->. unfold options at 2. rewrite flat_map_app. cbn [flat_map]. rewrite app_nil_r.
  assert (E0 : map (variant_name t None) (options al) = al ++ [i]).
  { unfold options. rewrite map_app, map_map. cbn [map]. unfold variant_name. rewrite En. f_equal. apply map_id. }
  rewrite E0. eapply Permutation_trans; [|apply Permutation_app_comm].
  change (i :: al ++ flat_map (fun p => map (fun a => (si_name p ++ a)%string) (i :: al)) ps)
    with ((i :: al) ++ flat_map (fun p => map (fun a => (si_name p ++ a)%string) (i :: al)) ps).
  apply Permutation_app; [apply Permutation_cons_append|].
  induction ps as [|p ps IH]; [constructor|]. cbn [flat_map map app]. change ((si_name p ++ i)%string :: map (fun a => (si_name p ++ a)%string) al ++
     flat_map (fun p => (si_name p ++ i)%string :: map (fun a => (si_name p ++ a)%string) al) ps) with
    (((si_name p ++ i)%string :: map (fun a => (si_name p ++ a)%string) al) ++
     flat_map (fun p => (si_name p ++ i)%string :: map (fun a => (si_name p ++ a)%string) al) ps).
  apply Permutation_app; [|exact IH]. unfold options. rewrite map_app, map_map. cbn [map]. unfold variant_name. rewrite En.
  apply Permutation_cons_append.
Qed.
Lemma stmt_names s en : mean_stmt md s = Some en -> Permutation (map fst (stmt_defs s)) (entry_names en).
Proof.
  destruct s as [? ?|? ?|? ? [x|]|l i ann rhs|l i ann x]; cbn [mean_stmt stmt_defs]; intros Ms.
  - destruct en; try discriminate Ms. constructor.
  - destruct en; try discriminate Ms. constructor.
  - destruct (mean_dimension_rhs md x); [|discriminate Ms]. destruct en; try discriminate Ms. constructor.
  - destruct en; try discriminate Ms. constructor.
  - destruct (mean_unit md l i ann rhs) as [t|] eqn:Mu; [|discriminate Ms].
    destruct en as [| | |u|]; try discriminate Ms. assert (E : u = t) by congruence. subst u. clear Ms.
    unfold mean_unit in Mu.
    destruct (mean_unit_definition md (bases_of l) rhs) as [def|] eqn:D; [|discriminate Mu].
    destruct (at_most_one (symbols_of l)) as [sy|]; [|discriminate Mu].
    destruct (at_most_one (metrics_of l)) as [me|] eqn:Me; [|discriminate Mu].
    assert (Et : ut_name t = i /\ ut_aliases t = alias_names l /\
       ut_prefixes t = match me with Some skip => si_without skip | None => [] end ++ explicit_prefixes l)
      by (injection Mu as <-; auto).
    destruct Et as (En & Ea & Ep). clear Mu.
    assert (Ep' : ut_prefixes t = prefixes_of l).
    { rewrite Ep. unfold prefixes_of. f_equal. destruct (metrics_of l) as [|m1 [|]]; cbn [at_most_one] in Me;
        try discriminate Me; injection Me as <-; cbn [flat_map]; rewrite ?app_nil_r; reflexivity. }
    pose proof (unit_names t i (alias_names l) (prefixes_of l) En Ea Ep') as K.
    cbn [map fst]. rewrite map_app, map_map. cbn [fst]. rewrite map_id.
    eapply Permutation_trans; [|exact K]. constructor. apply Permutation_app_head. clear.
    induction (prefixes_of l) as [|p ps IH]; [constructor|]. cbn [flat_map]. rewrite map_app.
    apply Permutation_app; [|exact IH]. cbn [map fst]. rewrite map_map. apply Permutation_refl.
  - destruct (mean_unit_rhs md x) as [e|]; [|discriminate Ms].
    destruct en as [| | | |c]; try discriminate Ms.
    assert (E : ce_name c = i) by (injection Ms as <-; auto). cbn [map fst entry_names]. rewrite E. apply Permutation_refl.
Qed.
Lemma file_names f (T : template md) : mean_file md f = Some T ->
  Permutation (map fst (file_defs f)) (map ue_name (u_units (declared T)) ++ map ce_name (u_constants T)).
Proof.
  intros M. unfold mean_file in M.
  destruct (collect (mean_stmt md) (sl_items f)) as [es|] eqn:Co; [|discriminate M].
  assert (Eu : u_units T = flat_map (fun e => match e with EntUnit _ u => [u] | _ => [] end) es)
    by (injection M as <-; reflexivity).
  assert (Ec : u_constants T = flat_map (fun e => match e with EntConstant _ c => [c] | _ => [] end) es)
    by (injection M as <-; reflexivity).
  clear M. apply Permutation_trans with (flat_map entry_names es).
  - unfold file_defs. revert es Co Eu Ec. generalize (sl_items f). intros l es Co _ _. revert es Co.
    induction l as [|s l IH]; intros es Co; cbn [collect] in Co; [injection Co as <-; constructor|].
    destruct (mean_stmt md s) as [en|] eqn:Ms; [|discriminate Co].
    destruct (collect (mean_stmt md) l) as [es'|]; [|discriminate Co].
    assert (es = en :: es') by congruence. subst es. cbn [flat_map]. rewrite map_app.
    apply Permutation_app; [now apply stmt_names|now apply IH].
  - cbn [declared u_units]. rewrite Eu, Ec. clear. induction es as [|en es IH]; [constructor|].
    cbn [flat_map]. rewrite !flat_map_app, !map_app.
    destruct en as [| | |t|c]; cbn [entry_names flat_map app map]; try exact IH.
    + rewrite app_nil_r. rewrite <- app_assoc. apply Permutation_app; [|exact IH].
      rewrite flat_map_concat_map, flat_map_concat_map, concat_map, map_map.
      replace (map (fun x => map (variant_name t x) (options (ut_aliases t))) (options (ut_prefixes t)))
        with (map (fun x => map ue_name (map (variant t x) (options (ut_aliases t)))) (options (ut_prefixes t))).
      * apply Permutation_refl.
      * apply map_ext. intros p. rewrite map_map. reflexivity.
    + apply Permutation_cons_app. exact IH.
Qed.

(** ** Evaluation with growing fuel becomes stable *)
Section Stable.
Context (E : nat -> ident -> option Q).
Definition stable (g : nat -> option Q) : Prop := exists k q, forall m, (k <= m)%nat -> g m = Some q.
Lemma stable_map g h (F : Q -> Q) : stable g -> (forall m a, g m = Some a -> h m = Some (F a)) -> stable h.
Proof. intros (k & q & S) H. exists k, (F q). intros m L. apply H. auto. Qed.
Lemma stable_map2 g g' h (F : Q -> Q -> Q) : stable g -> stable g' ->
  (forall m a b, g m = Some a -> g' m = Some b -> h m = Some (F a b)) -> stable h.
Proof.
  intros (k & q & S) (k' & q' & S') H. exists (Nat.max k k'), (F q q'). intros m L. apply H; [apply S|apply S']; lia.
Qed.
Lemma stable_atom a : (forall s, a = AtIdent s -> stable (fun m => E m s)) -> stable (fun m => ev_atom (E m) a).
Proof.
  destruct a as [s|l]; intros H; [exact (H s eq_refl)|]. exists 0%nat, (lit_Q l). reflexivity.
Qed.
Lemma stable_x :
  (forall x, int_x x -> (forall s, in_x s x -> stable (fun m => E m s)) -> stable (fun m => ev_x (E m) x)) /\
  (forall f, int_f f -> (forall s, in_f s f -> stable (fun m => E m s)) -> stable (fun m => ev_f (E m) f)).
Proof.
  apply sx_sf_ind.
  - intros f IH I H. inversion I; subst. change (stable (fun m => ev_f (E m) f)). apply IH; [assumption|].
    intros s O. apply H. now constructor.
  - intros l IHl o f IHf I H. inversion I; subst.
    apply (stable_map2 (fun m => ev_x (E m) l) (fun m => ev_f (E m) f) _
      (fun a b => Qred (match o with BySlash => a / b | _ => a * b end)%Q)).
    + apply IHl; [assumption|]. intros s O. apply H. now apply in_left.
    + apply IHf; [assumption|]. intros s O. apply H. now apply in_right.
    + intros m a b Ea Eb. now rewrite ev_bin, Ea, Eb.
  - intros a _ H. apply stable_atom. intros s ->. apply H. constructor.
  - intros a e I H. inversion I as [|? ? z Hz|]; subst.
    apply (stable_map (fun m => ev_atom (E m) a) _ (fun q => Qred (q ^ z)%Q)).
    + apply stable_atom. intros s ->. apply H. constructor.
    + intros m q Eq. now rewrite ev_pow, Eq, Hz.
  - intros x IH I H. inversion I; subst. change (stable (fun m => ev_x (E m) x)). apply IH; [assumption|].
    intros s O. apply H. now constructor.
Qed.
Lemma stable_def d : int_def d -> (forall s, in_def s d -> stable (fun m => E m s)) -> stable (fun m => ev_def (E m) d).
Proof.
  destruct d as [|x|k i]; cbn [int_def in_def]; intros I H.
  - exists 0%nat, 1%Q. reflexivity.
  - now apply stable_x.
  - apply (stable_map (fun m => E m i) _ (fun q => Qred ((10 # 1) ^ k * q)%Q)); [now apply H|].
    intros m q Eq. cbn [ev_def]. now rewrite Eq.
Qed.
End Stable.
Lemma stable_S g : stable (fun m => g (S m)) -> stable g.
Proof. intros (k & q & H). exists (S k), q. intros [|m] L; [lia|]. apply H. lia. Qed.
Lemma stable_all {A} (g : nat -> A -> option Q) l : (forall a, In a l -> stable (fun m => g m a)) ->
  exists k, forall a, In a l -> exists q, forall m, (k <= m)%nat -> g m a = Some q.
Proof.
  induction l as [|a l IH]; intros H; [exists 0%nat; intros a []|].
  destruct (H a (or_introl eq_refl)) as (k & q & S). destruct (IH (fun b Hb => H b (or_intror Hb))) as (k' & S').
  exists (Nat.max k k'). intros b [<-|Hb].
  - exists q. intros m L. apply S. lia.
  - destruct (S' b Hb) as (q' & S''). exists q'. intros m L. apply S''. lia.
Qed.

(** ** Uniqueness and existence *)
Section Accepted.
Context (env : fenv) (f : slist stmt) (T : template md) (o : defs X).
Hypothesis M : mean_file md f = Some T.
Hypothesis R : run_unit_system X env T = Some (o, []).

Lemma accepted_wf : well_formed (declared T).
Proof.
  destruct (accepted_all X (laws md) env _ o (generated_ok_expand _ T) R) as (W & _).
  now rewrite declared_expand in W.
Qed.

(** Names are defined once in the text. *)
Lemma one_source n d d' : In (n, d) (file_defs f) -> In (n, d') (file_defs f) -> d = d'.
Proof.
  intros A B. pose proof (wf_names _ _ accepted_wf) as N.
  assert (K : NoDup (map fst (file_defs f))).
  { apply (Permutation_NoDup (Permutation_sym (file_names f T M))). unfold decls in N.
    rewrite !map_app, !map_map in N. clear - N. revert N. generalize (map (fun x => decl_name (DDimension x)) (u_dimensions (declared T))).
    intros l. induction l as [|a l IH]; [auto|]. cbn [app]. intros N. inversion N; subst. auto. }
  pose proof (name_eq fst _ _ _ K A B eq_refl) as E. congruence.
Qed.

Lemma source_names n d s : In (n, d) (file_defs f) -> in_def s d -> exists d', In (s, d') (file_defs f).
Proof.
  intros Hd Hs. pose proof accepted_wf as W.
  destruct (source_decl f T n d M Hd) as (x & Hx & _ & Nx & _ & Mx & Kx). specialize (Mx s Hs).
  destruct (proj1 (in_map_iff _ _ _) (wf_defined _ _ W x s Hx Mx)) as (y & Ey & Hy). subst s.
  pose proof (wf_kinds _ _ W x y Hx Hy Mx) as Km.
  destruct y as [y|u|c].
  - exfalso. destruct x as [|u|c]; [destruct (Nx Logic.I)| |].
    + destruct Kx as [-> |Ku]; [destruct Hs|]. rewrite Ku in Km. now apply Km.
    + now apply Km.
  - assert (Hu : In u (u_units (declared T))) by now apply (unit_decl X).
    apply declared_units in Hu as (t & Ht & p & a & Hp & Ha & ->).
    destruct (unit_source md f T t p a M Ht Hp Ha) as (d' & Hd' & _). exists d'. exact Hd'.
  - assert (Hc : In c (u_constants T)).
    { unfold decls in Hy. rewrite !in_app_iff, !in_map_iff in Hy.
      destruct Hy as [(z & E & _)|[(z & E & _)|(z & E & Hz)]]; [discriminate E|discriminate E|].
      assert (z = c) by congruence. now subst z. }
    destruct (constant_source md f T c M Hc) as (x' & Hd' & _). eexists. exact Hd'.
Qed.

Lemma solution_unique G G' : exact_solution G f -> exact_solution G' f ->
  forall n d, In (n, d) (file_defs f) -> (G n == G' n)%Q.
Proof.
  intros S S' n d Hd. pose proof accepted_wf as W.
  assert (Gr : grounded (declared T) n).
  { destruct (source_decl f T n d M Hd) as (x & Hx & <- & _). exact (wf_grounded _ _ W x Hx). }
  revert d Hd. induction Gr as [y Hy _ IH]. intros d Hd.
  destruct (source_decl f T _ d M Hd) as (x & Hx & Ex & _ & _ & Mx & _).
  apply (name_eq decl_name _ _ _ (wf_names _ _ W) Hx Hy) in Ex. subst y.
  destruct (S _ d Hd) as (q & Q & ->). destruct (S' _ d Hd) as (q' & Q' & ->).
  apply (same_def G G' d q q' Q Q'). intros s Hs. destruct (source_names _ d s Hd Hs) as (d' & Hd').
  exact (IH s (Mx s Hs) d' Hd').
Qed.

Lemma ev_name_step m n d : In (n, d) (file_defs f) -> ev_name (file_defs f) (S m) n = ev_def (ev_name (file_defs f) m) d.
Proof.
  intros Hd. change (ev_name (file_defs f) (S m) n) with
    (match find (fun e => String.eqb n (fst e)) (file_defs f) with
     | Some e => ev_def (ev_name (file_defs f) m) (snd e) | None => None end).
  destruct (find (fun e => String.eqb n (fst e)) (file_defs f)) as [[n' d']|] eqn:F.
  - apply find_some in F as [F E]. cbn [fst] in E. apply String.eqb_eq in E. subst n'. cbn [snd].
    now rewrite (one_source n d d' Hd F).
  - exfalso. pose proof (find_none _ _ F _ Hd) as K. cbn [fst] in K. rewrite String.eqb_refl in K. discriminate K.
Qed.
(** Every exponent in the definitions of units and constants is a whole number. *)
Hypothesis Whole : forall n d, In (n, d) (file_defs f) -> int_def d.
Lemma ev_name_stable n d : In (n, d) (file_defs f) -> stable (fun m => ev_name (file_defs f) m n).
Proof.
  intros Hd. pose proof accepted_wf as W.
  assert (Gr : grounded (declared T) n).
  { destruct (source_decl f T n d M Hd) as (x & Hx & <- & _). exact (wf_grounded _ _ W x Hx). }
  revert d Hd. induction Gr as [y Hy _ IH]. intros d Hd.
  destruct (source_decl f T _ d M Hd) as (x & Hx & Ex & _ & _ & Mx & _).
  apply (name_eq decl_name _ _ _ (wf_names _ _ W) Hx Hy) in Ex. subst y.
  apply stable_S.
  assert (K : stable (fun m => ev_def (ev_name (file_defs f) m) d)).
  { apply stable_def; [exact (Whole _ d Hd)|]. intros s Hs. destruct (source_names _ d s Hd Hs) as (d' & Hd').
    exact (IH s (Mx s Hs) d' Hd'). }
  destruct K as (k & q & K). exists k, q. intros m L. rewrite (ev_name_step m _ d Hd). auto.
Qed.
Lemma solution_exists : exists G, exact_solution G f.
Proof.
  destruct (stable_all (fun m (e : ident * xdef) => ev_name (file_defs f) m (fst e)) (file_defs f)) as (k & K).
  { intros [n d] Hd. exact (ev_name_stable n d Hd). }
  exists (ev_all (ev_name (file_defs f) k)). apply checks_solution. apply forallb_forall. intros [n d] Hd.
  unfold def_checks. cbn [fst snd]. destruct (K _ Hd) as (q & Kq). cbn [fst] in Kq.
  rewrite (Kq k (le_n k)), <- (ev_name_step k n d Hd), (Kq (S k) (le_S _ _ (le_n k))). apply Qeq_bool_refl.
Qed.
End Accepted.
End Mode.
