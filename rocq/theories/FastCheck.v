(** * A fast checker for large unit systems

    [checks S lk = true] implies that the resolver accepts [S] and that annotations hold exactly.
    The checker looks at every declaration once, against a table [lk] of ranks, kinds and dimensions
    computed beforehand (nothing is assumed about the table: a wrong table fails the check). *)
From Coq Require Import String Ascii List Bool NArith ZArith QArith Qcanon Lia.
From Verif Require Import MachineInt Ratio F64 Magnitude Exponent ExponentFacts SMap Expression
  DimensionMath DimensionMathFacts Types Snake Resolve ResolveLoop ResolveChecks SystemSpec ResolveFacts
  ResolveEquations ResolveAccept.
Import ListNotations.
Local Close Scope Qc_scope.
Local Close Scope Q_scope.
Local Open Scope list_scope.

(** ** Tables keyed by strings *)
Definition char_bits (c : ascii) : list bool :=
  let '(Ascii a b c d e f g h) := c in [a; b; c; d; e; f; g; h].
Fixpoint bits (s : string) : list bool :=
  match s with
  | EmptyString => []
  | String c s => char_bits c ++ bits s
  end.
Lemma bits_inj a b : bits a = bits b -> a = b.
Proof.
  revert b. induction a as [|c a IH]; intros [|d b]; try reflexivity.
  - destruct d; discriminate.
  - destruct c; discriminate.
  - destruct c, d. cbn [bits char_bits app]. intros H. injection H as -> -> -> -> -> -> -> -> H. f_equal. auto.
Qed.

Inductive trie (A : Type) := TLeaf | TNode (o : option A) (l r : trie A).
Arguments TLeaf {A}. Arguments TNode {A}.
Section Trie.
Context {A : Type}.
Fixpoint tget (p : list bool) (t : trie A) {struct t} : option A :=
  match t with
  | TLeaf => None
  | TNode o l r => match p with [] => o | b :: p => tget p (if b then r else l) end
  end.
Fixpoint tset (p : list bool) (v : A) (t : trie A) : trie A :=
  match p with
  | [] => match t with TLeaf => TNode (Some v) TLeaf TLeaf | TNode _ l r => TNode (Some v) l r end
  | b :: p =>
      match t with
      | TLeaf => if b then TNode None TLeaf (tset p v TLeaf) else TNode None (tset p v TLeaf) TLeaf
      | TNode o l r => if b then TNode o l (tset p v r) else TNode o (tset p v l) r
      end
  end.
Lemma tget_tset_value p q v t x : tget p (tset q v t) = Some x -> p = q /\ x = v \/ tget p t = Some x.
Proof.
  revert q t. induction p as [|b p IH]; intros [|c q] t H.
  - left. split; [reflexivity|]. destruct t; cbn in H; congruence.
  - right. destruct t as [|o l r], c; cbn in H; try discriminate H; exact H.
  - right. destruct t as [|o l r], b; cbn in H; try discriminate H; exact H.
  - assert (K : b = c /\ (exists t', tget p (tset q v t') = Some x /\ (tget p t' = Some x -> tget (b :: p) t = Some x))
                \/ tget (b :: p) t = Some x).
    { destruct t as [|o l r], b, c; cbn [tset tget] in H; try discriminate H; auto;
        left; (split; [reflexivity|]); eexists; (split; [exact H|]); cbn; auto; discriminate. }
    destruct K as [(<- & t' & K1 & K2)|K]; [|now right].
    destruct (IH _ _ K1) as [[-> ->]|K]; auto.
Qed.
Lemma tget_tset p q v t x : tget p (tset q v t) = Some x -> p = q \/ tget p t = Some x.
Proof. intros H. destruct (tget_tset_value _ _ _ _ _ H) as [[H1 _]|H1]; auto. Qed.
End Trie.

(** The positions of names in a list. *)
Fixpoint positions (i : N) (l : list string) (t : trie N) : trie N :=
  match l with
  | [] => t
  | s :: l => positions (N.succ i) l (tset (bits s) i t)
  end.
Fixpoint at_positions (t : trie N) (i : N) (l : list string) : bool :=
  match l with
  | [] => true
  | s :: l => match tget (bits s) t with Some j => N.eqb i j | None => false end
              && at_positions t (N.succ i) l
  end.
Lemma positions_In l : forall i t s x, tget (bits s) (positions i l t) = Some x ->
  In s l \/ tget (bits s) t = Some x.
Proof.
  induction l as [|a l IH]; intros i t s x H; [now right|]. cbn [positions] in H.
  destruct (IH _ _ _ _ H) as [K|K]; [left; now right|].
  destruct (tget_tset _ _ _ _ _ K) as [E|E]; [|now right]. left. left. symmetry. now apply bits_inj.
Qed.
Lemma at_positions_In t l : forall i s, at_positions t i l = true -> In s l ->
  exists j, tget (bits s) t = Some j /\ (i <= j)%N.
Proof.
  induction l as [|a l IH]; intros i s H; [easy|]. cbn [at_positions] in H. apply andb_prop in H as [H1 H2].
  intros [->|I].
  - destruct (tget (bits s) t) as [j|]; [|discriminate]. apply N.eqb_eq in H1. exists j. split; [reflexivity|lia].
  - destruct (IH _ _ H2 I) as (j & E & L). exists j. split; [exact E|lia].
Qed.
Lemma at_positions_nodup t l : forall i, at_positions t i l = true -> NoDup l.
Proof.
  induction l as [|a l IH]; intros i H; [constructor|]. cbn [at_positions] in H. apply andb_prop in H as [H1 H2].
  constructor; [|eauto]. intros I. destruct (at_positions_In t l _ _ H2 I) as (j & E & L). rewrite E in H1.
  apply N.eqb_eq in H1. lia.
Qed.
Definition distinct (l : list string) : bool := at_positions (positions 0 l TLeaf) 0 l.
Lemma distinct_ok l : distinct l = true -> NoDup l.
Proof. apply at_positions_nodup. Qed.

Lemma flat_map_unique {A B} (f : A -> option B) (l : list A) s x y :
  NoDup (flat_map (fun a => match f a with Some b => [b] | None => [] end) l) ->
  In x l -> In y l -> f x = Some s -> f y = Some s -> x = y.
Proof.
  induction l as [|a l IH]; [easy|]. cbn [flat_map]. intros N.
  assert (K : forall z, In z l -> f z = Some s -> In s (flat_map (fun a => match f a with Some b => [b] | None => [] end) l)).
  { intros z I E. apply in_flat_map. exists z. split; [exact I|]. rewrite E. now left. }
  assert (N' : NoDup (flat_map (fun a => match f a with Some b => [b] | None => [] end) l)).
  { destruct (f a); [cbn in N; now inversion N|exact N]. }
  intros [->|Ix] [->|Iy] Ex Ey; auto.
  - exfalso. rewrite Ex in N. cbn in N. inversion N as [|? ? H _]. apply H. now apply (K y).
  - exfalso. rewrite Ey in N. cbn in N. inversion N as [|? ? H _]. apply H. now apply (K x).
Qed.

(** ** Dimensions only *)
Section Check.
Context (X : exp_ops) (L : exp_laws X) (env : fenv).
Notation dm := (dimmag X).
Notation sys := (unresolved X (unit_entry X)).

Definition dleaf (g : ident -> option (bdims X)) (f : fac dm) : option (bdims X) :=
  match f with Concrete c => Some (dm_dims c) | Other n => g n end.
Fixpoint deval (g : ident -> option (bdims X)) (e : expr (fac dm) X) : option (bdims X) :=
  match e with
  | EVal v => dfeval g v
  | EBin l r op =>
      let? a := deval g l in
      let? b := dfeval g r in
      match op with OMul => bd_mul X a b | ODiv => bd_div X a b end
  end
with dfeval (g : ident -> option (bdims X)) (f : factor (fac dm) X) : option (bdims X) :=
  match f with
  | FVal t => dleaf g t
  | FPow t e => let? a := dleaf g t in bd_pow X a e
  | FParen y => deval g y
  end.
Lemma deval_bin g (l : expr (fac dm) X) r op : deval g (EBin l r op) =
  match deval g l, dfeval g r with
  | Some a, Some b => match op with OMul => bd_mul X a b | ODiv => bd_div X a b end
  | _, _ => None
  end.
Proof.
  change (deval g (EBin l r op)) with
    (let? a := deval g l in let? b := dfeval g r in
     match op with OMul => bd_mul X a b | ODiv => bd_div X a b end).
  destruct (deval g l); [|reflexivity]. cbn. now destruct (dfeval g r).
Qed.
Lemma deval_mut g lk :
  (forall e : expr (fac dm) X, (forall n, In (Other n) (expr_vals e) -> g n = Some (dm_dims (lk n))) ->
     deval g e = option_map dm_dims (eval_with X env (look X lk) e)) /\
  (forall f : factor (fac dm) X, (forall n, In (Other n) (factor_vals f) -> g n = Some (dm_dims (lk n))) ->
     dfeval g f = option_map dm_dims (feval_with X env (look X lk) f)).
Proof.
  apply expr_factor_ind.
  - intros f IH H. exact (IH H).
  - intros l IHl r IHr op H. rewrite deval_bin, eval_bin.
    rewrite IHl, IHr by (intros n Hn; apply H; cbn; apply in_app_iff; auto).
    destruct (eval_with X env (look X lk) l) as [a|]; [|reflexivity]. cbn [option_map].
    destruct (feval_with X env (look X lk) r) as [b|]; [|reflexivity]. cbn [option_map].
    destruct op; unfold dm_mul, dm_div.
    + destruct (bd_mul X (dm_dims a) (dm_dims b)); reflexivity.
    + destruct (bd_div X (dm_dims a) (dm_dims b)); reflexivity.
  - intros [c|n] H; [reflexivity|]. cbn. apply H. now left.
  - intros t e H.
    change (dfeval g (FPow t e)) with (let? a := dleaf g t in bd_pow X a e).
    change (feval_with X env (look X lk) (FPow t e)) with (let? a := look X lk t in dm_pow X env a e).
    assert (E : dleaf g t = option_map dm_dims (look X lk t)).
    { destruct t as [c|n]; [reflexivity|]. cbn. apply H. now left. }
    rewrite E. destruct (look X lk t) as [a|]; [|reflexivity]. cbn. unfold dm_pow.
    destruct (bd_pow X (dm_dims a) e); reflexivity.
  - intros x IH H. exact (IH H).
Qed.
Lemma deval_ok g lk (e : expr (fac dm) X) :
  (forall n, In n (others e) -> g n = Some (dm_dims (lk n))) ->
  deval g e = option_map dm_dims (eval_with X env (look X lk) e).
Proof. intros H. apply (proj1 (deval_mut g lk)). intros n Hn. apply H. now apply others_vals. Qed.

(** ** The table *)
Definition info : Type := N * kind * bdims X.
Definition dims_in (lk : ident -> option info) (n : ident) : option (bdims X) :=
  match lk n with Some (_, _, d) => Some d | None => None end.
(** One pass: every declaration all of whose names are known gets an entry. *)
Fixpoint pass (ds : list (decl X)) (st : N * trie info) : N * trie info :=
  match ds with
  | [] => st
  | x :: ds =>
      let '(i, t) := st in
      match tget (bits (decl_name x)) t with
      | Some _ => pass ds st
      | None =>
          match deval (dims_in (fun n => tget (bits n) t)) (it_expr (item_of X x)) with
          | Some d => pass ds (N.succ i, tset (bits (decl_name x)) (i, decl_kind x, d) t)
          | None => pass ds st
          end
      end
  end.
Fixpoint passes (n : nat) (ds : list (decl X)) (st : N * trie info) : N * trie info :=
  match n with O => st | Datatypes.S n => passes n ds (pass ds st) end.

(** ** The check *)
Definition bd_eqb (a b : bdims X) : bool :=
  (fix go (a b : bdims X) := match a, b with
   | [], [] => true
   | (k, e) :: a, (k', e') :: b => String.eqb k k' && e_eqb X e e' && go a b
   | _, _ => false
   end) a b.
Lemma bd_eqb_ok a b : bd_eqb a b = true -> a = b.
Proof.
  revert b. induction a as [|[k e] a IH]; intros [|[k' e'] b]; cbn; try discriminate; [reflexivity|].
  intros H. apply andb_prop in H as [H H3]. apply andb_prop in H as [H1 H2].
  apply String.eqb_eq in H1. apply (l_eqb X L) in H2. subst. f_equal. now apply IH.
Qed.
Definition field (b : string) (d : list (string * X)) : X :=
  match find (fun kv => String.eqb b (fst kv)) d with Some kv => snd kv | None => e_zero X end.
Definition same_vec (d1 d2 : list (string * X)) : bool :=
  forallb (fun b => e_eqb X (field b d1) (field b d2)) (map fst d1 ++ map fst d2).
Lemma field_absent b d : ~ In b (map fst d) -> field b d = e_zero X.
Proof.
  intros H. unfold field. destruct (find _ d) as [[b' e]|] eqn:F; [|reflexivity].
  apply find_some in F as [F E]. cbn in E. apply String.eqb_eq in E. subst. elim H.
  apply (in_map fst) in F. exact F.
Qed.
Lemma field_val b d v : vec_is X L d v -> v b = l_val X L (field b d).
Proof.
  intros V. rewrite V. unfold field. destruct (find _ d); [reflexivity|].
  rewrite (proj2 (l_zero X L)). reflexivity.
Qed.
Lemma same_vec_ok d1 d2 v1 v2 : same_vec d1 d2 = true ->
  vec_is X L d1 v1 -> vec_is X L d2 v2 -> forall b, v1 b = v2 b.
Proof.
  intros S V1 V2 b. rewrite (field_val b d1 v1 V1), (field_val b d2 v2 V2). f_equal.
  destruct (in_dec string_dec b (map fst d1 ++ map fst d2)) as [H|H].
  - unfold same_vec in S. rewrite forallb_forall in S. apply (l_eqb X L). now apply S.
  - rewrite !field_absent; [reflexivity|intros K; apply H, in_app_iff; auto..].
Qed.

Section Table.
Context (lk : ident -> option info) (declared : ident -> bool).
Definition mention_check (r : N) (k : kind) (n : ident) : bool :=
  declared n && match lk n with Some (r', k', _) => N.ltb r' r && kind_allowed k k' | None => false end.
Definition annotation_check (d : bdims X) (a : option ident) : bool :=
  match a with
  | None => true
  | Some a => declared a && match lk a with
              | Some (_, KDimension, da) => bd_eq X da d && same_vec da d
              | _ => false
              end
  end.
Definition decl_check (x : decl X) : bool :=
  match lk (decl_name x) with
  | Some (r, k, d) =>
      kind_eqb k (decl_kind x) &&
      forallb (mention_check r k) (others (it_expr (item_of X x))) &&
      match deval (dims_in lk) (it_expr (item_of X x)) with Some d' => bd_eqb d d' | None => false end &&
      annotation_check d (annotation x)
  | None => false
  end.
End Table.
Definition base_dim (u : unit_entry X) : option ident :=
  match ue_definition u with DefBase d => Some d | DefExpr _ => None end.
Definition base_check (dims : list (dimension_entry X)) (u : unit_entry X) : bool :=
  match base_dim u with
  | None => true
  | Some d =>
      existsb (fun e => String.eqb (de_name e) d && match de_rhs e with DefBase _ => true | DefExpr _ => false end) dims
      && match ue_symbol u with Some _ => true | None => false end
  end.
Definition single {A} (l : list A) : bool := match l with [_] => true | _ => false end.
Definition checks (S : sys) (lk : ident -> option info) : bool :=
  let names := map decl_name (decls S) in
  let pos := positions 0 names TLeaf in
  single (u_quantity_types S) && single (u_dimension_types S) &&
  at_positions pos 0 names &&
  forallb (decl_check lk (fun n => match tget (bits n) pos with Some _ => true | None => false end)) (decls S) &&
  forallb (base_check (u_dimensions S)) (u_units S) &&
  distinct (flat_map (fun u => match base_dim u with Some d => [d] | None => [] end) (u_units S)) &&
  distinct (flat_map (fun u => match ue_symbol u with Some d => [d] | None => [] end) (u_units S)).

Section Sound.
Context (S : sys) (lk : ident -> option info) (C : checks S lk = true).
Let names := map decl_name (decls S).

Lemma parts : single (u_quantity_types S) = true /\ single (u_dimension_types S) = true /\ NoDup names /\
  (exists declared, (forall n, declared n = true -> In n names) /\
     forall x, In x (decls S) -> decl_check lk declared x = true) /\
  (forall u, In u (u_units S) -> base_check (u_dimensions S) u = true) /\
  NoDup (flat_map (fun u => match base_dim u with Some d => [d] | None => [] end) (u_units S)) /\
  NoDup (flat_map (fun u => match ue_symbol u with Some d => [d] | None => [] end) (u_units S)).
Proof.
  unfold checks in C. cbv zeta in C. 
  apply andb_prop in C as [C' H1]. apply andb_prop in C' as [C' H2]. apply andb_prop in C' as [C' H3].
  apply andb_prop in C' as [C' H4]. apply andb_prop in C' as [C' H5]. apply andb_prop in C' as [C' H6].
  split; [exact C'|]. split; [assumption|]. split; [eapply at_positions_nodup; eassumption|]. split.
  - eexists. split; [|intros x Hx; exact (proj1 (forallb_forall _ _) H4 x Hx)]. intros n Hn. cbv beta in Hn.
    destruct (tget (bits n) _) as [j|] eqn:E; [|discriminate].
    destruct (positions_In _ _ _ _ _ E) as [I|I]; [exact I|discriminate I].
  - split; [exact (proj1 (forallb_forall _ _) H3)|]. split; apply distinct_ok; assumption.
Qed.

(** What the check says of a declaration. *)
Lemma decl_ok x : In x (decls S) -> exists r d, lk (decl_name x) = Some (r, decl_kind x, d) /\
  (forall n, mentions x n -> In n names /\ exists r' k' d', lk n = Some (r', k', d') /\ (r' < r)%N /\
     may_mention (decl_kind x) k') /\
  deval (dims_in lk) (it_expr (item_of X x)) = Some d /\
  (forall a, annotation x = Some a -> In a names /\
     exists ra da, lk a = Some (ra, KDimension, da) /\ bd_eq X da d = true /\ same_vec da d = true).
Proof.
  intros Hx. destruct parts as (_ & _ & _ & (declared & Dn & Dc) & _). specialize (Dc x Hx).
  unfold decl_check in Dc. destruct (lk (decl_name x)) as [[[r k] d]|]; [|discriminate].
  apply andb_prop in Dc as [Dc H4]. apply andb_prop in Dc as [Dc H3]. apply andb_prop in Dc as [H1 H2].
  assert (k = decl_kind x) by (destruct k, (decl_kind x); try discriminate H1; reflexivity). subst k.
  exists r, d. split; [reflexivity|]. split; [|split].
  - intros n Hn. apply (mentions_item X) in Hn. rewrite forallb_forall in H2. specialize (H2 n Hn).
    unfold mention_check in H2. apply andb_prop in H2 as [H5 H6]. split; [now apply Dn|].
    destruct (lk n) as [[[r' k'] d']|]; [|discriminate]. apply andb_prop in H6 as [H6 H7].
    exists r', k', d'. split; [reflexivity|]. split; [now apply N.ltb_lt|now apply kind_allowed_iff].
  - destruct (deval (dims_in lk) (it_expr (item_of X x))) as [d'|]; [|discriminate].
    f_equal. symmetry. now apply bd_eqb_ok.
  - intros a Ha. unfold annotation_check in H4. rewrite Ha in H4. apply andb_prop in H4 as [H5 H6].
    split; [now apply Dn|]. destruct (lk a) as [[[ra [| | |]] da]|]; try discriminate.
    apply andb_prop in H6 as [H6 H7]. eauto.
Qed.
Lemma declared_decl n : In n names -> exists x, In x (decls S) /\ decl_name x = n.
Proof. intros I. apply in_map_iff in I as (x & E & I). eauto. Qed.

Lemma all_grounded x : In x (decls S) -> grounded S (decl_name x).
Proof.
  intros Hx. destruct (decl_ok x Hx) as (r & d & E & _). remember (decl_kind x) as kx eqn:Ek. clear Ek.
  revert x kx d Hx E. induction r as [r IH] using (well_founded_induction N.lt_wf_0). intros x kx d Hx E.
  constructor; [exact Hx|]. intros n Hn. destruct (decl_ok x Hx) as (r0 & d0 & E0 & M & _).
  rewrite E in E0. injection E0 as <- _ _. destruct (M n Hn) as (I & r' & k' & d' & E' & Lt & _).
  destruct (declared_decl n I) as (y & Hy & <-). eapply IH; eauto.
Qed.

Lemma checks_wf : well_formed S.
Proof.
  destruct parts as (Q & D & N & _ & B & NB & NS). constructor.
  - destruct (u_quantity_types S) as [|q [|]]; try discriminate. eauto.
  - destruct (u_dimension_types S) as [|q [|]]; try discriminate. eauto.
  - exact N.
  - intros x n Hx Hn. destruct (decl_ok x Hx) as (r & d & _ & M & _). exact (proj1 (M n Hn)).
  - exact all_grounded.
  - intros x y Hx Hy Hn. destruct (decl_ok x Hx) as (r & d & _ & M & _).
    destruct (M _ Hn) as (_ & r' & k' & d' & E' & _ & K). destruct (decl_ok y Hy) as (ry & dy & Ey & _).
    rewrite Ey in E'. injection E' as _ <- _. exact K.
  - intros u dim Hu Hb. specialize (B u Hu). unfold base_check, base_dim in B. unfold base_unit_of in Hb.
    rewrite Hb in B. apply andb_prop in B as [B _]. apply existsb_exists in B as (d & Hd & K).
    apply andb_prop in K as [K1 K2]. exists d. split; [exact Hd|]. split; [now apply String.eqb_eq|].
    destruct (de_rhs d) as [[]|]; [reflexivity|discriminate].
  - intros u1 u2 dim H1 H2 B1 B2. apply (flat_map_unique base_dim (u_units S) dim); auto.
    + unfold base_dim. unfold base_unit_of in B1. now rewrite B1.
    + unfold base_dim. unfold base_unit_of in B2. now rewrite B2.
  - intros u1 u2 s H1 H2 B1 B2. apply (flat_map_unique ue_symbol (u_units S) s); auto.
  - intros u dim Hu Hb E. specialize (B u Hu). unfold base_check, base_dim in B. unfold base_unit_of in Hb.
    rewrite Hb in B. apply andb_prop in B as [_ B]. rewrite E in B. discriminate B.
Qed.

Lemma iden_table n D : iden X env (items_of X S) n D -> exists r k, lk n = Some (r, k, dm_dims D).
Proof.
  intros H. induction H as [i f d Hi _ IH He]. rewrite items_of_decls in Hi.
  apply in_map_iff in Hi as (x & <- & Hx). rewrite ident_of_item.
  destruct (decl_ok x Hx) as (r & d' & E & _ & De & _). exists r, (decl_kind x). rewrite E. do 2 f_equal.
  rewrite (deval_ok (dims_in lk) f) in De.
  - rewrite He in De. cbn in De. injection De as <-. reflexivity.
  - intros n Hn. destruct (IH n Hn) as (r' & k' & E'). unfold dims_in. now rewrite E'.
Qed.
Lemma no_overflow : ~ overflows X env (items_of X S).
Proof.
  intros (i & f & Hi & M & E). rewrite items_of_decls in Hi. apply in_map_iff in Hi as (x & <- & Hx).
  destruct (decl_ok x Hx) as (r & d' & _ & _ & De & _). rewrite (deval_ok (dims_in lk) f) in De.
  - rewrite E in De. discriminate De.
  - intros n Hn. destruct (iden_table n _ (M n Hn)) as (r' & k' & E'). unfold dims_in. now rewrite E'.
Qed.

Lemma checks_resolve : generated_ok X S -> exists res ds, resolve_items X env (U4 X S) = Some (res, ds) /\
  resolve X env S = Some (out_of X S res, []) /\
  (forall x, In x (decls S) -> exists ri r k, sget (decl_name x) res = Some ri /\
      lk (decl_name x) = Some (r, k, dm_dims (ri_dims ri))).
Proof.
  intros G. pose proof (resolve_items_spec X env (U4 X S)) as O.
  destruct (resolve_items X env (U4 X S)) as [[res ds]|] eqn:R.
  2: { exfalso. apply no_overflow. eapply overflows_incl; [|exact O]. intros i. apply U4_sub. }
  exists res, ds. split; [reflexivity|].
  assert (T : forall x, In x (decls S) -> exists ri r k, sget (decl_name x) res = Some ri /\
      lk (decl_name x) = Some (r, k, dm_dims (ri_dims ri))).
  { intros x Hx. pose proof (all_grounded x Hx) as Gr. apply (resolved_names X env S res ds _ G R) in Gr.
    apply sget_keys in Gr as [ri Hri]. exists ri.
    destruct (resolved_entry X env _ _ _ _ _ R Hri) as (_ & _ & I).
    apply (iden_incl X env _ (items_of X S)) in I; [|intros i; apply U4_sub].
    destruct (iden_table _ _ I) as (r & k & E). exists r, k. split; [exact Hri|exact E]. }
  split; [|exact T].
  assert (RS : exists ds', resolve X env S = Some (out_of X S res, ds')).
  { rewrite resolve_unfold, R. eexists. reflexivity. }
  destruct RS as (ds' & RS). rewrite RS. do 2 f_equal.
  apply (accept_iff X L env S _ ds' G RS). split; [exact checks_wf|].
  intros x Hx a Ha. destruct (decl_ok x Hx) as (r & d & E & _ & _ & An).
  destruct (An a Ha) as (Ia & ra & da & Ea & Eq & _). destruct (declared_decl a Ia) as (y & Hy & <-).
  destruct (decl_ok y Hy) as (ry & dy & Ey & _). rewrite Ea in Ey. injection Ey as <- Ky <-.
  destruct y as [D|u|c]; cbn in Ky; [|destruct (ue_definition u); discriminate|discriminate].
  destruct (T x Hx) as (rx & r1 & k1 & Sx & Lx). rewrite E in Lx. injection Lx as _ _ Lx.
  destruct (T _ Hy) as (rD & r2 & k2 & SD & LD). rewrite Ea in LD. injection LD as _ _ LD.
  destruct (fields_of_entry X env S res ds x _ rx (wf_names X S checks_wf) R Hx eq_refl Sx) as (_ & Fx).
  destruct (fields_of_entry X env S res ds _ _ rD (wf_names X S checks_wf) R Hy eq_refl SD) as (_ & FD).
  destruct (proj2 (FD da) LD) as (y & Iy & Ny & <-).
  exists y, d. split; [exact Iy|]. split; [exact Ny|]. split; [now apply Fx|].
  apply bd_eq_iff; auto. rewrite Lx.
  destruct (resolved_entry X env _ _ _ _ _ R Sx) as (_ & _ & I). eapply iden_wf; eauto.
  eapply iden_incl; [|exact I]. intros i. apply U4_sub.
Qed.

Theorem checks_sound : generated_ok X S -> exists o, resolve X env S = Some (o, []) /\
  forall x a v w, In x (decls S) -> annotation x = Some a ->
    dim_result X L o a v -> dim_result X L o (decl_name x) w -> forall b, v b = w b.
Proof.
  intros G. destruct (checks_resolve G) as (res & ds & R & RS & T). exists (out_of X S res).
  split; [exact RS|]. intros x a v w Hx Ha Hv Hw.
  apply (dim_result_iff X L env S res ds _ _ R) in Hv as (ra & Sa & Va).
  apply (dim_result_iff X L env S res ds _ _ R) in Hw as (rx & Sx & Vx).
  destruct (decl_ok x Hx) as (r & d & E & _ & _ & An). destruct (An a Ha) as (Ia & r' & da & Ea & _ & SV).
  destruct (declared_decl a Ia) as (y & Hy & <-).
  destruct (T x Hx) as (ri & r1 & k1 & S1 & L1). rewrite Sx in S1. injection S1 as <-.
  rewrite E in L1. injection L1 as _ _ L1.
  destruct (T y Hy) as (rj & r2 & k2 & S2 & L2). rewrite Sa in S2. injection S2 as <-.
  rewrite Ea in L2. injection L2 as _ _ L2.
  apply (same_vec_ok da d); [exact SV| |].
  - rewrite L2. now apply vec_is_iff.
  - rewrite L1. now apply vec_is_iff.
Qed.
End Sound.

Definition fast_check (n : nat) (S : sys) : bool :=
  let t := snd (passes n (decls S) (0%N, TLeaf)) in checks S (fun m => tget (bits m) t).
End Check.
