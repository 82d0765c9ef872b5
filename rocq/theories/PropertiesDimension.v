(** * Properties of the generated dimension type: C08, C09, C58, C59, C60, C67

    Vocabulary: [fields] are the struct fields (one per base dimension); [stands_for ... d v] says
    that the const value [d] of the generated struct has exactly these fields, with the exponent
    [v f] at field [f]; [None] is an aborted const evaluation, i.e. a compile error. *)
From Coq Require Import String Ascii List Bool ZArith QArith Qcanon Lia.
From Verif Require Import MachineInt Ratio RatioFacts F64 Magnitude Exponent ExponentFacts SMap
  Expression DimensionMath DimensionMathFacts Types Snake SnakeFacts Resolve SystemSpec
  CodegenDimension CodegenDimensionFacts CodegenLiteral Setting ExampleSystems.
Import ListNotations.
Local Close Scope Q_scope.
Local Close Scope Qc_scope.
Local Open Scope list_scope.
Local Open Scope Z_scope.

Notation denotes k fields d v := (stands_for (ops k) fields (laws k) d v).
Notation dadd k fields := (dim_add (ops k) fields).
Notation dsub k fields := (dim_sub (ops k) fields).
Notation dneg k fields := (dim_neg (ops k) fields).
Notation dmul k fields := (dim_mul (ops k) fields).
Notation ddiv2 k fields := (dim_div2 (ops k) fields).
Notation ddiv3 k fields := (dim_div3 (ops k) fields).
Notation dnone k fields := (dim_none (ops k) fields).

(** ** C08 *)

(** Two dimension values are the same const generic argument iff they have the same exponents. *)
Theorem C08_identity : forall k fields d d' v v',
  NoDup fields -> denotes k fields d v -> denotes k fields d' v' ->
  (d = d' <-> forall f, In f fields -> v f = v' f).
Proof. intros k fields d d' v v' N. now apply stands_for_unique. Qed.
Print Assumptions C08_identity.

(** Each operation, when it does not abort, acts on every exponent. *)
Theorem C08_pointwise : forall k fields, NoDup fields ->
  (exists z, dnone k fields = Some z /\ denotes k fields z (fun _ => ZQc 0)) /\
  (forall a b c va vb, denotes k fields a va -> denotes k fields b vb ->
     (dadd k fields a b = Some c -> denotes k fields c (fun f => va f + vb f)%Qc) /\
     (dsub k fields a b = Some c -> denotes k fields c (fun f => va f - vb f)%Qc)) /\
  (forall a c va n, denotes k fields a va ->
     (dneg k fields a = Some c -> denotes k fields c (fun f => - va f)%Qc) /\
     (dmul k fields a n = Some c -> denotes k fields c (fun f => va f * ZQc n)%Qc)).
Proof.
  intros k fields N. split; [now apply none_stands_for|]. split.
  - intros a b c va vb Ha Hb. split; intros H; [eapply dim_add_spec|eapply dim_sub_spec]; eauto.
  - intros a c va n Ha. split; intros H; [eapply dim_neg_spec|eapply dim_mul_spec]; eauto.
Qed.
Print Assumptions C08_pointwise.

(** With integer exponents an operation aborts exactly if some exponent leaves the 64-bit range
    (so it never yields another dimension). *)
Definition all_fields (P : Z -> Prop) (d : list (string * Z)) : Prop := forall f e, In (f, e) d -> P e.
Definition all_fields2 (P : Z -> Z -> Prop) (d d' : list (string * Z)) : Prop :=
  forall f e e', In (f, e) d -> In (f, e') d' -> P e e'.
Notation fits z := (- 2 ^ 63 <= z < 2 ^ 63).

Lemma fit_checked_iff z : (exists r, fit Checked z = Some r) <-> fits z.
Proof.
  rewrite <- in_i64_iff. unfold fit. destruct (in_i64 z); split; eauto.
  - intros [r H]. discriminate.
  - discriminate.
Qed.

Theorem C08_aborts_iff : forall fields a b n, NoDup fields ->
  map fst a = fields -> map fst b = fields ->
  ((exists c, dadd IntegerExponents fields a b = Some c) <-> all_fields2 (fun x y => fits (x + y)) a b) /\
  ((exists c, dsub IntegerExponents fields a b = Some c) <-> all_fields2 (fun x y => fits (x - y)) a b) /\
  ((exists c, dneg IntegerExponents fields a = Some c) <-> all_fields (fun x => fits (- x)) a) /\
  ((exists c, dmul IntegerExponents fields a n = Some c) <-> all_fields (fun x => fits (x * n)) a).
Proof.
  intros fields a b n N Ha Hb. unfold dim_add, dim_sub, dim_neg, dim_mul, all_fields, all_fields2.
  rewrite !method2_eq, !method1_eq by auto.
  split; [|split; [|split]].
  - rewrite (entries2_defined _ fields N _ a b Ha Hb). split; intros H f x y Hx Hy;
      apply fit_checked_iff; eapply H; eauto.
  - rewrite (entries2_defined _ fields N _ a b Ha Hb). split; intros H f x y Hx Hy;
      apply fit_checked_iff; eapply H; eauto.
  - rewrite (entries1_defined _ fields N _ a Ha). split; intros H f x Hx;
      apply fit_checked_iff; eapply H; eauto.
  - rewrite (entries1_defined _ fields N _ a Ha). split; intros H f x Hx;
      apply fit_checked_iff; eapply H; eauto.
Qed.
Print Assumptions C08_aborts_iff.

(** With rational exponents nothing aborts as long as numerators and denominators stay below
    2^31. *)
Definition small_ratio (r : ratio) : Prop := canonical r /\ small (2 ^ 31) r.
Definition all_small (d : list (string * ratio)) : Prop := forall f r, In (f, r) d -> small_ratio r.

Lemma small_neg r r' : small_ratio r -> rneg Checked r = Some r' -> small_ratio r'.
Proof.
  intros [C [S1 S2]] H. split.
  - apply (l_neg _ rat_laws r r' C H).
  - unfold rneg in H. destruct (i64_neg Checked (Ratio.num r)) as [z|] eqn:E; [|discriminate].
    apply fit_checked_Some in E as [-> _]. injection H as <-. split; simpl; lia.
Qed.

Theorem C08_rational_total : forall fields a b n, NoDup fields ->
  map fst a = fields -> map fst b = fields -> all_small a -> all_small b -> Z.abs n < 2 ^ 31 ->
  exists s t u w,
    dadd RationalExponents fields a b = Some s /\ dsub RationalExponents fields a b = Some t /\
    dneg RationalExponents fields a = Some u /\ dmul RationalExponents fields a n = Some w.
Proof.
  intros fields a b n N Ha Hb Sa Sb Hn. unfold dim_add, dim_sub, dim_neg, dim_mul.
  rewrite !method2_eq, !method1_eq by auto.
  destruct (proj2 (entries2_defined (ops RationalExponents) fields N (e_add (ops RationalExponents)) a b Ha Hb)) as [s Es].
  { intros f x y Hx Hy. destruct (Sa f x Hx), (Sb f y Hy). now apply radd_defined. }
  destruct (proj2 (entries2_defined (ops RationalExponents) fields N (e_sub (ops RationalExponents)) a b Ha Hb)) as [t Et].
  { intros f x y Hx Hy. destruct (Sa f x Hx), (Sb f y Hy) as [Cy Sy]. simpl. unfold rsub.
    destruct (rneg_defined Checked y) as [y' Ey]; [destruct Sy; split; lia|]. rewrite Ey.
    destruct (small_neg y y' (conj Cy Sy) Ey). now apply radd_defined. }
  destruct (proj2 (entries1_defined (ops RationalExponents) fields N (e_neg (ops RationalExponents)) a Ha)) as [u Eu].
  { intros f x Hx. destruct (Sa f x Hx) as [_ [S1 S2]]. apply rneg_defined. split; lia. }
  destruct (proj2 (entries1_defined (ops RationalExponents) fields N (fun x => e_mul_int (ops RationalExponents) x n) a Ha)) as [w Ew].
  { intros f x Hx. destruct (Sa f x Hx). apply rmul_defined; auto.
    - apply rint_represents.
    - split; simpl; lia. }
  exists s, t, u, w. auto.
Qed.
Print Assumptions C08_rational_total.

(** Any two dimension expressions (built from the operations, in any shape) that describe the same
    exponents yield the same const generic argument whenever both evaluate. *)
Inductive dexpr (V : Type) :=
| XVar (x : V) | XNone
| XAdd (a b : dexpr V) | XSub (a b : dexpr V) | XNeg (a : dexpr V) | XMul (a : dexpr V) (n : Z)
| XHalf (a : dexpr V) | XThird (a : dexpr V).
Arguments XVar {V}. Arguments XNone {V}. Arguments XAdd {V}. Arguments XSub {V}.
Arguments XNeg {V}. Arguments XMul {V}. Arguments XHalf {V}. Arguments XThird {V}.

(** Const evaluation. *)
Fixpoint deval {V} k fields (env : V -> dimval (ops k)) (e : dexpr V) : option (dimval (ops k)) :=
  match e with
  | XVar x => Some (env x)
  | XNone => dnone k fields
  | XAdd a b => let? x := deval k fields env a in let? y := deval k fields env b in dadd k fields x y
  | XSub a b => let? x := deval k fields env a in let? y := deval k fields env b in dsub k fields x y
  | XNeg a => let? x := deval k fields env a in dneg k fields x
  | XMul a n => let? x := deval k fields env a in dmul k fields x n
  | XHalf a => let? x := deval k fields env a in ddiv2 k fields x
  | XThird a => let? x := deval k fields env a in ddiv3 k fields x
  end.
(** The exponent of field [f] it describes. *)
Fixpoint dmeaning {V} (v : V -> string -> Qc) (e : dexpr V) (f : string) : Qc :=
  match e with
  | XVar x => v x f
  | XNone => 0
  | XAdd a b => dmeaning v a f + dmeaning v b f
  | XSub a b => dmeaning v a f - dmeaning v b f
  | XNeg a => - dmeaning v a f
  | XMul a n => dmeaning v a f * ZQc n
  | XHalf a => dmeaning v a f / ZQc 2
  | XThird a => dmeaning v a f / ZQc 3
  end%Qc.

Theorem C08_expressions : forall V k fields (env : V -> dimval (ops k)) v e1 e2 d1 d2,
  NoDup fields -> (forall x, denotes k fields (env x) (v x)) ->
  deval k fields env e1 = Some d1 -> deval k fields env e2 = Some d2 ->
  denotes k fields d1 (dmeaning v e1) /\
  (d1 = d2 <-> forall f, In f fields -> dmeaning v e1 f = dmeaning v e2 f).
Proof.
  intros V k fields env v e1 e2 d1 d2 N He H1 H2.
  assert (G : forall e d, deval k fields env e = Some d -> denotes k fields d (dmeaning v e)).
  { induction e as [x| |a IHa b IHb|a IHa b IHb|a IHa|a IHa n|a IHa|a IHa]; intros d H; simpl in H.
    - injection H as <-. apply He.
    - destruct (none_stands_for (ops k) fields N (laws k)) as (z & Ez & Hz).
      assert (d = z) by congruence. subst. exact Hz.
    - destruct (deval k fields env a); [|discriminate]. destruct (deval k fields env b); [|discriminate].
      eapply dim_add_spec; eauto.
    - destruct (deval k fields env a); [|discriminate]. destruct (deval k fields env b); [|discriminate].
      eapply dim_sub_spec; eauto.
    - destruct (deval k fields env a); [|discriminate]. eapply dim_neg_spec; eauto.
    - destruct (deval k fields env a); [|discriminate]. eapply dim_mul_spec; eauto.
    - destruct (deval k fields env a); [|discriminate]. eapply dim_div2_spec; eauto.
    - destruct (deval k fields env a); [|discriminate]. eapply dim_div3_spec; eauto. }
  split; [now apply G|]. apply (C08_identity k fields); auto.
Qed.
Print Assumptions C08_expressions.

(** The group laws, spelled out. *)
Theorem C08_group_laws : forall k fields a b c va vb vc, NoDup fields ->
  denotes k fields a va -> denotes k fields b vb -> denotes k fields c vc ->
  (forall s t, dadd k fields a b = Some s -> dadd k fields b a = Some t -> s = t) /\
  (forall ab abc bc abc', dadd k fields a b = Some ab -> dadd k fields ab c = Some abc ->
     dadd k fields b c = Some bc -> dadd k fields a bc = Some abc' -> abc = abc') /\
  (forall z s, dnone k fields = Some z -> dadd k fields a z = Some s -> s = a) /\
  (forall z n s, dnone k fields = Some z -> dneg k fields a = Some n -> dadd k fields a n = Some s -> s = z) /\
  (forall n s t, dneg k fields b = Some n -> dadd k fields a n = Some s -> dsub k fields a b = Some t -> s = t) /\
  (forall m ab r am bm s, dadd k fields a b = Some ab -> dmul k fields ab m = Some r ->
     dmul k fields a m = Some am -> dmul k fields b m = Some bm -> dadd k fields am bm = Some s -> r = s) /\
  (forall m n am an r s, dmul k fields a m = Some am -> dmul k fields a n = Some an ->
     dadd k fields am an = Some r -> dmul k fields a (m + n) = Some s -> r = s) /\
  (forall m n am r s, dmul k fields a m = Some am -> dmul k fields am n = Some r ->
     dmul k fields a (m * n) = Some s -> r = s).
Proof.
  intros k fields a b c va vb vc N Ha Hb Hc.
  set (env := fun i : nat => match i with 0%nat => a | 1%nat => b | _ => c end).
  set (v := fun i : nat => match i with 0%nat => va | 1%nat => vb | _ => vc end).
  assert (He : forall i, denotes k fields (env i) (v i)) by (intros [|[|i]]; auto).
  assert (G : forall e1 e2 d1 d2, deval k fields env e1 = Some d1 -> deval k fields env e2 = Some d2 ->
     (forall f, dmeaning v e1 f = dmeaning v e2 f) -> d1 = d2).
  { intros e1 e2 d1 d2 H1 H2 H. apply (proj2 (C08_expressions _ k fields env v e1 e2 d1 d2 N He H1 H2)). auto. }
  repeat apply conj; intros.
  - apply (G (XAdd (XVar 0%nat) (XVar 1%nat)) (XAdd (XVar 1%nat) (XVar 0%nat))); auto.
    intros f. cbn. ring.
  - apply (G (XAdd (XAdd (XVar 0%nat) (XVar 1%nat)) (XVar 2%nat))
             (XAdd (XVar 0%nat) (XAdd (XVar 1%nat) (XVar 2%nat)))); cbn;
      [now rewrite H|now rewrite H1|intros; ring].
  - apply (G (XAdd (XVar 0%nat) XNone) (XVar 0%nat)); cbn; [now rewrite H|auto|intros; ring].
  - apply (G (XAdd (XVar 0%nat) (XNeg (XVar 0%nat))) XNone); cbn; [now rewrite H0|auto|intros; ring].
  - apply (G (XAdd (XVar 0%nat) (XNeg (XVar 1%nat))) (XSub (XVar 0%nat) (XVar 1%nat))); cbn;
      [now rewrite H|auto|intros; ring].
  - apply (G (XMul (XAdd (XVar 0%nat) (XVar 1%nat)) m)
             (XAdd (XMul (XVar 0%nat) m) (XMul (XVar 1%nat) m))); cbn;
      [now rewrite H|now rewrite H1, H2|intros; ring].
  - apply (G (XAdd (XMul (XVar 0%nat) m) (XMul (XVar 0%nat) n)) (XMul (XVar 0%nat) (m + n))); cbn;
      [now rewrite H, H0|auto|]. intros. rewrite ZQc_add. ring.
  - apply (G (XMul (XMul (XVar 0%nat) m) n) (XMul (XVar 0%nat) (m * n))); cbn;
      [now rewrite H|auto|]. intros. rewrite ZQc_mul. ring.
Qed.
Print Assumptions C08_group_laws.

(** Turning overflow checks off never changes a result that exists with them on. *)
Example C08_applies :
  let fs := ["length"; "time"]%string in
  denotes IntegerExponents fs [("length"%string, 1); ("time"%string, -2)]
    (fun f => if String.eqb f "length" then ZQc 1 else ZQc (-2)) /\
  dadd IntegerExponents fs [("length"%string, 1); ("time"%string, -2)]
    [("length"%string, 1); ("time"%string, 1)] = Some [("length"%string, 2); ("time"%string, -1)] /\
  dmul RationalExponents fs [("length"%string, mkRatio 1 2); ("time"%string, mkRatio (-2) 1)] 3
    = Some [("length"%string, mkRatio 3 2); ("time"%string, mkRatio (-6) 1)].
Proof.
  split; [|split; vm_compute; reflexivity]. split; [reflexivity|].
  intros f e [H|[H|[]]]; injection H as <- <-; split; simpl; auto.
Qed.

(** ** C67: an overflowing exponent is caught in every build profile -- false: const functions are
    compiled with the profile's overflow checks, so in a release build [x.powi::<2147483647>()]
    three times in a row silently gives a different exponent, where a debug build rejects it. *)
Theorem C67_release_overflow_refuted :
  let fs := ["length"%string] in let n := 2147483647 in
  exists d1 d2 d3,
    dim_mul (int_exp Wrapping) fs [("length"%string, 1)] n = Some d1 /\
    dim_mul (int_exp Wrapping) fs d1 n = Some d2 /\
    dim_mul (int_exp Wrapping) fs d2 n = Some d3 /\
    d3 = [("length"%string, wrap 64 (n * n * n))] /\ wrap 64 (n * n * n) <> n * n * n /\
    dim_mul (int_exp Checked) fs d2 n = None.
Proof. do 3 eexists. repeat split; try (vm_compute; reflexivity). vm_compute. discriminate. Qed.
Print Assumptions C67_release_overflow_refuted.

Lemma Forall2_weaken {A B} (P Q : A -> B -> Prop) l l' :
  (forall a b, P a b -> Q a b) -> Forall2 P l l' -> Forall2 Q l l'.
Proof. intros H. induction 1; constructor; auto. Qed.

(** What does hold in every profile: a result that exists with checks on is the result without. *)
Theorem C67_checked_agrees_partial : forall m fields (a b : list (string * Z)) n,
  (forall c, dim_add (int_exp Checked) fields a b = Some c -> dim_add (int_exp m) fields a b = Some c) /\
  (forall c, dim_sub (int_exp Checked) fields a b = Some c -> dim_sub (int_exp m) fields a b = Some c) /\
  (forall c, dim_neg (int_exp Checked) fields a = Some c -> dim_neg (int_exp m) fields a = Some c) /\
  (forall c, dim_mul (int_exp Checked) fields a n = Some c -> dim_mul (int_exp m) fields a n = Some c) /\
  dim_div2 (int_exp Checked) fields a = dim_div2 (int_exp m) fields a /\
  dim_div3 (int_exp Checked) fields a = dim_div3 (int_exp m) fields a.
Proof.
  intros m fields a b n.
  assert (E2 : forall op1 op2 : Z -> Z -> option Z, (forall x y z, op1 x y = Some z -> op2 x y = Some z) ->
    forall c, entries2 (int_exp Checked) fields op1 a b = Some c -> entries2 (int_exp m) fields op2 a b = Some c).
  { intros op1 op2 H c Hc. apply mapM_Some_iff in Hc. apply mapM_Some_iff.
    eapply Forall2_weaken; [|exact Hc]. cbn beta. intros f r Hr. cbn [exT int_exp] in *.
    destruct (sget f a) as [x|]; [|discriminate]. destruct (sget f b) as [y|]; [|discriminate].
    destruct (op1 x y) as [z|] eqn:Ez; [|discriminate]. now rewrite (H _ _ _ Ez). }
  assert (E1 : forall op1 op2 : Z -> option Z, (forall x z, op1 x = Some z -> op2 x = Some z) ->
    forall c, entries1 (int_exp Checked) fields op1 a = Some c -> entries1 (int_exp m) fields op2 a = Some c).
  { intros op1 op2 H c Hc. apply mapM_Some_iff in Hc. apply mapM_Some_iff.
    eapply Forall2_weaken; [|exact Hc]. cbn beta. intros f r Hr. cbn [exT int_exp] in *.
    destruct (sget f a) as [x|]; [|discriminate].
    destruct (op1 x) as [z|] eqn:Ez; [|discriminate]. now rewrite (H _ _ Ez). }
  unfold dim_add, dim_sub, dim_neg, dim_mul. repeat apply conj; try reflexivity; intros c H.
  - destruct (entries2 (int_exp Checked) fields (e_add (int_exp Checked)) a b) as [es|] eqn:E; [|discriminate].
    rewrite (E2 _ (e_add (int_exp m)) (fun x y z => fit_checked_agrees m _ z) es E). exact H.
  - destruct (entries2 (int_exp Checked) fields (e_sub (int_exp Checked)) a b) as [es|] eqn:E; [|discriminate].
    rewrite (E2 _ (e_sub (int_exp m)) (fun x y z => fit_checked_agrees m _ z) es E). exact H.
  - destruct (entries1 (int_exp Checked) fields (e_neg (int_exp Checked)) a) as [es|] eqn:E; [|discriminate].
    rewrite (E1 _ (e_neg (int_exp m)) (fun x z => fit_checked_agrees m _ z) es E). exact H.
  - destruct (entries1 (int_exp Checked) fields (fun x => e_mul_int (int_exp Checked) x n) a) as [es|] eqn:E; [|discriminate].
    pose proof (E1 _ (fun x => e_mul_int (int_exp m) x n) (fun x z => fit_checked_agrees m _ z) es E) as E'.
    cbn [exT int_exp] in *. rewrite E'. exact H.
Qed.
Print Assumptions C67_checked_agrees_partial.

(** ** C09 *)

(** Integer exponents: roots exist exactly for divisible dimensions. *)
Theorem C09_roots_iff : forall fields (a : list (string * Z)), NoDup fields -> map fst a = fields ->
  all_fields (fun x => fits x) a ->
  ((exists c, ddiv2 IntegerExponents fields a = Some c) <-> all_fields (fun x => (2 | x)) a) /\
  ((exists c, ddiv3 IntegerExponents fields a = Some c) <-> all_fields (fun x => (3 | x)) a).
Proof.
  intros fields a N Ha R. unfold dim_div2, dim_div3, all_fields.
  rewrite !method1_eq by auto. rewrite !(entries1_defined (ops IntegerExponents) fields N _ a Ha).
  split; split; intros H f x Hx.
  - apply (i64_exact_div_iff 2 x); [lia|now apply in_i64_iff, (R f)|]. now apply (H f).
  - apply (i64_exact_div_iff 2 x); [lia|now apply in_i64_iff, (R f)|]. now apply (H f).
  - apply (i64_exact_div_iff 3 x); [lia|now apply in_i64_iff, (R f)|]. now apply (H f).
  - apply (i64_exact_div_iff 3 x); [lia|now apply in_i64_iff, (R f)|]. now apply (H f).
Qed.
Print Assumptions C09_roots_iff.

(** Both builds: the root's exponents times two (three) are the argument's exponents. *)
Theorem C09_roots_value : forall k fields a c va, NoDup fields -> denotes k fields a va ->
  (ddiv2 k fields a = Some c ->
     exists vc, denotes k fields c vc /\ forall f, In f fields -> (vc f + vc f)%Qc = va f) /\
  (ddiv3 k fields a = Some c ->
     exists vc, denotes k fields c vc /\ forall f, In f fields -> (vc f + vc f + vc f)%Qc = va f).
Proof.
  intros k fields a c va N Ha. split; intros H.
  - exists (fun f => va f / ZQc 2)%Qc. split; [eapply dim_div2_spec; eauto|].
    intros f _. change (ZQc 2) with (1 + 1)%Qc. field. discriminate.
  - exists (fun f => va f / ZQc 3)%Qc. split; [eapply dim_div3_spec; eauto|].
    intros f _. change (ZQc 3) with (1 + 1 + 1)%Qc. field. discriminate.
Qed.
Print Assumptions C09_roots_value.

(** Roots undo powers: always with integer exponents; with rational ones whenever they evaluate,
    which they do while numerators and denominators are below 2^31. *)
Theorem C09_roots_undo_powers : forall k fields a va, NoDup fields -> denotes k fields a va ->
  (forall b c, dmul k fields a 2 = Some b -> ddiv2 k fields b = Some c -> c = a) /\
  (forall b c, dmul k fields a 3 = Some b -> ddiv3 k fields b = Some c -> c = a).
Proof.
  intros k fields a va N Ha. split; intros b c Hb Hc.
  - pose proof (dim_mul_spec _ fields N (laws k) _ _ _ _ Hb Ha) as Sb.
    pose proof (dim_div2_spec _ fields N (laws k) _ _ _ Hc Sb) as Sc.
    apply (proj2 (C08_identity k fields c a _ _ N Sc Ha)). intros f _. simpl. field. now apply ZQc_nz.
  - pose proof (dim_mul_spec _ fields N (laws k) _ _ _ _ Hb Ha) as Sb.
    pose proof (dim_div3_spec _ fields N (laws k) _ _ _ Hc Sb) as Sc.
    apply (proj2 (C08_identity k fields c a _ _ N Sc Ha)). intros f _. simpl. field. now apply ZQc_nz.
Qed.
Print Assumptions C09_roots_undo_powers.

Theorem C09_roots_of_powers_exist : forall fields (a : list (string * Z)), NoDup fields ->
  map fst a = fields -> all_fields (fun x => fits x) a ->
  (forall b, dmul IntegerExponents fields a 2 = Some b -> ddiv2 IntegerExponents fields b = Some a) /\
  (forall b, dmul IntegerExponents fields a 3 = Some b -> ddiv3 IntegerExponents fields b = Some a).
Proof.
  intros fields a N Ha R.
  assert (D : denotes IntegerExponents fields a
                (fun f => match sget f a with Some e => ZQc e | None => ZQc 0 end)).
  { apply (stands_for_intro (ops IntegerExponents) fields N (laws IntegerExponents)); auto.
    intros f e E. simpl in *. now rewrite E. }
  assert (Rng : forall n b, dmul IntegerExponents fields a n = Some b ->
            map fst b = fields /\ (forall f e, In (f, e) b -> exists x, e = x * n /\ fits e)).
  { intros n b Hb. unfold dim_mul in Hb. rewrite method1_eq in Hb by auto.
    pose proof (entries1_spec _ fields N _ _ _ Hb) as [Sh E]. split; [exact Sh|].
    intros f e I. assert (Nb : NoDup (map fst b)) by (unfold shaped in Sh; now rewrite Sh).
    apply (sget_nodup b f e Nb) in I. apply E in I as (_ & x & _ & Hx). exists x.
    simpl in Hx. apply fit_checked_Some in Hx as [-> Hr]. split; auto. now apply in_i64_iff. }
  split; intros b Hb.
  - destruct (Rng 2 b Hb) as [Sb Eb].
    destruct (proj2 (proj1 (C09_roots_iff fields b N Sb ltac:(intros f e I; destruct (Eb f e I) as (x & _ & H); exact H)))) as [c Hc].
    { intros f e I. destruct (Eb f e I) as (x & -> & _). exists x. reflexivity. }
    rewrite Hc. f_equal. exact (proj1 (C09_roots_undo_powers IntegerExponents fields a _ N D) b c Hb Hc).
  - destruct (Rng 3 b Hb) as [Sb Eb].
    destruct (proj2 (proj2 (C09_roots_iff fields b N Sb ltac:(intros f e I; destruct (Eb f e I) as (x & _ & H); exact H)))) as [c Hc].
    { intros f e I. destruct (Eb f e I) as (x & -> & _). exists x. reflexivity. }
    rewrite Hc. f_equal. exact (proj2 (C09_roots_undo_powers IntegerExponents fields a _ N D) b c Hb Hc).
Qed.
Print Assumptions C09_roots_of_powers_exist.

Lemma canonical_half n : canonical (mkRatio 1 n) <-> 0 < n.
Proof. unfold canonical. cbn [Ratio.num denom]. split; [tauto|]. intros H. split; [auto|apply Z.gcd_1_l]. Qed.

Theorem C09_rational_roots_exist : forall fields (a : list (string * ratio)), NoDup fields ->
  map fst a = fields -> all_small a ->
  exists c d, ddiv2 RationalExponents fields a = Some c /\ ddiv3 RationalExponents fields a = Some d.
Proof.
  intros fields a N Ha S. unfold dim_div2, dim_div3. rewrite !method1_eq by auto.
  destruct (proj2 (entries1_defined (ops RationalExponents) fields N (e_div2 (ops RationalExponents)) a Ha)) as [c Hc].
  { intros f x Hx. destruct (S f x Hx). apply rmul_defined; auto; [now apply canonical_half|].
    split; simpl; lia. }
  destruct (proj2 (entries1_defined (ops RationalExponents) fields N (e_div3 (ops RationalExponents)) a Ha)) as [d Hd].
  { intros f x Hx. destruct (S f x Hx). apply rmul_defined; auto; [now apply canonical_half|].
    split; simpl; lia. }
  exists c, d. auto.
Qed.
Print Assumptions C09_rational_roots_exist.

Example C09_applies :
  let fs := ["length"; "time"]%string in
  ddiv2 IntegerExponents fs [("length"%string, 4); ("time"%string, -2)]
    = Some [("length"%string, 2); ("time"%string, -1)] /\
  ddiv2 IntegerExponents fs [("length"%string, 4); ("time"%string, -1)] = None /\
  ddiv3 RationalExponents fs [("length"%string, mkRatio 1 1); ("time"%string, mkRatio (-3) 2)]
    = Some [("length"%string, mkRatio 1 3); ("time"%string, mkRatio (-1) 2)].
Proof. repeat split; vm_compute; reflexivity. Qed.

(** ** C58 *)

(** The specification: lower case, with an underscore before every upper-case letter except at the
    very start. *)
Fixpoint snake_spec (at_start : bool) (s : string) : string :=
  match s with
  | EmptyString => ""
  | String c s' =>
      (if is_upper c && negb at_start then "_" else "") ++ String (to_lower c) (snake_spec false s')
  end%string.

Theorem C58_field_name : forall s, str_to_snakecase s = snake_spec true s.
Proof.
  intros s. rewrite snakecase_list. generalize true. induction s as [|c s IH]; intros b; [reflexivity|].
  simpl. destruct (is_upper c && negb b); simpl; now rewrite IH.
Qed.
Print Assumptions C58_field_name.

(** The character classes used: exactly the 26 upper-case letters, moved to lower case. *)
Theorem C58_letters : forall c,
  (is_upper c = true <-> (65 <= nat_of_ascii c <= 90)%nat) /\
  nat_of_ascii (to_lower c) = (if is_upper c then nat_of_ascii c + 32 else nat_of_ascii c)%nat.
Proof.
  intros c. split.
  - unfold is_upper. rewrite andb_true_iff, !N.leb_le. unfold nat_of_ascii. lia.
  - unfold to_lower. destruct (is_upper c) eqn:E; auto.
    unfold is_upper in E. apply andb_true_iff in E as [_ E]. apply N.leb_le in E.
    unfold nat_of_ascii. rewrite N_ascii_embedding by lia. lia.
Qed.
Print Assumptions C58_letters.

Example C58_applies :
  str_to_snakecase "MagneticFluxDensity" = "magnetic_flux_density"%string /\
  str_to_snakecase "ABc" = "a_bc"%string.
Proof. split; reflexivity. Qed.

(** ** C59: false as stated *)
Theorem C59_collision_refuted :
  exists a b, a <> b /\ base_dimension_of a = base_dimension_of b /\
    (forall c, In c (list_ascii_of_string a ++ list_ascii_of_string b) ->
       c = "A"%char \/ c = "B"%char \/ c = "b"%char \/ c = "_"%char).
Proof.
  exists "AB"%string, "A_b"%string. repeat split; try reflexivity; try discriminate.
  intros c [<-|[<-|[<-|[<-|[<-|[]]]]]]; auto.
Qed.
Print Assumptions C59_collision_refuted.

(** What holds: names that start with a capital and contain no underscore get different fields; *)
Theorem C59_camel_case_partial : forall a b ca cb,
  (exists a', a = String ca a') -> (exists b', b = String cb b') ->
  is_upper ca = true -> is_upper cb = true ->
  ~ In "_"%char (list_ascii_of_string a) -> ~ In "_"%char (list_ascii_of_string b) ->
  base_dimension_of a = base_dimension_of b -> a = b.
Proof.
  intros a b ca cb [a' ->] [b' ->] Ua Ub Na Nb H. unfold base_dimension_of in H.
  rewrite !snakecase_list in H. apply list_of_string_inj in H. simpl in H.
  rewrite Ua, Ub in H. simpl in H. injection H as H1 H2.
  apply string_of_list_inj. simpl. f_equal.
  - apply to_lower_inj; congruence.
  - apply snake_list_inj; auto; intros I; [apply Na|apply Nb]; now right.
Qed.
Print Assumptions C59_camel_case_partial.

(** and a system in which two base dimensions collide never yields a compiling program: the
    generated struct repeats a field. *)
Theorem C59_collision_does_not_compile_partial : forall k env (T : unresolved (ops k) (unit_template (ops k))) o ds,
  run_unit_system (ops k) env T = Some (o, ds) ->
  df_base_dimensions o = map (fun d => base_dimension_of (de_name d))
                             (filter is_base_dimension (u_dimensions T)) /\
  (struct_declaration_ok (df_base_dimensions o) = true ->
   forall i j d e, nth_error (filter is_base_dimension (u_dimensions T)) i = Some d ->
     nth_error (filter is_base_dimension (u_dimensions T)) j = Some e ->
     base_dimension_of (de_name d) = base_dimension_of (de_name e) -> i = j).
Proof.
  intros k env T o ds R.
  apply (ResolveFacts.resolve_some (ops k) env (expand_templates T)) in R as (res & d8 & _ & -> & _). simpl.
  split; [reflexivity|]. intros H i j d e Hi Hj E. unfold struct_declaration_ok in H.
  apply nodupb_iff in H. apply (map_nth_error (fun d => base_dimension_of (de_name d))) in Hi, Hj.
  rewrite NoDup_nth_error in H. apply H; [|congruence].
  apply nth_error_Some. congruence.
Qed.
Print Assumptions C59_collision_does_not_compile_partial.

Example C59_applies :
  base_dimension_of "Length" = "length"%string /\ is_upper "L" = true /\
  ~ In "_"%char (list_ascii_of_string "Length") /\ base_dimension_of "LuminousIntensity" <> base_dimension_of "Length".
Proof. repeat split; try reflexivity; try discriminate. simpl. intuition discriminate. Qed.

(** ** C60 *)

(** For every dimension, unit and constant of the output, the emitted struct expression is
    accepted by rustc (each field once, the rest filled from [none()]) and evaluates to the
    dimension value with exactly the resolved exponents. *)
Theorem C60_literal : forall k env (T : unresolved (ops k) (unit_template (ops k))) o ds d,
  literals_ok k T -> i64_exponents k T -> run_unit_system (ops k) env T = Some (o, ds) ->
  struct_declaration_ok (df_base_dimensions o) = true ->
  (exists y, In y (df_dimensions o) /\ d_dims y = d) \/
  (exists y, In y (df_units o) /\ un_dims y = d) \/
  (exists y, In y (df_constants o) /\ c_dims y = d) ->
  exists v, dim_expr (ops k) (lit k) (df_base_dimensions o) d = Some v /\
    denotes k (df_base_dimensions o) v
      (fun f => match find (fun kv => String.eqb f (fst kv)) d with
                | Some kv => l_val _ (laws k) (snd kv)
                | None => 0%Qc
                end).
Proof.
  intros k env T o ds d Hl Hi R N Hd. apply nodupb_iff in N.
  destruct (resolved_literal k env T o ds d Hl Hi R N Hd) as (v & Hv & Sv).
  exists v. split; auto. eapply stands_for_proper; [|exact Sv]. intros f _.
  unfold vec_of. clear. induction d as [|[g e] d IH]; simpl; [apply DimensionMathFacts.ZQc_0|].
  destruct (String.eqb f g); auto.
Qed.
Print Assumptions C60_literal.

Lemma example_exponents k : i64_exponents k (example k).
Proof.
  assert (E : flat_map decl_exponents (decls (expand_templates (example k))) = [e_of_i32 (ops k) 2])
    by (destruct k; vm_compute; reflexivity).
  intros x p Hx Hp. assert (I : In p (flat_map decl_exponents (decls (expand_templates (example k)))))
    by (apply in_flat_map; eauto).
  rewrite E in I. destruct I as [<-|[]]. destruct k; simpl; auto.
Qed.

Example C60_applies : forall k, exists o,
  run_unit_system (ops k) env0 (example k) = Some (o, []) /\ literals_ok k (example k) /\
  i64_exponents k (example k) /\
  df_base_dimensions o = ["length"; "time"]%string /\
  struct_declaration_ok (df_base_dimensions o) = true /\
  exists y, In y (df_units o) /\ un_name y = "kph"%string.
Proof.
  intros k. destruct (example_ok k) as (o & H1 & H2 & H3). exists o.
  destruct (C59_collision_does_not_compile_partial k env0 _ o [] H1) as [Eb _].
  split; [auto|]. split; [auto|]. split; [apply example_exponents|].
  assert (Eb' : df_base_dimensions o = ["length"; "time"]%string) by (rewrite Eb; destruct k; reflexivity).
  split; [auto|]. split; [rewrite Eb'; reflexivity|].
  destruct (SystemFacts.unit_results _ (laws k) env0 _ o (ResolveFacts.generated_ok_expand _ _) H1) as (U1 & _).
  apply (U1 (expand_one (kph k) None None)). apply (ResolveFacts.unit_decl (ops k)).
  apply Expansion.expanded_In; simpl; auto.
Qed.
