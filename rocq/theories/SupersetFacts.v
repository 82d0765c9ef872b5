(** * Integer exponents as rational exponents *)
From Coq Require Import String List Bool ZArith Lia.
From Flocq Require Import IEEE754.Binary IEEE754.Bits.
From Verif Require Import MachineInt Ratio F64 Magnitude Exponent SMap Expression DimensionMath Types Resolve
  SystemSpec Setting MagnitudeFacts CodegenDimension Storage Operators OperatorSpec FloatMethods Parse Grammar ParseFacts Simulation PropertiesSerde.
From Verif Require Import Ratio.
Import ListNotations.
Local Open Scope list_scope.
Local Open Scope Z_scope.

Notation Int := IntegerExponents. Notation Rat := RationalExponents.
Definition i64 (z : Z) : Prop := in_i64 z = true.

Lemma fit_some z : i64 z -> fit Checked z = Some z.
Proof. unfold fit, i64. now intros ->. Qed.
Lemma fit_inv z c : fit Checked z = Some c -> c = z /\ i64 z.
Proof. unfold fit, i64. destruct (in_i64 z); [intros E; injection E as <-; auto|discriminate]. Qed.

Lemma gcd_one n : i64 n -> gcd Checked n 1 = Some 1.
Proof.
  intros V. unfold gcd.
  assert (E : gcd_loop 200 n 1 = Some 1).
  { change (gcd_loop 200 n 1) with (let? r := i64_rem n 1 in gcd_loop 199 1 r). unfold i64_rem.
    change (1 =? 0) with false. cbn iota. rewrite Z.quot_1_r, V, Z.rem_1_r. reflexivity. }
  rewrite E. reflexivity.
Qed.
Lemma rnew_one n : i64 n -> rnew Checked n 1 = Some (rint n).
Proof.
  intros V. unfold rnew. rewrite (gcd_one n V). unfold i64_div. change (1 =? 0) with false. cbn iota.
  rewrite Z.quot_1_r, V. reflexivity.
Qed.
Lemma add_rint a b c : i64 a -> i64 b -> i64_add Checked a b = Some c -> radd Checked (rint a) (rint b) = Some (rint c) /\ i64 c.
Proof.
  intros Va Vb E. apply fit_inv in E as [-> Vc]. split; [|exact Vc]. unfold radd. cbn [rint Ratio.num denom].
  unfold i64_mul, i64_add. rewrite !Z.mul_1_r. rewrite (fit_some a Va), (fit_some b Vb), (fit_some _ Vc).
  change (fit Checked 1) with (Some 1). now apply rnew_one.
Qed.
Lemma neg_rint a c : i64_neg Checked a = Some c -> rneg Checked (rint a) = Some (rint c) /\ i64 c.
Proof. intros E. pose proof (fit_inv _ _ E) as [-> V]. unfold rneg. cbn [rint Ratio.num denom]. rewrite E. auto. Qed.
Lemma mul_rint a b c : i64_mul Checked a b = Some c -> rmul Checked (rint a) (rint b) = Some (rint c) /\ i64 c.
Proof.
  intros E. pose proof (fit_inv _ _ E) as [-> V]. split; [|exact V]. unfold rmul. cbn [rint Ratio.num denom]. rewrite E.
  change (i64_mul Checked 1 1) with (Some 1). now apply rnew_one.
Qed.
Lemma sub_rint a b c : i64 a -> i64 b -> b <> i64_min -> i64_sub Checked a b = Some c -> rsub Checked (rint a) (rint b) = Some (rint c) /\ i64 c.
Proof.
  intros Va Vb Nb E. apply fit_inv in E as [-> Vc]. unfold rsub.
  assert (Vn : i64 (- b)).
  { unfold i64, in_i64 in *. apply andb_true_iff in Vb as [B1 B2]. apply Z.leb_le in B1, B2.
    unfold i64_min, i64_max in *. apply andb_true_iff. rewrite !Z.leb_le. lia. }
  destruct (neg_rint b (- b) (fit_some _ Vn)) as [-> _].
  apply (add_rint a (- b)); auto. unfold i64_add. change (a + - b) with (a - b). now apply fit_some.
Qed.
Lemma div_rint k a c : k = 2 \/ k = 3 -> i64 a -> i64_exact_div k a = Some c -> rdiv Checked (rint a) (rint k) = Some (rint c) /\ i64 c.
Proof.
  intros Hk Va. unfold i64_exact_div, i64_rem, i64_div.
  assert (Ek : (k =? 0) = false) by (apply Z.eqb_neq; lia). rewrite Ek.
  destruct (in_i64 (Z.quot a k)) eqn:Q; [|discriminate]. destruct (Z.eqb_spec (Z.rem a k) 0) as [Er|]; [|discriminate].
  intros E. injection E as <-. split; [|exact Q]. unfold rdiv, rmul. cbn [rint rinv Ratio.num denom].
  unfold i64_mul. rewrite Z.mul_1_r, Z.mul_1_l, (fit_some a Va).
  assert (Vk : i64 k) by (destruct Hk as [-> | ->]; reflexivity). rewrite (fit_some k Vk).
  unfold rnew. assert (G : gcd Checked a k = Some k).
  { unfold gcd. assert (E : gcd_loop 200 a k = Some k).
    { change (gcd_loop 200 a k) with (if k =? 0 then Some a else let? r := i64_rem a k in gcd_loop 199 k r).
      rewrite Ek. unfold i64_rem. rewrite Ek, Q, Er. reflexivity. }
    rewrite E. destruct Hk as [-> | ->]; reflexivity. }
  rewrite G. unfold i64_div. rewrite Ek, Q. destruct Hk as [-> | ->]; reflexivity.
Qed.

Lemma eqb_rint a b : ratio_eqb (rint a) (rint b) = Z.eqb a b.
Proof. unfold ratio_eqb. cbn [rint Ratio.num denom]. now rewrite Z.eqb_refl, andb_true_r. Qed.

Lemma simulates_any env env' : simulates (ops Int) (ops Rat) rint env env' (fun _ _ => True) i64 i64.
Proof.
  split; [reflexivity|reflexivity|auto| | | | |auto|auto|auto|auto].
  - intros a b c. exact (add_rint a b c).
  - intros a c _. exact (neg_rint a c).
  - intros a b c _ _. exact (mul_rint a b c).
  - exact eqb_rint.
Qed.
(** [powf] with the exponent [z] is [powi] with [z]. *)
Definition i32 (z : Z) : Prop := - 2 ^ 31 <= z < 2 ^ 31.
Definition whole_power (env : fenv) (z : Z) : Prop := i32 z /\ forall x, f_powf env x (f64_of_Z z) = f_powi env x z.
Lemma i32_i64 z : i32 z -> i64 z.
Proof. unfold i32, i64, in_i64, i64_min, i64_max. intros V. apply andb_true_iff. rewrite !Z.leb_le. lia. Qed.
Lemma simulates_equal env : simulates (ops Int) (ops Rat) rint env env (fun a b => a = b) i64 (whole_power env).
Proof.
  split; [reflexivity|reflexivity| | | | | |reflexivity| | |].
  - intros e [V _]. exact (i32_i64 e V).
  - intros a b c. exact (add_rint a b c).
  - intros a c _. exact (neg_rint a c).
  - intros a b c _ _. exact (mul_rint a b c).
  - exact eqb_rint.
  - intros a a' b b' -> ->. reflexivity.
  - intros a a' b b' -> ->. reflexivity.
  - intros a a' e [Ve W] ->. change (float_pow_i64 env a' e = float_pow_ratio env a' (rint e)).
    unfold float_pow_i64, float_pow_ratio, pow_rational. cbn [rint Ratio.num denom].
    unfold as_i32. rewrite wrap_id by (unfold i32 in Ve; lia). f_equal. rewrite <- (W _). f_equal. symmetry. apply div_one.
    apply f64_of_Z_exact. unfold i32 in Ve. lia.
Qed.

(** ** Parsing *)
Lemma mean_exp_rat e z : mean_exp Int e = Some z -> mean_exp Rat e = Some (rint z) /\ i64 z.
Proof.
  destruct e as [l|n d]; cbn [mean_exp]; [|discriminate]. intros E. rewrite E.
  assert (V : i64 z).
  { destruct l as [neg n|]; cbn [mean_int] in E; [|discriminate].
    destruct (is_i64 (Grammar.signed neg n)) eqn:K; [|discriminate]. injection E as <-.
    unfold is_i64 in K. unfold i64, in_i64, i64_min, i64_max. apply andb_true_iff in K as [K1 K2].
    apply Z.leb_le in K1. apply Z.ltb_lt in K2. apply andb_true_iff. rewrite !Z.leb_le. lia. }
  split; [now apply rnew_one|exact V].
Qed.
Notation mxi := (mx (ops Int) (ops Rat) rint).
Notation mfi := (mf (ops Int) (ops Rat) rint).
Section MeanEq.
Context {T E : Type} (mv : atom -> option T) (me : sexp -> option E).
Lemma mx_one f : mean_x mv me (SxOne f) = let? f' := mean_f mv me f in Some (EVal f').
Proof. reflexivity. Qed.
Lemma mx_bin l o f : mean_x mv me (SxBin l o f) =
  let? l' := mean_x mv me l in let? f' := mean_f mv me f in Some (EBin l' f' (mean_op o)).
Proof. reflexivity. Qed.
Lemma mf_val a : mean_f mv me (SfVal a) = let? v := mv a in Some (FVal v).
Proof. reflexivity. Qed.
Lemma mf_pow a e : mean_f mv me (SfPow a e) = let? v := mv a in let? p := me e in Some (FPow v p).
Proof. reflexivity. Qed.
Lemma mf_paren x : mean_f mv me (SfParen x) = let? x' := mean_x mv me x in Some (FParen x').
Proof. reflexivity. Qed.
End MeanEq.
Section MeanX.
Context {T : Type} (mv : atom -> option T).
Lemma mean_rat_mut :
  (forall x e, mean_x mv (mean_exp Int) x = Some e ->
     mean_x mv (mean_exp Rat) x = Some (mxi (fun t => t) e) /\ allowed (ops Int) i64 any e) /\
  (forall f e, mean_f mv (mean_exp Int) f = Some e ->
     mean_f mv (mean_exp Rat) f = Some (mfi (fun t => t) e) /\ fallowed (ops Int) i64 any e).
Proof.
  apply sx_sf_ind.
  - intros f IH e. rewrite !mx_one. destruct (mean_f mv (mean_exp Int) f) as [g|]; [|intros E; discriminate E].
    destruct (IH g eq_refl) as [-> A]. intros E. assert (Ew : e = EVal g) by congruence. subst e. auto.
  - intros l IHl o f IHf e. rewrite !mx_bin. destruct (mean_x mv (mean_exp Int) l) as [l'|]; [|intros E; discriminate E].
    destruct (IHl l' eq_refl) as [-> A]. destruct (mean_f mv (mean_exp Int) f) as [g|]; [|intros E; discriminate E].
    destruct (IHf g eq_refl) as [-> B]. intros E. assert (Ew : e = EBin l' g (mean_op o)) by congruence.
    subst e. split; [reflexivity|split; auto].
  - intros a e. rewrite !mf_val. destruct (mv a) as [v|]; intros E; [|discriminate E].
    assert (Ew : e = FVal v) by congruence. subst e. split; [reflexivity|exact I].
  - intros a p e. rewrite !mf_pow. destruct (mv a) as [v|]; [|intros E; discriminate E].
    destruct (mean_exp Int p) as [z|] eqn:Ep; [|intros E; discriminate E]. destruct (mean_exp_rat p z Ep) as [-> V].
    intros E. assert (Ew : e = FPow v z) by congruence. subst e. split; [reflexivity|split; [exact I|exact V]].
  - intros x IH e. rewrite !mf_paren. destruct (mean_x mv (mean_exp Int) x) as [g|]; [|intros E; discriminate E].
    destruct (IH g eq_refl) as [-> A]. intros E. assert (Ew : e = FParen g) by congruence. subst e. auto.
Qed.
End MeanX.

Definition ment (e : entry Int) : entry Rat :=
  match e with
  | EntQuantityType _ i => EntQuantityType Rat i
  | EntDimensionType _ i => EntDimensionType Rat i
  | EntDimension _ d => EntDimension Rat (mdim (ops Int) (ops Rat) rint d)
  | EntUnit _ u => EntUnit Rat (mtempl (ops Int) (ops Rat) rint u)
  | EntConstant _ c => EntConstant Rat (mconst (ops Int) (ops Rat) rint c)
  end.
Definition ent_ok (e : entry Int) : Prop :=
  match e with
  | EntQuantityType _ _ | EntDimensionType _ _ => True
  | EntDimension _ d => match de_rhs d with DefBase _ => True | DefExpr e => allowed (ops Int) i64 any e end
  | EntUnit _ u => match ut_definition u with DefBase _ => True | DefExpr e => allowed (ops Int) i64 any e end
  | EntConstant _ c => allowed (ops Int) i64 any (ce_rhs c)
  end.
Lemma mean_stmt_rat s e : mean_stmt Int s = Some e -> mean_stmt Rat s = Some (ment e) /\ ent_ok e.
Proof.
  destruct s as [l i|l i|l i [x|]|l i ann rhs|l i ann x]; cbn [mean_stmt]; intros E.
  - injection E as <-. split; [reflexivity|exact I].
  - injection E as <-. split; [reflexivity|exact I].
  - unfold mean_dimension_rhs in *. destruct (mean_x mean_dimension_atom (mean_exp Int) x) as [y|] eqn:Ex; [|discriminate].
    destruct (proj1 (mean_rat_mut mean_dimension_atom) x y Ex) as [-> A]. injection E as <-. split; [reflexivity|exact A].
  - injection E as <-. split; [reflexivity|exact I].
  - destruct (mean_unit Int l i ann rhs) as [u|] eqn:Eu; [|discriminate].
    assert (K : mean_unit Rat l i ann rhs = Some (mtempl (ops Int) (ops Rat) rint u) /\
      match ut_definition u with DefBase _ => True | DefExpr e => allowed (ops Int) i64 any e end).
    { unfold mean_unit in *. destruct (mean_unit_definition Int (bases_of l) rhs) as [d|] eqn:Ed; [|discriminate].
      assert (Kd : mean_unit_definition Rat (bases_of l) rhs = Some (mdef (ops Int) (ops Rat) rint d) /\
        match d with DefBase _ => True | DefExpr e => allowed (ops Int) i64 any e end).
      { unfold mean_unit_definition in *. destruct (bases_of l) as [|b [|? ?]], rhs as [x|]; try discriminate.
        - unfold mean_unit_rhs in *. destruct (mean_x mean_unit_atom (mean_exp Int) x) as [y|] eqn:Ex; [|discriminate].
          destruct (proj1 (mean_rat_mut mean_unit_atom) x y Ex) as [-> A].
          assert (d = DefExpr y) by congruence. subst d. split; [reflexivity|exact A].
        - assert (d = DefBase b) by congruence. subst d. split; [reflexivity|exact I]. }
      destruct Kd as [-> A]. destruct (at_most_one (symbols_of l)) as [y|]; [|discriminate].
      destruct (at_most_one (metrics_of l)) as [m|]; [|discriminate].
      match type of Eu with Some ?w = _ => assert (Ew : u = w) by congruence end. subst u. split; [reflexivity|exact A]. }
    destruct K as [-> A]. assert (e = EntUnit Int u) by congruence. subst e. split; [reflexivity|exact A].
  - unfold mean_unit_rhs in *. destruct (mean_x mean_unit_atom (mean_exp Int) x) as [y|] eqn:Ex; [|discriminate].
    destruct (proj1 (mean_rat_mut mean_unit_atom) x y Ex) as [-> A].
    match type of E with Some ?w = _ => assert (Ew : e = w) by congruence end. subst e. split; [reflexivity|exact A].
Qed.
Lemma collect_rat l es : collect (mean_stmt Int) l = Some es -> collect (mean_stmt Rat) l = Some (map ment es) /\ Forall ent_ok es.
Proof.
  revert es. induction l as [|s l IH]; intros es; cbn [collect].
  - intros E. injection E as <-. split; [reflexivity|constructor].
  - destruct (mean_stmt Int s) as [e|] eqn:Es; [|discriminate]. destruct (mean_stmt_rat s e Es) as [-> A].
    destruct (collect (mean_stmt Int) l) as [r|]; [|discriminate]. destruct (IH r eq_refl) as [-> B].
    intros E. assert (es = e :: r) by congruence. subst es. split; [reflexivity|constructor; auto].
Qed.
Lemma flat_map_ment {A B} (g : A -> B) (f : entry Int -> list A) (f' : entry Rat -> list B) es :
  (forall e, f' (ment e) = map g (f e)) -> flat_map f' (map ment es) = map g (flat_map f es).
Proof. intros K. induction es as [|e es IH]; cbn [map flat_map]; [reflexivity|]. now rewrite K, IH, map_app. Qed.
Lemma flat_map_ok {A} (P : A -> Prop) (f : entry Int -> list A) es :
  (forall e, ent_ok e -> Forall P (f e)) -> Forall ent_ok es -> Forall P (flat_map f es).
Proof. intros K. induction 1 as [|e es He _ IH]; cbn [flat_map]; [constructor|]. apply Forall_app. auto. Qed.
Lemma mean_file_rat l s : mean_file Int l = Some s ->
  mean_file Rat l = Some (msys (ops Int) (ops Rat) rint (mtempl (ops Int) (ops Rat) rint) s) /\ templates_allowed (ops Int) i64 s.
Proof.
  unfold mean_file. destruct (collect (mean_stmt Int) (sl_items l)) as [es|] eqn:E; [|discriminate].
  destruct (collect_rat _ _ E) as [-> A]. intros Es.
  match type of Es with Some ?w = _ => assert (Ew : s = w) by congruence end. subst s. clear Es E. split.
  - f_equal. unfold msys. cbn [u_dimension_types u_quantity_types u_dimensions u_units u_constants]. f_equal.
    + rewrite <- (map_id (flat_map (fun e : entry Int => match e with EntDimensionType _ i => [i] | _ => [] end) es)).
      apply flat_map_ment. intros []; reflexivity.
    + rewrite <- (map_id (flat_map (fun e : entry Int => match e with EntQuantityType _ i => [i] | _ => [] end) es)).
      apply flat_map_ment. intros []; reflexivity.
    + apply flat_map_ment. intros []; reflexivity.
    + apply flat_map_ment. intros []; reflexivity.
    + apply flat_map_ment. intros []; reflexivity.
  - split; [|split]; cbn [u_dimensions u_units u_constants]; (eapply flat_map_ok; [|exact A]); intros []; cbn [ent_ok]; intros K;
      try constructor; auto.
Qed.

(** ** The generated dimension type *)
Notation mbi := (mb (ops Int) (ops Rat) rint).
Definition valid (d : dimval (ops Int)) : Prop := Forall (fun kv => i64 (snd kv)) d.
Lemma mapM_rel {A B C} (f : A -> option B) (g : A -> option C) (h : B -> C) l r :
  (forall a b, f a = Some b -> g a = Some (h b)) -> mapM f l = Some r -> mapM g l = Some (map h r).
Proof.
  intros K. revert r. induction l as [|a l IH]; intros r; cbn [mapM].
  - intros E. injection E as <-. reflexivity.
  - destruct (f a) as [b|] eqn:Ea; [|discriminate]. rewrite (K _ _ Ea). destruct (mapM f l) as [r'|]; [|discriminate].
    intros E. injection E as <-. now rewrite (IH r' eq_refl).
Qed.
Lemma fst_mbi d : map fst (mbi d) = map fst d.
Proof. unfold mb. rewrite map_map. reflexivity. Qed.
Lemma sget_mbi n d : sget n (mbi d) = option_map rint (sget n d).
Proof. apply sget_mb. Qed.
Lemma sget_valid_i n d v : valid d -> sget n d = Some v -> i64 v.
Proof. apply (sget_valid (ops Int) i64). Qed.
Lemma struct_expr_rat fields es d : struct_expr (ops Int) fields es None = Some d ->
  struct_expr (ops Rat) fields (mbi es) None = Some (mbi d).
Proof.
  unfold struct_expr. rewrite fst_mbi. destruct (nodupb (map fst es) && _); [|discriminate].
  apply (mapM_rel _ _ (fun kv => (fst kv, rint (snd kv)))). intros f b. rewrite sget_mbi.
  destruct (sget f es) as [v|]; cbn [option_map]; [|discriminate]. intros E. injection E as <-. reflexivity.
Qed.
Lemma entries1_rat fields (f : Z -> option Z) (g : ratio -> option ratio) d es : valid d ->
  (forall a c, i64 a -> f a = Some c -> g (rint a) = Some (rint c)) ->
  entries1 (ops Int) fields f d = Some es -> entries1 (ops Rat) fields g (mbi d) = Some (mbi es).
Proof.
  intros Vd K. apply (mapM_rel _ _ (fun kv => (fst kv, rint (snd kv)))). intros x b. rewrite sget_mbi.
  destruct (sget x d) as [v|] eqn:G; cbn [option_map]; [|discriminate].
  destruct (f v) as [c|] eqn:E; [|discriminate]. rewrite (K _ _ (sget_valid_i _ _ _ Vd G) E).
  intros Eb. injection Eb as <-. reflexivity.
Qed.
Lemma entries2_rat fields (f : Z -> Z -> option Z) (g : ratio -> ratio -> option ratio) (P : Z -> Prop) d d2 es : valid d -> valid d2 ->
  Forall (fun kv => P (snd kv)) d2 ->
  (forall a b c, i64 a -> i64 b -> P b -> f a b = Some c -> g (rint a) (rint b) = Some (rint c)) ->
  entries2 (ops Int) fields f d d2 = Some es -> entries2 (ops Rat) fields g (mbi d) (mbi d2) = Some (mbi es).
Proof.
  intros Vd V2 Pd K. apply (mapM_rel _ _ (fun kv => (fst kv, rint (snd kv)))). intros x b. rewrite !sget_mbi.
  destruct (sget x d) as [v|] eqn:G; cbn [option_map]; [|discriminate].
  destruct (sget x d2) as [w|] eqn:G2; cbn [option_map]; [|discriminate].
  destruct (f v w) as [c|] eqn:E; [|discriminate].
  rewrite (K _ _ _ (sget_valid_i _ _ _ Vd G) (sget_valid_i _ _ _ V2 G2) (sget_valid (ops Int) P _ _ _ Pd G2) E).
  intros Eb. injection Eb as <-. reflexivity.
Qed.
Lemma none_rat fields d : dim_none (ops Int) fields = Some d -> dim_none (ops Rat) fields = Some (mbi d).
Proof.
  unfold dim_none. intros E. apply struct_expr_rat in E. rewrite <- E. f_equal. unfold mb. rewrite map_map. reflexivity.
Qed.
Lemma add_rat fields a b d : valid a -> valid b -> dim_add (ops Int) fields a b = Some d ->
  dim_add (ops Rat) fields (mbi a) (mbi b) = Some (mbi d).
Proof.
  intros Va Vb. unfold dim_add. destruct (entries2 (ops Int) fields (e_add (ops Int)) a b) as [es|] eqn:E; [|discriminate].
  rewrite (entries2_rat fields (e_add (ops Int)) (e_add (ops Rat)) (fun _ => True) a b es); auto.
  - apply struct_expr_rat.
  - now apply Forall_forall.
  - intros x y c Vx Vy _ Ec. exact (proj1 (add_rint x y c Vx Vy Ec)).
Qed.
Lemma sub_rat fields a b d : valid a -> valid b -> Forall (fun kv => snd kv <> i64_min) b -> dim_sub (ops Int) fields a b = Some d ->
  dim_sub (ops Rat) fields (mbi a) (mbi b) = Some (mbi d).
Proof.
  intros Va Vb Nb. unfold dim_sub. destruct (entries2 (ops Int) fields (e_sub (ops Int)) a b) as [es|] eqn:E; [|discriminate].
  rewrite (entries2_rat fields (e_sub (ops Int)) (e_sub (ops Rat)) (fun z => z <> i64_min) a b es); auto.
  - apply struct_expr_rat.
  - intros x y c Vx Vy N Ec. exact (proj1 (sub_rint x y c Vx Vy N Ec)).
Qed.
Lemma neg_rat fields a d : valid a -> dim_neg (ops Int) fields a = Some d -> dim_neg (ops Rat) fields (mbi a) = Some (mbi d).
Proof.
  intros Va. unfold dim_neg. destruct (entries1 (ops Int) fields (e_neg (ops Int)) a) as [es|] eqn:E; [|discriminate].
  rewrite (entries1_rat fields (e_neg (ops Int)) (e_neg (ops Rat)) a es); auto.
  - apply struct_expr_rat.
  - intros x c _ Ec. exact (proj1 (neg_rint x c Ec)).
Qed.
Lemma mul_rat fields a k d : valid a -> dim_mul (ops Int) fields a k = Some d -> dim_mul (ops Rat) fields (mbi a) k = Some (mbi d).
Proof.
  intros Va. unfold dim_mul. destruct (entries1 (ops Int) fields (fun x => e_mul_int (ops Int) x k) a) as [es|] eqn:E; [|discriminate].
  rewrite (entries1_rat fields (fun x => e_mul_int (ops Int) x k) (fun x : ops Rat => e_mul_int (ops Rat) x k) a es); auto.
  - apply struct_expr_rat.
  - intros x c _ Ec. exact (proj1 (mul_rint x k c Ec)).
Qed.
Lemma div2_rat fields a d : valid a -> dim_div2 (ops Int) fields a = Some d -> dim_div2 (ops Rat) fields (mbi a) = Some (mbi d).
Proof.
  intros Va. unfold dim_div2. destruct (entries1 (ops Int) fields (e_div2 (ops Int)) a) as [es|] eqn:E; [|discriminate].
  rewrite (entries1_rat fields (e_div2 (ops Int)) (e_div2 (ops Rat)) a es); auto.
  - apply struct_expr_rat.
  - intros x c Vx Ec. exact (proj1 (div_rint 2 x c (or_introl eq_refl) Vx Ec)).
Qed.
Lemma div3_rat fields a d : valid a -> dim_div3 (ops Int) fields a = Some d -> dim_div3 (ops Rat) fields (mbi a) = Some (mbi d).
Proof.
  intros Va. unfold dim_div3. destruct (entries1 (ops Int) fields (e_div3 (ops Int)) a) as [es|] eqn:E; [|discriminate].
  rewrite (entries1_rat fields (e_div3 (ops Int)) (e_div3 (ops Rat)) a es); auto.
  - apply struct_expr_rat.
  - intros x c Vx Ec. exact (proj1 (div_rint 3 x c (or_intror eq_refl) Vx Ec)).
Qed.
