(** * Typed programs run to the end *)
From Coq Require Import String List Bool ZArith Lia.
From Verif Require Import MachineInt Ratio F64 FloatOps Magnitude Exponent ExponentFacts SMap Types CodegenDimension
  Setting Storage Operators OperatorSpec OperatorFacts Raw FloatMethods Vector Programs EquivarianceFacts
  FloatPrograms SafetySpec.
Import ListNotations.
Local Open Scope list_scope.
Local Open Scope nat_scope.

Lemma zip_length {F} (f : F -> F -> F) xs ys n : length xs = n -> length ys = n -> length (g_zip f xs ys) = n.
Proof. intros H1 H2. unfold g_zip. rewrite map_length, combine_length. lia. Qed.
Lemma set_length {F} (x : F) xs : forall i, length (g_set i x xs) = length xs.
Proof. induction xs as [|y xs IH]; intros [|i]; cbn [g_set length]; auto. Qed.

(** ** Operators *)
Definition arithmetic (op : trait) : Prop := op <> TPartialEq /\ op <> TPartialOrd.
Lemma float_eqb_eq f g : float_eqb f g = true -> f = g.
Proof. destruct f, g; (reflexivity || discriminate). Qed.
Lemma vector_eqb_eq v w : vector_eqb v w = true -> v = w.
Proof. destruct v, w; (reflexivity || discriminate). Qed.
Lemma lift_safe g32 g64 op s1 s2 o x y : arithmetic op -> std_raw_op op (Known s1) (Known s2) = Some o ->
  has_storage s1 x -> has_storage s2 y -> exists z s, raw_lift g32 g64 x y = Some z /\ o = Known s /\ has_storage s z.
Proof.
  intros [A1 A2] H Hx Hy. destruct s1 as [f|v], s2 as [g|w]; cbn [std_raw_op] in H.
  - destruct (float_eqb f g) eqn:E; [|discriminate H]. apply float_eqb_eq in E. subst g. injection H as <-.
    destruct f, x; try contradiction Hx; destruct y; try contradiction Hy; do 2 eexists; repeat split.
  - destruct (float_eqb (component w) f) eqn:E; [|discriminate H]. apply float_eqb_eq in E. subst f.
    assert (K : o = Known (Vector w)) by (destruct op; congruence). subst o.
    destruct (component w) eqn:C, x; try contradiction Hx; destruct y; try contradiction Hy; destruct Hy as [Cy Ly];
      try (rewrite C in Cy; discriminate Cy); do 2 eexists; (split; [reflexivity|]; split; [reflexivity|]; split; [exact C|]);
      now rewrite map_length.
  - destruct (float_eqb (component v) g) eqn:E; [|discriminate H]. apply float_eqb_eq in E. subst g.
    assert (K : o = Known (Vector v)) by (destruct op; congruence). subst o.
    destruct (component v) eqn:C, y; try contradiction Hy; destruct x; try contradiction Hx; destruct Hx as [Cx Lx];
      try (rewrite C in Cx; discriminate Cx); do 2 eexists; (split; [reflexivity|]; split; [reflexivity|]; split; [exact C|]);
      now rewrite map_length.
  - destruct (vector_eqb v w) eqn:E; [|discriminate H]. apply vector_eqb_eq in E. subst w.
    assert (K : o = Known (Vector v)) by (destruct op; congruence). subst o.
    destruct x; try contradiction Hx; destruct Hx as [Cx Lx]; destruct y; try contradiction Hy; destruct Hy as [Cy Ly];
      try (rewrite Cx in Cy; discriminate Cy); do 2 eexists; (split; [reflexivity|]; split; [reflexivity|]; split; [exact Cx|]);
      now apply zip_length.
Qed.
Lemma op_safe op s1 s2 o x y : arithmetic op -> std_raw_op op (Known s1) (Known s2) = Some o ->
  has_storage s1 x -> has_storage s2 y -> exists z s, raw_op op x y = Some z /\ o = Known s /\ has_storage s z.
Proof. intros A. destruct op; cbn [raw_op]; try (apply lift_safe; exact A); destruct A; congruence. Qed.
Lemma relation_safe r s1 s2 o x y : std_raw_op (trait_of r) (Known s1) (Known s2) = Some o ->
  has_storage s1 x -> has_storage s2 y -> exists c, raw_relation r x y = Some c.
Proof.
  intros H Hx Hy. destruct s1 as [f|v], s2 as [g|w]; cbn [std_raw_op] in H.
  - destruct (float_eqb f g) eqn:E; [|discriminate H]. apply float_eqb_eq in E. subst g.
    destruct f, x; try contradiction Hx; destruct y; try contradiction Hy; eexists; reflexivity.
  - destruct (float_eqb (component w) f); [|discriminate H]. destruct r; discriminate H.
  - destruct (float_eqb (component v) g); [|discriminate H]. destruct r; discriminate H.
  - destruct (vector_eqb v w) eqn:E; [|discriminate H]. apply vector_eqb_eq in E. subst w.
    destruct x; try contradiction Hx; destruct Hx as [Cx Lx]; destruct y; try contradiction Hy; destruct Hy as [Cy Ly];
      try (rewrite Cx in Cy; discriminate Cy); destruct r; try discriminate H; eexists; reflexivity.
Qed.

(** ** Vector methods *)
Section Glam.
Context {F : Type} (add sub mul div : F -> F -> F) (sqrt : F -> F) (fmin fmax : F -> F -> F) (zero one : F) (v : vector_type).
Notation n := (num_dims v).
Definition lengths (o : vec_op) : list nat :=
  match o with
  | VNew => repeat 1 n
  | VNewAxis _ => [1]
  | VGet _ | VLength | VNormalize => [n]
  | VSet _ => [n; 1]
  | VZero => []
  | VMin | VMax | VDistance | VDistanceSquared | VDot => [n; n]
  end.
Definition axis_fits (o : vec_op) : Prop := match o with VNewAxis a | VGet a | VSet a => has_axis v a | _ => True end.
Lemma glam_safe o args : axis_fits o -> map (@length F) args = lengths o ->
  exists r, g_value add sub mul div sqrt fmin fmax zero one n o args = Some r /\ length r = if scalar_result o then 1 else n.
Proof.
  intros A H. destruct o; cbn [lengths axis_fits scalar_result] in *.
  - exists (concat args). split; [reflexivity|]. clear A. revert args H.
    induction n as [|m IH]; intros [|[|q [|]] args] H; try discriminate H; [reflexivity|].
    injection H as H. cbn [concat length app]. now rewrite (IH args H).
  - destruct args as [|[|q [|]] [|]]; try discriminate H. eexists. split; [reflexivity|]. unfold g_axis. now rewrite !map_length, seq_length.
  - destruct args as [|xs [|]]; try discriminate H. injection H as H. cbn [g_value].
    destruct (nth_error xs (axis_index a)) as [x|] eqn:E; [eexists; split; reflexivity|].
    apply nth_error_None in E. unfold has_axis in A. lia.
  - destruct args as [|xs [|[|q [|]] [|]]]; try discriminate H. injection H as H. eexists. split; [reflexivity|]. now rewrite set_length.
  - destruct args; try discriminate H. eexists. split; [reflexivity|]. apply repeat_length.
  - destruct args as [|xs [|ys [|]]]; try discriminate H. injection H as H1 H2. eexists. split; [reflexivity|]. now apply zip_length.
  - destruct args as [|xs [|ys [|]]]; try discriminate H. injection H as H1 H2. eexists. split; [reflexivity|]. now apply zip_length.
  - destruct args as [|xs [|]]; try discriminate H. eexists. split; reflexivity.
  - destruct args as [|xs [|ys [|]]]; try discriminate H. eexists. split; reflexivity.
  - destruct args as [|xs [|ys [|]]]; try discriminate H. eexists. split; reflexivity.
  - destruct args as [|xs [|]]; try discriminate H. injection H as H. eexists. split; [reflexivity|]. cbn [g_value]. unfold g_normalize. now rewrite map_length.
  - destruct args as [|xs [|ys [|]]]; try discriminate H. eexists. split; reflexivity.
Qed.
End Glam.

Lemma comps32_ok v bs xs : component v = F32 ->
  Forall2 (fun l x => has_storage (if Nat.eqb l 1 then Float F32 else Vector v) x) bs xs ->
  Forall (fun l => l = 1 \/ l = num_dims v) bs ->
  exists a, all_some (map comps32 xs) = Some a /\ map (@length f32) a = bs.
Proof.
  intros C H W. induction H as [|l x bs xs Hx _ IH]; [exists []; auto|]. inversion W; subst.
  destruct (IH H2) as (a & E & L). cbn [map all_some]. destruct x as [q|q|q|q].
  - exists ([q] :: a). cbn [comps32]. rewrite E. split; [reflexivity|]. cbn [map length]. f_equal; [|exact L].
    destruct (Nat.eqb_spec l 1); [now symmetry|]. contradiction Hx.
  - destruct (Nat.eqb l 1); contradiction Hx.
  - exists (q :: a). cbn [comps32]. rewrite E. split; [reflexivity|]. cbn [map length]. f_equal; [|exact L].
    destruct (Nat.eqb_spec l 1); [contradiction Hx|]. destruct Hx as [_ Hx]. destruct H1; congruence.
  - destruct (Nat.eqb l 1); [contradiction Hx|]. destruct Hx as [Hx _]. rewrite C in Hx. discriminate Hx.
Qed.
Lemma comps64_ok v bs xs : component v = F64 ->
  Forall2 (fun l x => has_storage (if Nat.eqb l 1 then Float F64 else Vector v) x) bs xs ->
  Forall (fun l => l = 1 \/ l = num_dims v) bs ->
  exists a, all_some (map comps64 xs) = Some a /\ map (@length f64) a = bs.
Proof.
  intros C H W. induction H as [|l x bs xs Hx _ IH]; [exists []; auto|]. inversion W; subst.
  destruct (IH H2) as (a & E & L). cbn [map all_some]. destruct x as [q|q|q|q].
  - destruct (Nat.eqb l 1); contradiction Hx.
  - exists ([q] :: a). cbn [comps64]. rewrite E. split; [reflexivity|]. cbn [map length]. f_equal; [|exact L].
    destruct (Nat.eqb_spec l 1); [now symmetry|]. contradiction Hx.
  - destruct (Nat.eqb l 1); [contradiction Hx|]. destruct Hx as [Hx _]. rewrite C in Hx. discriminate Hx.
  - exists (q :: a). cbn [comps64]. rewrite E. split; [reflexivity|]. cbn [map length]. f_equal; [|exact L].
    destruct (Nat.eqb_spec l 1); [contradiction Hx|]. destruct Hx as [_ Hx]. destruct H1; congruence.
Qed.
Lemma vec_value_safe M v o xs : axis_fits v o ->
  Forall2 (fun l x => has_storage (if Nat.eqb l 1 then Float (component v) else Vector v) x) (lengths v o) xs ->
  exists y, vec_value M v o xs = Some y /\ has_storage (if scalar_result o then Float (component v) else Vector v) y.
Proof.
  intros A H.
  assert (W : Forall (fun l => l = 1 \/ l = num_dims v) (lengths v o)).
  { destruct o; cbn [lengths]; auto. apply Forall_forall. intros x I. apply repeat_spec in I. now left. }
  unfold vec_value. destruct (component v) eqn:C.
  - destruct (comps32_ok v _ _ C H W) as (a & -> & L).
    destruct (glam_safe f32_add f32_sub f32_mul f32_div f32_sqrt (m_min (math32 M)) (m_max (math32 M)) f32_zero f32_one v o a A L) as (r & E & Lr).
    unfold vec_value32. rewrite E. unfold as_raw. destruct (scalar_result o).
    + destruct r as [|x [|]]; try discriminate Lr. eexists. split; [reflexivity|exact I].
    + eexists. split; [reflexivity|]. split; [exact C|exact Lr].
  - destruct (comps64_ok v _ _ C H W) as (a & -> & L).
    destruct (glam_safe f64_add f64_sub f64_mul f64_div f64_sqrt (m_min (math64 M)) (m_max (math64 M)) f64_zero f64_one v o a A L) as (r & E & Lr).
    unfold vec_value64. rewrite E. unfold as_raw. destruct (scalar_result o).
    + destruct r as [|x [|]]; try discriminate Lr. eexists. split; [reflexivity|exact I].
    + eexists. split; [reflexivity|]. split; [exact C|exact Lr].
Qed.

Section Safe.
Context {k : mode} (fields : list string) (ft : features) (mth : bool) (units : list (dimval (ops k))) (strict : bool).
Context (panic : raw -> option raw) (env : fenv) (M : math) (mags : list magnitude) (clamps : bool).
Notation X := (ops k).
Notation runs := (frun (k := k) panic env M mags).
Notation runs_all := (frun_all (k := k) panic env M mags).
Context (Len : length mags = length units).
Context (Pan : clamps = true -> forall s x, has_storage s x -> exists y, panic x = Some y /\ has_storage s y).

Lemma vec_call_safe v o ts r xs : vec_call X fields ft v o ts r -> Forall2 (is_of (k := k)) ts xs ->
  exists y, vec_value M v o xs = Some y /\ is_of r y.
Proof.
  intros (_ & d & H) F.
  assert (K : axis_fits v o -> ts = ts -> Forall2 (fun l x => has_storage (if Nat.eqb l 1 then Float (component v) else Vector v) x) (lengths v o) xs ->
    (forall y, has_storage (if scalar_result o then Float (component v) else Vector v) y -> is_of r y) ->
    exists y, vec_value M v o xs = Some y /\ is_of r y).
  { intros A _ H1 H2. destruct (vec_value_safe M v o xs A H1) as (y & E & Hy). exists y. auto. }
  assert (N1 : Nat.eqb (num_dims v) 1 = false) by (destruct v; reflexivity).
  destruct o; cbn [lengths scalar_result axis_fits] in K.
  - destruct H as [-> ->]. apply K; auto. clear K N1. revert xs F. induction (num_dims v) as [|m IH]; cbn [repeat]; intros xs F.
    + inversion F; subst. constructor.
    + inversion F as [|? ? ? ? F1 F2]; subst. constructor; [exact F1|]. now apply IH.
  - destruct H as (A & -> & ->). apply K; auto. inversion F as [|? ? ? ? F1 F2]; subst. inversion F2; subst. constructor; [exact F1|constructor].
  - destruct H as (A & -> & ->). apply K; auto. inversion F as [|? ? ? ? F1 F2]; subst. inversion F2; subst. constructor; [rewrite N1; exact F1|constructor].
  - destruct H as (A & -> & ->). apply K; auto. inversion F as [|? ? ? ? F1 F2]; subst. inversion F2 as [|? ? ? ? F3 F4]; subst. inversion F4; subst.
    constructor; [rewrite N1; exact F1|]. constructor; [exact F3|constructor].
  - destruct H as (-> & ->). apply K; auto. inversion F; subst. constructor.
  - destruct H as (-> & ->). apply K; auto. inversion F as [|? ? ? ? F1 F2]; subst. inversion F2 as [|? ? ? ? F3 F4]; subst. inversion F4; subst.
    constructor; [rewrite N1; exact F1|]. constructor; [rewrite N1; exact F3|constructor].
  - destruct H as (-> & ->). apply K; auto. inversion F as [|? ? ? ? F1 F2]; subst. inversion F2 as [|? ? ? ? F3 F4]; subst. inversion F4; subst.
    constructor; [rewrite N1; exact F1|]. constructor; [rewrite N1; exact F3|constructor].
  - destruct H as (-> & ->). apply K; auto. inversion F as [|? ? ? ? F1 F2]; subst. inversion F2; subst. constructor; [rewrite N1; exact F1|constructor].
  - destruct H as (-> & ->). apply K; auto. inversion F as [|? ? ? ? F1 F2]; subst. inversion F2 as [|? ? ? ? F3 F4]; subst. inversion F4; subst.
    constructor; [rewrite N1; exact F1|]. constructor; [rewrite N1; exact F3|constructor].
  - destruct H as (-> & d' & _ & ->). apply K; auto. inversion F as [|? ? ? ? F1 F2]; subst. inversion F2 as [|? ? ? ? F3 F4]; subst. inversion F4; subst.
    constructor; [rewrite N1; exact F1|]. constructor; [rewrite N1; exact F3|constructor].
  - destruct H as (-> & d' & _ & ->). apply K; auto. inversion F as [|? ? ? ? F1 F2]; subst. inversion F2; subst. constructor; [rewrite N1; exact F1|constructor].
  - destruct H as (dr & d' & -> & _ & ->). apply K; auto. inversion F as [|? ? ? ? F1 F2]; subst. inversion F2 as [|? ? ? ? F3 F4]; subst. inversion F4; subst.
    constructor; [rewrite N1; exact F1|]. constructor; [rewrite N1; exact F3|constructor].
Qed.

Lemma unit_safe u d : unit_typed k fields units u d -> exists m, magnitude_of env mags u = Some m.
Proof.
  assert (K : forall i d, nth_error units i = Some d -> exists m, nth_error mags i = Some m).
  { intros i d' H. destruct (nth_error mags i) as [m|] eqn:E; [eauto|]. apply nth_error_None in E.
    assert (L : i < length units) by (apply nth_error_Some; congruence). lia. }
  intros H. destruct H as [i d H|i j d1 d2 d H1 H2 _|i j d1 d2 d H1 H2 _]; cbn [magnitude_of].
  - eapply K; eauto.
  - destruct (K _ _ H1) as [m ->], (K _ _ H2) as [m' ->]. eauto.
  - destruct (K _ _ H1) as [m ->], (K _ _ H2) as [m' ->]. eauto.
Qed.
Lemma known b x : is_of (k := k) b x -> exists s, has_storage s x /\ (match b with TyQ c _ | TyS c => c end) = Known s.
Proof. destruct b as [[s|] d|[s|]]; cbn [is_of]; intros H; try contradiction; exists s; auto. Qed.
Lemma sup op b1 b2 out : compiles X fields std_raw_op std_raw_copy ft op (Value, b1) (Value, b2) out ->
  exists o, std_raw_op op (match b1 with TyQ c _ | TyS c => c end) (match b2 with TyQ c _ | TyS c => c end) = Some o /\
    (has_output_type op = true -> exists d, out = Some (o, d)) /\ (has_output_type op = false -> out = None).
Proof.
  intros H. apply (compiles_iff_spec _ _ _ _ _ _ _ _ _ (std_ok ft)) in H. unfold spec in H.
  destruct b1 as [s1 d1|s1], b2 as [s2 d2|s2]; try contradiction H; destruct H as (o & (R & _) & H); exists o; (split; [exact R|]);
    destruct op; cbn [has_output_type]; (split; intros E; try discriminate E);
    repeat match goal with H : _ /\ _ |- _ => destruct H | H : exists _, _ |- _ => destruct H end; eauto.
Qed.

Lemma plain_args (a : prog k) rest : plain_all clamps (Cons a rest) = true -> plain clamps a = true /\ plain_all clamps rest = true.
Proof. apply andb_prop. Qed.
Lemma run_all_cons rho a rest : runs_all rho (Cons a rest) =
  match runs rho a with Some v => match runs_all rho rest with Some vs => Some (v :: vs) | None => None end | None => None end.
Proof. reflexivity. Qed.
Lemma run_sum rho s d items : runs rho (Sum s d items) =
  match runs_all rho items with Some vs => match mapM fnum vs with Some xs => option_map FNum (raw_sum s xs) | None => None end | None => None end.
Proof. reflexivity. Qed.
Lemma run_vec rho v o items : runs rho (CallVec v o items) =
  match runs_all rho items with Some vs => match mapM fnum vs with Some xs => option_map FNum (vec_value M v o xs) | None => None end | None => None end.
Proof. reflexivity. Qed.
Lemma num_of b v : of_type (k := k) (T b) v -> exists x, v = FNum x /\ is_of b x.
Proof. destruct v as [x|c]; [|intros []]. intros H. eauto. Qed.
Lemma default_ok s : has_storage s (raw_default s).
Proof. destruct s as [[]|[]]; cbn; auto. Qed.
Lemma add_safe s x y : has_storage s x -> has_storage s y -> exists z, raw_add x y = Some z /\ has_storage s z.
Proof.
  intros Hx Hy. destruct s as [[]|v], x; try contradiction Hx; destruct y; try contradiction Hy; try (eexists; split; [reflexivity|exact I]);
    destruct Hx as [C1 L1], Hy as [C2 L2]; try (rewrite C1 in C2; discriminate C2); eexists; (split; [reflexivity|]); (split; [exact C1|]);
    rewrite map_length, combine_length; lia.
Qed.
Lemma sum_safe s xs : Forall (has_storage s) xs -> exists y, raw_sum s xs = Some y /\ has_storage s y.
Proof.
  unfold raw_sum. assert (H := default_ok s). revert H. generalize (raw_default s). induction xs as [|x xs IH]; intros t Ht F; [exists t; auto|].
  inversion F; subst. destruct (add_safe s t x Ht H1) as (z & E & Hz). cbn [sum_from]. rewrite E. now apply IH.
Qed.
Lemma scalar f x : has_storage (Float f) x -> match f with F32 => exists y, x = RF32 y | F64 => exists y, x = RF64 y end.
Proof. destruct f, x; cbn; intros H; try contradiction; eauto. Qed.
Lemma mul_mag_safe f x m : has_storage (Float f) x -> exists y, raw_mul_mag env x m = Some y /\ has_storage (Float f) y.
Proof. intros H. apply scalar in H. destruct f, H as [y ->]; eexists; (split; [reflexivity|exact I]). Qed.
Lemma div_mag_safe f x m : has_storage (Float f) x -> exists y, raw_div_mag env x m = Some y /\ has_storage (Float f) y.
Proof. intros H. apply scalar in H. destruct f, H as [y ->]; eexists; (split; [reflexivity|exact I]). Qed.
Lemma conv_safe s x m : has_storage s x ->
  (exists y, raw_mul x (conversion env x m) = Some y /\ has_storage s y) /\
  (exists y, raw_div x (conversion env x m) = Some y /\ has_storage s y) /\
  (exists y, raw_div (conversion env x m) x = Some y /\ has_storage s y).
Proof.
  intros H. destruct s as [f|v], x as [x|x|x|x]; try (destruct f; contradiction H); try contradiction H;
    (split; [|split]); eexists; (split; [reflexivity|]); try exact H; (split; [exact (proj1 H)|]); rewrite map_length; exact (proj2 H).
Qed.
Lemma method_safe m s d r x : method_ok X fields ft mth m (Known s) d r -> has_storage s x ->
  exists y, option_map of_res (method_value M m x) = Some y /\
    match r with ResQ s' d' => of_type (k := k) (T (TyQ s' d')) y | ResRaw s' => of_type (k := k) (T (TyS s')) y | ResBool => of_type (k := k) Bool y end.
Proof.
  intros H Hx.
  assert (Fl : forall g32 g64, is_float ft (Known s) -> exists y, option_map of_res (on_float g32 g64 x) = Some (FNum y) /\ has_storage s y).
  { intros g32 g64 (f & E & _). injection E as ->. apply scalar in Hx. destruct f, Hx as [y ->]; eexists; (split; [reflexivity|exact I]). }
  assert (Te : forall g32 g64, is_float ft (Known s) -> exists y, option_map of_res (test_float g32 g64 x) = Some (FBool y)).
  { intros g32 g64 (f & E & _). injection E as ->. apply scalar in Hx. destruct f, Hx as [y ->]; eexists; reflexivity. }
  destruct m; cbn [method_ok method_value] in *.
  all: try (destruct H as [_ ->]; eexists; split; [reflexivity|exact Hx]).
  all: try (subst r; eexists; split; [reflexivity|exact Hx]).
  all: try (destruct H as [H ->]; match goal with |- context [test_float ?a ?b] => destruct (Te a b H) as (y & E) end;
            eexists; split; [exact E|exact I]).
  - destruct H as (_ & H & _ & ->). destruct (Fl (m_fn (math32 M) f) (m_fn (math64 M) f) H) as (y & E & Hy). eexists. split; [exact E|exact Hy].
  - destruct H as (H & d' & _ & ->). match goal with |- context [on_float ?a ?b] => destruct (Fl a b H) as (y & E & Hy) end. eexists. split; [exact E|exact Hy].
  - destruct H as (H & d' & _ & ->). match goal with |- context [on_float ?a ?b] => destruct (Fl a b H) as (y & E & Hy) end. eexists. split; [exact E|exact Hy].
  - destruct H as (_ & H & d' & _ & ->). match goal with |- context [on_float ?a ?b] => destruct (Fl a b H) as (y & E & Hy) end. eexists. split; [exact E|exact Hy].
  - destruct H as (_ & H & d' & _ & ->). match goal with |- context [on_float ?a ?b] => destruct (Fl a b H) as (y & E & Hy) end. eexists. split; [exact E|exact Hy].
  - destruct H as (_ & H & d' & _ & ->). match goal with |- context [on_float ?a ?b] => destruct (Fl a b H) as (y & E & Hy) end. eexists. split; [exact E|exact Hy].
  - destruct H as (H & ->). match goal with |- context [on_float ?a ?b] => destruct (Fl a b H) as (y & E & Hy) end. eexists. split; [exact E|exact Hy].
  - destruct H as (_ & ->). destruct s as [f|v], x as [x|x|x|x]; try (destruct f; contradiction Hx); try contradiction Hx;
      eexists; (split; [reflexivity|]); cbn [of_res of_type is_of]; try exact Hx; (split; [exact (proj1 Hx)|]); rewrite map_length; exact (proj2 Hx).
Qed.
Lemma call2_safe m f x a b : has_storage (Float f) x -> has_storage (Float f) a -> has_storage (Float f) b ->
  (clamps = true \/ m <> MClamp) ->
  exists r, arg_method_value M m x a b = Some r /\
    exists y, match r with Done r => Some (FNum r) | Panics => option_map FNum (panic x) end = Some (FNum y) /\ has_storage (Float f) y.
Proof.
  intros Hx Ha Hb Hc. assert (Hx' := Hx). apply scalar in Hx, Ha, Hb. destruct f, Hx as [x' ->], Ha as [a' ->], Hb as [b' ->].
  - destruct m; cbn [arg_method_value].
    + eexists. split; [reflexivity|]. eexists. split; [reflexivity|exact I].
    + eexists. split; [reflexivity|]. eexists. split; [reflexivity|exact I].
    + eexists. split; [reflexivity|]. destruct (fclamp x' a' b') as [y|]; cbn [clamp_outcome].
      * eexists. split; [reflexivity|exact I].
      * destruct Hc as [Hc|Hc]; [|congruence]. destruct (Pan Hc _ _ Hx') as (y & E & Hy). exists y. rewrite E. auto.
  - destruct m; cbn [arg_method_value].
    + eexists. split; [reflexivity|]. eexists. split; [reflexivity|exact I].
    + eexists. split; [reflexivity|]. eexists. split; [reflexivity|exact I].
    + eexists. split; [reflexivity|]. destruct (fclamp x' a' b') as [y|]; cbn [clamp_outcome].
      * eexists. split; [reflexivity|exact I].
      * destruct Hc as [Hc|Hc]; [|congruence]. destruct (Pan Hc _ _ Hx') as (y & E & Hy). exists y. rewrite E. auto.
Qed.
Lemma nums_all b vs : Forall (of_type (k := k) (T b)) vs -> exists xs, mapM fnum vs = Some xs /\ Forall (is_of b) xs.
Proof.
  induction 1 as [|v vs Hv _ (xs & E & H)]; [exists []; auto|]. destruct (num_of b v Hv) as (x & -> & Hx).
  exists (x :: xs). cbn [mapM fnum]. rewrite E. auto.
Qed.
Lemma nums_each bs vs : Forall2 (fun b => of_type (k := k) (T b)) bs vs -> exists xs, mapM fnum vs = Some xs /\ Forall2 (is_of (k := k)) bs xs.
Proof.
  induction 1 as [|b v bs vs Hv _ (xs & E & H)]; [exists []; auto|]. destruct (num_of b v Hv) as (x & -> & Hx).
  exists (x :: xs). cbn [mapM fnum]. rewrite E. auto.
Qed.

Theorem safe : forall G,
  (forall p t, typed k fields ft mth units [] strict G p t -> plain clamps p = true ->
     forall rho, Forall2 of_type G rho -> exists v, runs rho p = Some v /\ of_type t v) /\
  (forall ps t, typed_all k fields ft mth units [] strict G ps t -> plain_all clamps ps = true ->
     forall rho, Forall2 of_type G rho -> exists vs, runs_all rho ps = Some vs /\ Forall (of_type t) vs) /\
  (forall ps bs, typed_each k fields ft mth units [] strict G ps bs -> plain_all clamps ps = true ->
     forall rho, Forall2 of_type G rho -> exists vs, runs_all rho ps = Some vs /\ Forall2 (fun b => of_type (T b)) bs vs).
Proof.
  apply (typed_mutind k fields ft mth units [] strict
    (fun G p t => plain clamps p = true ->
       forall rho, Forall2 of_type G rho -> exists v, runs rho p = Some v /\ of_type t v)
    (fun G ps t => plain_all clamps ps = true ->
       forall rho, Forall2 of_type G rho -> exists vs, runs_all rho ps = Some vs /\ Forall (of_type t) vs)
    (fun G ps bs => plain_all clamps ps = true ->
       forall rho, Forall2 of_type G rho -> exists vs, runs_all rho ps = Some vs /\ Forall2 (fun b => of_type (T b)) bs vs)).
  - (* Var *) intros G i t H _ rho Hr. cbn [frun]. revert i H. induction Hr as [|t' v G rho Hv _ IH]; intros [|i] H; cbn [nth_error] in *; try discriminate H.
    + injection H as ->. eauto.
    + auto.
  - (* Lit *) intros G s a H. discriminate H.
  - (* Convert *) intros G a s b _ IH (n & _ & ->) P rho Hr. destruct (IH P rho Hr) as (v & E & Hv). exists v. split; [exact E|].
    destruct v; exact Hv.
  - (* Zero *) intros G s d _ _ rho _. eexists. split; [reflexivity|]. apply default_ok.
  - (* New *) intros G u d a f Hu _ IH P rho Hr. destruct (IH P rho Hr) as (v & E & Hv). destruct (num_of _ _ Hv) as (x & -> & Hx).
    destruct (unit_safe u d Hu) as (m & Em). cbn [frun]. rewrite E. unfold with_mag. cbn [fnum]. rewrite Em.
    destruct (mul_mag_safe f x m Hx) as (y & -> & Hy). eexists. split; [reflexivity|exact Hy].
  - (* NumberTimes *) intros G u d a s Hu _ IH P rho Hr. destruct (IH P rho Hr) as (v & E & Hv). destruct (num_of _ _ Hv) as (x & -> & Hx).
    destruct (unit_safe u d Hu) as (m & Em). cbn [frun]. rewrite E. unfold with_mag. cbn [fnum]. rewrite Em.
    destruct (conv_safe s x m Hx) as ((y & Ey & Hy) & _). rewrite Ey. eexists. split; [reflexivity|exact Hy].
  - (* NumberOver *) intros G u d a s _ Hu _ IH P rho Hr. destruct (IH P rho Hr) as (v & E & Hv). destruct (num_of _ _ Hv) as (x & -> & Hx).
    destruct (unit_safe u d Hu) as (m & Em). cbn [frun]. rewrite E. unfold with_mag. cbn [fnum]. rewrite Em.
    destruct (conv_safe s x m Hx) as (_ & (y & Ey & Hy) & _). rewrite Ey. eexists. split; [reflexivity|exact Hy].
  - (* UnitOverNumber *) intros G u d a s Hu _ IH P rho Hr. destruct (IH P rho Hr) as (v & E & Hv). destruct (num_of _ _ Hv) as (x & -> & Hx).
    destruct (unit_safe u d Hu) as (m & Em). cbn [frun]. rewrite E. unfold with_mag. cbn [fnum]. rewrite Em.
    destruct (conv_safe s x m Hx) as (_ & _ & (y & Ey & Hy)). rewrite Ey. eexists. split; [reflexivity|exact Hy].
  - (* Times *) intros G u d a f d1 d2 Hu _ IH _ P rho Hr. destruct (IH P rho Hr) as (v & E & Hv). destruct (num_of _ _ Hv) as (x & -> & Hx).
    destruct (unit_safe u d Hu) as (m & Em). cbn [frun]. rewrite E. unfold with_mag. cbn [fnum]. rewrite Em.
    destruct (mul_mag_safe f x m Hx) as (y & -> & Hy). eexists. split; [reflexivity|exact Hy].
  - (* TimesLeft *) intros G u d a f d1 d2 Hu _ IH _ P rho Hr. destruct (IH P rho Hr) as (v & E & Hv). destruct (num_of _ _ Hv) as (x & -> & Hx).
    destruct (unit_safe u d Hu) as (m & Em). cbn [frun]. rewrite E. unfold with_mag. cbn [fnum]. rewrite Em.
    destruct (mul_mag_safe f x m Hx) as (y & -> & Hy). eexists. split; [reflexivity|exact Hy].
  - (* Over *) intros G u d a f d1 d2 Hu _ IH _ P rho Hr. destruct (IH P rho Hr) as (v & E & Hv). destruct (num_of _ _ Hv) as (x & -> & Hx).
    destruct (unit_safe u d Hu) as (m & Em). cbn [frun]. rewrite E. unfold with_mag. cbn [fnum]. rewrite Em.
    destruct (div_mag_safe f x m Hx) as (y & -> & Hy). eexists. split; [reflexivity|exact Hy].
  - (* UnitOver *) intros G u d a f d1 d2 _ Hu _ IH _ P rho Hr. destruct (IH P rho Hr) as (v & E & Hv). destruct (num_of _ _ Hv) as (x & -> & Hx).
    destruct (unit_safe u d Hu) as (m & Em). cbn [frun]. rewrite E. unfold with_mag. cbn [fnum]. rewrite Em.
    destruct (div_mag_safe f x m Hx) as (y & -> & Hy). eexists. split; [reflexivity|exact Hy].
  - (* ValueIn *) intros G u d a f d1 Hu _ IH _ P rho Hr. destruct (IH P rho Hr) as (v & E & Hv). destruct (num_of _ _ Hv) as (x & -> & Hx).
    destruct (unit_safe u d Hu) as (m & Em). cbn [frun]. rewrite E. unfold with_mag. cbn [fnum]. rewrite Em.
    destruct (div_mag_safe f x m Hx) as (y & -> & Hy). eexists. split; [reflexivity|exact Hy].
  - (* Constant *) intros G c d f _ H. discriminate H.
  - (* Bin *) intros G op a b b1 b2 s d _ IHa _ IHb H P rho Hr. apply andb_prop in P as [P1 P2].
    destruct (IHa P1 rho Hr) as (v & E & Hv). destruct (IHb P2 rho Hr) as (w & E' & Hw).
    destruct (num_of _ _ Hv) as (x & -> & Hx), (num_of _ _ Hw) as (y & -> & Hy).
    destruct (known _ _ Hx) as (s1 & S1 & K1), (known _ _ Hy) as (s2 & S2 & K2).
    destruct (sup op b1 b2 _ H) as (o & R & O1 & O2). rewrite K1, K2 in R. cbn [frun]. rewrite E, E'. cbn [fnum].
    destruct (has_output_type op) eqn:Ho; [|discriminate (O2 eq_refl)]. destruct (O1 eq_refl) as (d' & Eo). injection Eo as -> ->.
    destruct (op_safe op s1 s2 o x y ltac:(destruct op; split; (discriminate || discriminate Ho)) R S1 S2) as (z & s & Ez & -> & Hz).
    rewrite Ez. eexists. split; [reflexivity|exact Hz].
  - (* Assign *) intros G op a b b1 b2 I _ IHa _ IHb H P rho Hr. apply andb_prop in P as [P1 P2].
    destruct (IHa P1 rho Hr) as (v & E & Hv). destruct (IHb P2 rho Hr) as (w & E' & Hw).
    destruct (num_of _ _ Hv) as (x & -> & Hx), (num_of _ _ Hw) as (y & -> & Hy).
    destruct (known _ _ Hx) as (s1 & S1 & K1), (known _ _ Hy) as (s2 & S2 & K2).
    destruct (sup op b1 b2 _ H) as (o & R & _ & _). rewrite K1, K2 in R. cbn [frun]. rewrite E, E'. cbn [fnum].
    assert (A : arithmetic op) by (destruct I as [<-|[<-|[<-|[<-|[]]]]]; split; discriminate).
    destruct (op_safe op s1 s2 o x y A R S1 S2) as (z & s & Ez & -> & Hz).
    assert (Es : s = s1).
    { clear -R I. destruct s1 as [f|v], s2 as [g|w]; cbn [std_raw_op] in R.
      - destruct (float_eqb f g); congruence.
      - destruct (float_eqb (component w) f); [|discriminate R]. destruct I as [<-|[<-|[<-|[<-|[]]]]]; discriminate R.
      - destruct (float_eqb (component v) g); [|discriminate R]. destruct I as [<-|[<-|[<-|[<-|[]]]]]; congruence.
      - destruct (vector_eqb v w); [|discriminate R]. destruct I as [<-|[<-|[<-|[<-|[]]]]]; congruence. }
    subst s. rewrite Ez. eexists. split; [reflexivity|]. destruct b1 as [c d|c]; cbn beta iota in K1; subst c; exact Hz.
  - (* Neg *) intros G a s d _ IH P rho Hr. destruct (IH P rho Hr) as (v & E & Hv). destruct (num_of _ _ Hv) as (x & -> & Hx).
    cbn [frun]. rewrite E. cbn [fnum]. eexists. split; [reflexivity|]. cbn [of_type is_of quantity] in *.
    destruct s as [f|w], x; try (destruct f; contradiction Hx); try contradiction Hx; try exact Hx; (split; [exact (proj1 Hx)|]); rewrite map_length; exact (proj2 Hx).
  - (* Sum *) intros G items s d _ _ IH P rho Hr. destruct (IH P rho Hr) as (vs & E & Hv). destruct (nums_all _ _ Hv) as (xs & Ex & Hx).
    rewrite run_sum, E, Ex. destruct (sum_safe s xs Hx) as (y & -> & Hy). eexists. split; [reflexivity|exact Hy].
  - (* Call *) intros G m a s d s' d' _ IH H P rho Hr. destruct (IH P rho Hr) as (v & E & Hv). destruct (num_of _ _ Hv) as (x & -> & Hx).
    destruct (method_safe m s d _ x H Hx) as (y & Ey & Hy). cbn [frun]. rewrite E. cbn [fnum]. eauto.
  - intros G m a s d s' _ IH H _ P rho Hr. destruct (IH P rho Hr) as (v & E & Hv). destruct (num_of _ _ Hv) as (x & -> & Hx).
    destruct (method_safe m s d _ x H Hx) as (y & Ey & Hy). cbn [frun]. rewrite E. cbn [fnum]. eauto.
  - intros G m a s d _ IH H P rho Hr. destruct (IH P rho Hr) as (v & E & Hv). destruct (num_of _ _ Hv) as (x & -> & Hx).
    destruct (method_safe m s d _ x H Hx) as (y & Ey & Hy). cbn [frun]. rewrite E. cbn [fnum]. eauto.
  - (* Call2 *) intros G m a b c s d q s' d' _ IHa _ IHb _ IHc (Fl & Q & Er) P rho Hr. cbn [plain] in P.
    apply andb_prop in P as [P P4]. apply andb_prop in P as [P P3]. apply andb_prop in P as [P1 P2]. injection Er as -> ->.
    destruct Fl as (f & Es & _). injection Es as ->.
    destruct (IHa P1 rho Hr) as (v & E & Hv). destruct (IHb P2 rho Hr) as (w & E' & Hw). destruct (IHc P3 rho Hr) as (z & E'' & Hz).
    destruct (num_of _ _ Hv) as (x & -> & Hx), (num_of _ _ Hw) as (y & -> & Hy), (num_of _ _ Hz) as (t & -> & Ht).
    assert (Qs : forall x, is_of q x -> has_storage (Float f) x).
    { destruct Q as [->|(src & -> & n & _ & Eq)]; [auto|]. injection Eq as <- _. auto. }
    destruct (call2_safe m f x y t Hx (Qs _ Hy) (Qs _ Ht)) as (r & Er & y' & Ey & Hy').
    { apply orb_prop in P4 as [P4|P4]; [now left|right]. destruct m; congruence. }
    cbn [frun]. rewrite E, E', E''. cbn [fnum]. rewrite Er. eauto.
  - (* CallVec *) intros G v o args ts r _ IH H _ P rho Hr. destruct (IH P rho Hr) as (vs & E & Hv). destruct (nums_each _ _ Hv) as (xs & Ex & Hx).
    rewrite run_vec, E, Ex. destruct (vec_call_safe v o ts r xs H Hx) as (y & -> & Hy). eexists. split; [reflexivity|exact Hy].
  - (* Compare *) intros G r a b b1 b2 _ IHa _ IHb H P rho Hr. apply andb_prop in P as [P1 P2].
    destruct (IHa P1 rho Hr) as (v & E & Hv). destruct (IHb P2 rho Hr) as (w & E' & Hw).
    destruct (num_of _ _ Hv) as (x & -> & Hx), (num_of _ _ Hw) as (y & -> & Hy).
    destruct (known _ _ Hx) as (s1 & S1 & K1), (known _ _ Hy) as (s2 & S2 & K2).
    destruct H as [H|[Hf _]]; [|discriminate Hf].
    destruct (sup (trait_of r) b1 b2 _ H) as (o & R & _ & _). rewrite K1, K2 in R.
    destruct (relation_safe r s1 s2 o x y R S1 S2) as (c & Ec). cbn [frun]. rewrite E, E'. cbn [fnum]. rewrite Ec.
    eexists. split; [reflexivity|exact I].
  - (* If *) intros G c a b t _ IHc _ IHa _ IHb P rho Hr. apply andb_prop in P as [P P3]. apply andb_prop in P as [P1 P2].
    destruct (IHc P1 rho Hr) as (v & E & Hv). cbn [frun]. rewrite E. destruct v as [x|[]]; [contradiction Hv| |]; auto.
  - (* Let *) intros G a b t t' _ IHa _ IHb P rho Hr. apply andb_prop in P as [P1 P2].
    destruct (IHa P1 rho Hr) as (v & E & Hv). cbn [frun]. rewrite E. apply IHb; auto.
  - (* Repeat *) intros G n a b t _ IHa _ IHb P rho Hr. apply andb_prop in P as [P1 P2]. cbn [frun].
    induction n as [|n IHn]; [exact (IHa P1 rho Hr)|]. destruct IHn as (v & E & Hv). unfold Nat.iter in *. cbn [nat_rect]. rewrite E.
    apply IHb; auto.
  - intros G t _ rho _. exists []. auto.
  - intros G a rest t _ IHa _ IHr P rho Hr. apply plain_args in P as [P1 P2].
    destruct (IHa P1 rho Hr) as (v & E & Hv), (IHr P2 rho Hr) as (vs & Es & Hvs). rewrite run_all_cons, E, Es. eauto.
  - intros G _ rho _. exists []. auto.
  - intros G a rest b bs _ IHa _ IHr P rho Hr. apply plain_args in P as [P1 P2].
    destruct (IHa P1 rho Hr) as (v & E & Hv), (IHr P2 rho Hr) as (vs & Es & Hvs). rewrite run_all_cons, E, Es. eauto.
Qed.
End Safe.
