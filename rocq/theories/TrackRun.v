(** * The running error bound holds: exact and float runs of a program side by side *)
From Coq Require Import List Bool ZArith Reals Lra Lia.
From Flocq Require Import Core IEEE754.Binary.
From Flocq Require IEEE754.BinarySingleNaN.
From Verif Require Import MachineInt Ratio F64 FloatOps NumericFacts FloatFacts Magnitude Exponent Types CodegenDimension
  Setting Storage Operators Raw FloatMethods Vector Programs FloatPrograms
  FloatAccuracy RoundingSpec RoundingFacts ConversionFacts TrackSpec TrackFacts TrackVector PropertiesMethods.
Import ListNotations.
Local Open Scope R_scope.

Definition exactly (e : est) : Programs.val :=
  match e with EN x _ _ => VNum (Sc x) | EV bs => VNum (Ve (map (fun b => fst (fst b)) bs)) | EB b => Programs.VBool b end.

Section Run.
Context {k : mode} (prec emax lo hi : Z).
Context (Hp : Prec_gt_0 prec) (He : BinarySingleNaN.Prec_lt_emax prec emax).
Context (Hp10 : (10 <= prec)%Z) (Hlo : (2 - emax <= lo)%Z) (Hhi : (hi <= emax - 3)%Z).
Notation fl := (binary_float prec emax).
Notation val := (B2R prec emax).
Notation fin x := (is_finite prec emax x = true).
Notation u := (bpow radix2 (- prec)).
Notation near := (is_near prec emax).
Context (nan_m nan_d nan_p nan_s : fl -> fl -> { x : fl | is_nan prec emax x = true }).
Context (nan_r nan_o : fl -> { x : fl | is_nan prec emax x = true }).
Notation mul := (Bmult prec emax Hp He nan_m mode_NE).
Notation div := (Bdiv prec emax Hp He nan_d mode_NE).
Notation add := (Bplus prec emax Hp He nan_p mode_NE).
Notation sub := (Bminus prec emax Hp He nan_s mode_NE).
Notation root := (Bsqrt prec emax Hp He nan_r mode_NE).
Notation opp := (Bopp prec emax nan_o).

Context (env : fenv) (M : math) (mags : list magnitude) (functions : float_fn -> R -> option R) (factors : list R).
Context (ftype : float_type) (inj : fl -> raw) (conv : magnitude -> fl) (fm : float_math fl) (zero : fl).
Context (one : fl) (vinj : list fl -> raw).
Context (units : unit_expr -> R -> nat -> Prop) (rg : Z).
Definition float_op (op : trait) : option (fl -> fl -> fl) :=
  match op with
  | TAdd | TAddAssign => Some (fun a b => add a b) | TSub | TSubAssign => Some (fun a b => sub a b)
  | TMul | TMulAssign => Some (fun a b => mul a b) | TDiv | TDivAssign => Some (fun a b => div a b) | _ => None end.

(** What each operation is in this format. *)
Hypothesis R_add : forall a b, raw_add (inj a) (inj b) = Some (inj (add a b)).
Hypothesis R_op : forall op a b, raw_op op (inj a) (inj b) = match op with
  | TAdd | TAddAssign => Some (inj (add a b)) | TSub | TSubAssign => Some (inj (sub a b))
  | TMul | TMulAssign => Some (inj (mul a b)) | TDiv | TDivAssign => Some (inj (div a b)) | _ => None end.
Hypothesis R_mul : forall a b, raw_mul (inj a) (inj b) = Some (inj (mul a b)).
Hypothesis R_div : forall a b, raw_div (inj a) (inj b) = Some (inj (div a b)).
Hypothesis R_mulm : forall a m, raw_mul_mag env (inj a) m = Some (inj (mul a (conv m))).
Hypothesis R_divm : forall a m, raw_div_mag env (inj a) m = Some (inj (div a (conv m))).
Hypothesis R_conv : forall a m, conversion env (inj a) m = inj (conv m).
Hypothesis R_neg : forall a, raw_neg (inj a) = inj (opp a).
Hypothesis R_rel : forall r a b, raw_relation r (inj a) (inj b) = Some (float_relation r a b).
Hypothesis R_default : raw_default (Float ftype) = inj zero.
Hypothesis R_zero : fin zero /\ val zero = 0.
Hypothesis R_abs : forall a, method_value M MAbs (inj a) = Some (VQ (inj (fabs a))).
Hypothesis R_mzero : forall a, method_value M MZero (inj a) = Some (VQ (inj zero)).
Hypothesis R_power : forall m z a, raises m z -> method_value M m (inj a) = Some (VQ (inj (m_powi fm a z))).
Hypothesis R_sqrt : forall a, method_value M MSqrt (inj a) = Some (VQ (inj (root a))).
Hypothesis R_pos : forall a, method_value M MIsPositive (inj a) = Some (FloatMethods.VBool (flt zero a)).
Hypothesis R_pos0 : forall a, method_value M MIsPositiveOrZero (inj a) = Some (FloatMethods.VBool (fle zero a)).
Hypothesis R_negv : forall a, method_value M MIsNegative (inj a) = Some (FloatMethods.VBool (flt a zero)).
Hypothesis R_neg0 : forall a, method_value M MIsNegativeOrZero (inj a) = Some (FloatMethods.VBool (fle a zero)).
Hypothesis R_nan : forall a, method_value M MIsNan (inj a) = Some (FloatMethods.VBool (is_nan prec emax a)).
Hypothesis R_min : forall a b c, arg_method_value M MMin (inj a) (inj b) (inj c) = Some (Done (inj (m_min fm a b))).
Hypothesis R_max : forall a b c, arg_method_value M MMax (inj a) (inj b) (inj c) = Some (Done (inj (m_max fm a b))).
Hypothesis R_clamp : forall a b c, arg_method_value M MClamp (inj a) (inj b) (inj c) = Some (clamp_outcome inj (fclamp a b c)).
Hypothesis R_one : fin one /\ val one = 1.
Hypothesis V_op : forall op xs ys, raw_op op (vinj xs) (vinj ys) = option_map (fun g => vinj (g_zip g xs ys)) (float_op op).
Hypothesis V_op_r : forall op xs y, raw_op op (vinj xs) (inj y) = option_map (fun g => vinj (map (fun x => g x y) xs)) (float_op op).
Hypothesis V_op_l : forall op x ys, raw_op op (inj x) (vinj ys) = option_map (fun g => vinj (map (fun y => g x y) ys)) (float_op op).
Hypothesis V_mul : forall xs y, raw_mul (vinj xs) (inj y) = Some (vinj (map (fun x => mul x y) xs)).
Hypothesis V_div : forall xs y, raw_div (vinj xs) (inj y) = Some (vinj (map (fun x => div x y) xs)).
Hypothesis V_div_l : forall x ys, raw_div (inj x) (vinj ys) = Some (vinj (map (fun y => div x y) ys)).
Hypothesis V_conv : forall xs m, conversion env (vinj xs) m = inj (conv m).
Hypothesis V_add : forall xs ys, raw_add (vinj xs) (vinj ys) = Some (vinj (g_zip add xs ys)).
Hypothesis V_neg : forall xs, raw_neg (vinj xs) = vinj (map opp xs).
Hypothesis V_abs : forall xs, method_value M MAbs (vinj xs) = Some (VQ (vinj (map fabs xs))).
Hypothesis V_rel : forall r xs ys, raw_relation r (vinj xs) (vinj ys) = vector_relation r xs ys.
Hypothesis V_default : forall v, component v = ftype -> raw_default (Vector v) = vinj (repeat zero (num_dims v)).
Hypothesis V_vec : forall v o rs ls, component v = ftype ->
  Forall2 (fun r l => (exists a, r = inj a /\ l = [a]) \/ r = vinj l) rs ls ->
  vec_value M v o rs = match g_value add sub mul div root (m_min fm) (m_max fm) zero one (num_dims v) o ls with
                       | Some r => as_raw inj vinj o r | None => None end.
Hypothesis M_min : min_contract (m_min fm).
Hypothesis M_max : max_contract (m_max fm).
Hypothesis M_powi : accurate_powers prec emax rg (m_powi fm).
Hypothesis Hrg : (hi + 1 <= rg)%Z.
Hypothesis Hrg' : (- rg <= lo - 1)%Z.
Hypothesis Units : forall v f m, units v f m ->
  factor_of factors v = Some f /\
  exists g, magnitude_of env mags v = Some g /\ fin (conv g) /\ nearp prec m f (val (conv g)).

Definition nearb (b : bound) (a : fl) : Prop := near (fst (fst b)) (snd (fst b)) (snd b) a.
Definition holds (e : est) (v : fval) : Prop :=
  match e, v with
  | EN x s n, FNum r => exists a, r = inj a /\ near x s n a
  | EV bs, FNum r => exists l, r = vinj l /\ Forall2 nearb bs l
  | EB b, FBool b' => b = b'
  | _, _ => False
  end.
Lemma holds_num x s n v : holds (EN x s n) v -> exists a, v = FNum (inj a) /\ near x s n a.
Proof. destruct v as [r|b]; [|intros []]. intros (a & -> & H). eauto. Qed.
Lemma holds_vec bs v : holds (EV bs) v -> exists l, v = FNum (vinj l) /\ Forall2 nearb bs l.
Proof. destruct v as [r|b]; [|intros []]. intros (l & -> & H). eauto. Qed.
Lemma holds_bool b v : holds (EB b) v -> v = FBool b.
Proof. destruct v as [r|c]; [intros []|]. now intros <-. Qed.

Notation tr := (@tracks k u lo hi units ftype).
Notation sm := (@sums k u lo hi units ftype).
Notation runs := (frun (k := k) stop env M mags).
Notation evals := (@eval k functions factors []).

Notation ea := (@tracks_each k u lo hi units ftype).
Scheme tracks_mind := Minimality for tracks Sort Prop with sums_mind := Minimality for sums Sort Prop
with each_mind := Minimality for tracks_each Sort Prop.
Combined Scheme tracks_mutind from tracks_mind, sums_mind, each_mind.

Definition agrees (rho : list est) (p : prog k) (e : est) : Prop :=
  forall frho, Forall2 holds rho frho -> evals (map exactly rho) p = Some (exactly e) /\ exists v, runs frho p = Some v /\ holds e v.
Definition agrees_sum (rho : list est) (e0 : est) (items : progs k) (e : est) : Prop :=
  forall frho, Forall2 holds rho frho -> forall n0 r0, exactly e0 = VNum n0 -> holds e0 (FNum r0) ->
  exists ns rs n1 r1, exactly e = VNum n1 /\
    eval_all functions factors [] (map exactly rho) items = Some (map VNum ns) /\
    sum_nums n0 ns = Some n1 /\
    frun_all stop env M mags frho items = Some (map (fun r => FNum r) rs) /\
    sum_from r0 rs = Some r1 /\ holds e (FNum r1).
Definition agrees_each (rho : list est) (ps : progs k) (es : list est) : Prop :=
  forall frho, Forall2 holds rho frho ->
  eval_all functions factors [] (map exactly rho) ps = Some (map exactly es) /\
  exists vs, frun_all stop env M mags frho ps = Some vs /\ Forall2 holds es vs.

Lemma near_weaken x s n s' n' a : near x s n a -> s <= s' -> (n <= n')%nat -> near x s' n' a.
Proof.
  intros (F & S1 & O) L H. pose proof (Rabs_pos x). split; [exact F|]. split; [lra|].
  apply (off_mono prec Hp10 n n' x s s'); [exact H|exact L|lra|exact O].
Qed.
Lemma near_relative x s n c a : near x s n a -> s <= INR c * Rabs x -> near x (Rabs x) (c * n) a.
Proof. intros (F & S1 & O) L. split; [exact F|]. split; [lra|]. now apply (off_relative prec Hp10 n c x s). Qed.
Lemma near_zero : near 0 0 0 zero.
Proof.
  destruct R_zero as [F E]. split; [exact F|]. rewrite E, Rabs_R0. split; [lra|]. apply off_exact; lra.
Qed.
Lemma near_opp x s n a : near x s n a -> near (- x) s n (opp a).
Proof.
  intros (F & S1 & O). split; [now rewrite is_finite_Bopp|]. rewrite Rabs_Ropp. split; [exact S1|].
  rewrite B2R_Bopp. now apply off_neg.
Qed.
Lemma near_fabs x s n a : near x s n a -> near (Rabs x) s n (fabs a).
Proof.
  intros (F & S1 & O). destruct (fabs_val a) as (E & F' & _). split; [now rewrite F'|]. rewrite Rabs_Rabsolu, E.
  split; [exact S1|]. now apply off_abs.
Qed.
Lemma near_power m z x n a : raises m z -> (Z.abs z < 2 ^ 31)%Z -> near x (Rabs x) n a -> x <> 0 ->
  fine u lo hi (Rabs (powerRZ x z)) (2 * Z.abs_nat z * n + 4 * (Z.abs_nat z + 1)) ->
  near (powerRZ x z) (Rabs (powerRZ x z)) (2 * Z.abs_nat z * n + 4 * (Z.abs_nat z + 1)) (m_powi fm a z).
Proof.
  intros _ Hz (F & _ & O) Nz [Few Size].
  assert (Ez : IZR (Z.abs z) = INR (Z.abs_nat z)) by (rewrite INR_IZR_INZ, Zabs2Nat.id_abs; reflexivity).
  assert (Np : nearp prec (2 * Z.abs_nat z * n) (powerRZ x z) (powerRZ (val a) z)).
  { destruct (Nat.eq_dec (Z.abs_nat z) 0) as [Z0|Z0].
    - assert (z = 0%Z) by lia. subst z. apply nearp_0.
    - replace (2 * Z.abs_nat z * n)%nat with (Z.abs_nat z * (2 * n))%nat by lia. apply nearp_pow; [exact Hp10|].
      apply off_nearp; [exact Hp10| |exact O]. apply (few_mono prec Hp10 n (2 * Z.abs_nat z * n + 4 * (Z.abs_nat z + 1))); [nia|exact Few]. }
  assert (Fp : few_roundings u (2 * Z.abs_nat z * n)) by (eapply few_mono; [exact Hp10| |exact Few]; lia).
  pose proof (nearp_bounds prec Hp10 _ _ _ Fp Np) as [B1 B2].
  assert (Nx : powerRZ x z <> 0) by now apply powerRZ_NOR.
  pose proof (Rabs_pos_lt _ Nx). destruct Size as [Z0|[L H1]]; [lra|].
  destruct (M_powi a z F Hz) as [Ff E].
  - assert (Fz : few_roundings u (Z.abs_nat z)) by (eapply few_mono; [exact Hp10| |exact Few]; lia). now rewrite Ez.
  - split.
    + apply Rle_trans with (bpow radix2 (lo - 1)); [apply bpow_le; exact Hrg'|]. eapply Rle_trans; [|exact B1].
      unfold Zminus. rewrite bpow_plus. change (bpow radix2 (- (1))) with (/ 2). lra.
    + eapply Rle_trans; [exact B2|]. apply Rle_trans with (bpow radix2 (hi + 1)); [|apply bpow_le; exact Hrg].
      rewrite bpow_plus. change (bpow radix2 1) with 2. lra.
  - split; [exact Ff|]. split; [lra|]. apply (off_trans_rel prec Hp10 _ _ _ (powerRZ (val a) z)).
    + now apply nearp_off.
    + apply off_few; [exact Hp10|]. eapply Rle_trans; [exact E|]. right. rewrite Ez, mult_INR, plus_INR. cbn [INR]. ring.
Qed.
Lemma near_exact_zero : forall x s n a, near x s n a -> clear x (error u s n) ->
  (val zero < val a <-> 0 < x) /\ (val zero <= val a <-> 0 <= x) /\ (val a < val zero <-> x < 0) /\ (val a <= val zero <-> x <= 0).
Proof.
  intros x s n a H C. assert (C' : clear (x - 0) (error u s n + error u 0 0)).
  { unfold error at 2. rewrite Rmult_0_r, Rplus_0_r, Rminus_0_r. exact C. }
  destruct (near_sign prec emax n 0 x s 0 0 a zero H near_zero C') as (A & B & D). lra.
Qed.
Lemma dec_iff {P} (d : {P} + {~ P}) b : (b = true <-> P) -> dec d = b.
Proof. unfold dec. destruct d as [H|H], b; intuition congruence. Qed.
Lemma bool_iff a b (P : Prop) : (a = true <-> P) -> (b = true <-> P) -> a = b.
Proof. destruct a, b; intuition congruence. Qed.

Ltac startv H frho Hrho := intros frho Hrho; destruct (H frho Hrho) as (?Ea & ?va & ?Ra & ?Ha); apply holds_vec in Ha as (?l & -> & ?Nl).
Ltac start H frho Hrho := intros frho Hrho; destruct (H frho Hrho) as (?Ea & ?va & ?Ra & ?Ha); try (apply holds_num in Ha as (?a & -> & ?Na)).

Lemma relation_sound r x s n y t m c a b : relates r x y c -> near x s n a -> near y t m b ->
  clear (x - y) (error u s n + error u t m) ->
  compare_num r (Sc x) (Sc y) = Some c /\ float_relation r a b = c.
Proof.
  intros Rc Na Nb C. destruct (near_sign prec emax n m x s y t a b Na Nb C) as (L & G & Q).
  assert (C2 : clear (y - x) (error u t m + error u s n)).
  { unfold clear in *. rewrite Rabs_minus_sym, Rplus_comm. exact C. }
  destruct (near_sign prec emax m n y t x s b a Nb Na C2) as (L2 & G2 & _).
  destruct Na as (Fa & _ & _), Nb as (Fb & _ & _).
  assert (Es : (match fcmp a b with Some Datatypes.Eq => true | _ => false end = true) <-> x = y).
  { unfold fcmp. rewrite Bcompare_correct by assumption. rewrite <- Q. destruct (Rcompare_spec (val a) (val b)); split; intros; try discriminate; auto; lra. }
  unfold relates in Rc. destruct r; cbn [compare_num float_relation comps].
  - split; [|eapply bool_iff; [exact Es|exact Rc]]. f_equal. apply dec_iff. rewrite Rc. split; [intros ->; reflexivity|]. intros E. now injection E.
  - split.
    + f_equal. destruct (list_eq_dec Req_EM_T [x] [y]) as [E|E]; cbn [dec negb]; destruct c; try reflexivity; exfalso.
      * injection E as E. apply Rc in E; auto.
      * assert (x = y) by (destruct (Req_EM_T x y) as [?|N]; [assumption|apply Rc in N; discriminate N]). subst. now apply E.
    + eapply bool_iff; [|exact Rc]. rewrite negb_true_iff. rewrite <- Es. destruct (fcmp a b) as [[]|]; intuition congruence.
  - split; [f_equal; now apply dec_iff|]. eapply bool_iff; [|exact Rc]. rewrite <- L. now apply flt_iff.
  - split; [f_equal; now apply dec_iff|]. eapply bool_iff; [|exact Rc]. rewrite <- G. now apply fle_iff.
  - split; [f_equal; now apply dec_iff|]. eapply bool_iff; [|exact Rc]. rewrite flt_iff by assumption. lra.
  - split; [f_equal; apply dec_iff; rewrite Rc; lra|]. eapply bool_iff; [|exact Rc]. rewrite fle_iff by assumption. lra.
Qed.

(** *** Vectors *)
Lemma near_pos x s n a : near x s n a -> 0 <= s.
Proof. intros (_ & S1 & _). pose proof (Rabs_pos x). lra. Qed.
Lemma near_combines op b c d x y : combines u lo hi op b c d -> nearb b x -> nearb c y ->
  exists g, float_op op = Some g /\ nearb d (g x y).
Proof.
  intros H Nx Ny. destruct H as [x0 s n y0 t m O F|x0 s n y0 t m O F|x0 s n y0 t m O F|x0 s n y0 m O Nz F]; unfold nearb in *; cbn [fst snd] in *;
    destruct O as [-> | ->]; (eexists; split; [reflexivity|]); cbn beta.
  - now apply near_add with (lo := lo) (hi := hi).
  - now apply near_add with (lo := lo) (hi := hi).
  - now apply near_sub with (lo := lo) (hi := hi).
  - now apply near_sub with (lo := lo) (hi := hi).
  - now apply near_mul with (lo := lo) (hi := hi).
  - now apply near_mul with (lo := lo) (hi := hi).
  - now apply near_div with (lo := lo) (hi := hi).
  - now apply near_div with (lo := lo) (hi := hi).
Qed.
Lemma near_lower b c d x y : lower b c d -> nearb b x -> nearb c y -> nearb d (m_min fm x y).
Proof.
  destruct b as [[x0 s] n], c as [[y0 t] m]. intros -> (Fa & Sa & Oa) (Fb & Sb & Ob). unfold nearb in *. cbn [fst snd] in *.
  destruct (min_finite _ x y M_min Fa Fb) as [Cs Ev]. pose proof (Rabs_pos x0). pose proof (Rabs_pos y0).
  split; [destruct Cs as [-> | ->]; assumption|]. split.
  - pose proof (Rmax_l s t). pose proof (Rmax_r s t). unfold Rmin. destruct (Rle_dec x0 y0); lra.
  - rewrite Ev. apply (off_min prec Hp10); auto; lra.
Qed.
Lemma near_upper b c d x y : upper b c d -> nearb b x -> nearb c y -> nearb d (m_max fm x y).
Proof.
  destruct b as [[x0 s] n], c as [[y0 t] m]. intros -> (Fa & Sa & Oa) (Fb & Sb & Ob). unfold nearb in *. cbn [fst snd] in *.
  destruct (max_finite _ x y M_max Fa Fb) as [Cs Ev]. pose proof (Rabs_pos x0). pose proof (Rabs_pos y0).
  split; [destruct Cs as [-> | ->]; assumption|]. split.
  - pose proof (Rmax_l s t). pose proof (Rmax_r s t). unfold Rmax at 1. destruct (Rle_dec x0 y0); lra.
  - rewrite Ev. apply (off_max prec Hp10); auto; lra.
Qed.
Lemma near_one : near 1 1 0 one.
Proof.
  destruct R_one as [F E]. split; [exact F|]. rewrite E, Rabs_R1. split; [lra|]. apply off_exact; lra.
Qed.
Lemma near_recip r n a : 0 <= r -> r <> 0 -> fine u lo hi (1 / r) (2 * n + 1) -> near r r n a ->
  near (1 / r) (1 / r) (2 * n + 1) (div one a).
Proof.
  intros Pr Nr F Na. assert (Ar : Rabs r = r) by now apply Rabs_pos_eq.
  replace (near (1 / r) (1 / r)) with (near (1 / r) (1 / Rabs r)) by now rewrite Ar.
  apply (near_div prec emax lo hi Hp He Hp10 Hlo Hhi nan_d 0 n 1 1 r one a near_one); [now rewrite Ar|exact Nr|now rewrite Ar].
Qed.
Lemma near_length_root x s m c a : 0 <= x -> s <= INR c * x -> fine u lo hi (sqrt x) (c * m + 1) -> near x s m a ->
  near (sqrt x) (sqrt x) (c * m + 1) (root a).
Proof.
  intros Px L F Na. apply near_sqrt with (lo := lo) (hi := hi); auto.
  replace (near x x) with (near x (Rabs x)) by (now rewrite Rabs_pos_eq). apply near_relative with s; [exact Na|]. now rewrite Rabs_pos_eq.
Qed.
Lemma near_axis x s n a : fine u lo hi s (n + 1) -> near x s n a ->
  near x s (n + 1) (mul a one) /\ near 0 0 (n + 1) (mul a zero).
Proof.
  intros F Na. split.
  - assert (F' : fine u lo hi (s * 1) (n + 0 + 1)) by (now rewrite Rmult_1_r, Nat.add_0_r).
    pose proof (near_mul prec emax lo hi Hp He Hp10 Hlo Hhi nan_m n 0 x s 1 1 a one Na near_one F') as K.
    now rewrite !Rmult_1_r, Nat.add_0_r in K.
  - assert (F' : fine u lo hi (s * 0) (n + 0 + 1)).
    { rewrite Rmult_0_r, Nat.add_0_r. split; [exact (proj1 F)|now left]. }
    pose proof (near_mul prec emax lo hi Hp He Hp10 Hlo Hhi nan_m n 0 x s 0 0 a zero Na near_zero F') as K.
    now rewrite !Rmult_0_r, Nat.add_0_r in K.
Qed.
Lemma near_looser b c a : looser b c -> nearb b a -> nearb c a.
Proof.
  destruct b as [[x s] n], c as [[y t] m]. unfold nearb. cbn [fst snd]. intros (<- & [(L & H)|(c & L & -> & ->)]) N.
  - now apply near_weaken with s n.
  - now apply near_relative with s.
Qed.
Lemma zip_near (P : bound -> bound -> bound -> Prop) f : (forall b c d x y, P b c d -> nearb b x -> nearb c y -> nearb d (f x y)) ->
  forall bs cs ds xs ys, each3 P bs cs ds -> Forall2 nearb bs xs -> Forall2 nearb cs ys -> Forall2 nearb ds (g_zip f xs ys).
Proof. intros H bs cs ds xs ys. now apply zip_rel. Qed.
Lemma map_near (P : bound -> bound -> Prop) f : (forall b d x, P b d -> nearb b x -> nearb d (f x)) ->
  forall bs ds xs, Forall2 P bs ds -> Forall2 nearb bs xs -> Forall2 nearb ds (map f xs).
Proof.
  intros H bs ds xs E. revert xs. induction E as [|b d bs ds Hh _ IH]; intros xs X; inversion X; subst; cbn [map]; constructor; eauto.
Qed.
Lemma zero_near n : Forall2 nearb (repeat no_bound n) (repeat zero n).
Proof. induction n as [|n IH]; cbn [repeat]; constructor; [exact near_zero|exact IH]. Qed.
Lemma zero_exact n : map (fun b : bound => fst (fst b)) (repeat no_bound n) = repeat 0 n.
Proof. induction n as [|n IH]; [reflexivity|]. cbn [repeat map]. now rewrite IH. Qed.
Lemma float_op_some op : arithmetic op -> exists g, float_op op = Some g.
Proof. intros [[-> | ->]|[[-> | ->]|[[-> | ->]|[-> | ->]]]]; eexists; reflexivity. Qed.
Lemma zip_arith op bs cs ds : each3 (combines u lo hi op) bs cs ds ->
  mapM (fun p => arith1 op (fst p) (snd p)) (combine (map (fun b => fst (fst b)) bs) (map (fun b => fst (fst b)) cs)) =
  Some (map (fun b => fst (fst b)) ds).
Proof.
  induction 1 as [|b c d bs cs ds Hh _ IH]; [reflexivity|]. cbn [map combine mapM fst snd]. apply arith1_value in Hh. unfold value in Hh.
  now rewrite Hh, IH.
Qed.
Lemma map_arith (f : R -> option R) (P : bound -> bound -> Prop) : (forall b d, P b d -> f (fst (fst b)) = Some (fst (fst d))) ->
  forall bs ds, Forall2 P bs ds -> mapM f (map (fun b => fst (fst b)) bs) = Some (map (fun b => fst (fst b)) ds).
Proof. intros H bs ds E. induction E as [|b d bs ds Hh _ IH]; [reflexivity|]. cbn [map mapM]. now rewrite (H _ _ Hh), IH. Qed.
Lemma map_exact (f : R -> R) (P : bound -> bound -> Prop) : (forall b d, P b d -> f (fst (fst b)) = fst (fst d)) ->
  forall bs ds, Forall2 P bs ds -> map f (map (fun b => fst (fst b)) bs) = map (fun b => fst (fst b)) ds.
Proof. intros H bs ds E. induction E as [|b d bs ds Hh _ IH]; [reflexivity|]. cbn [map]. now rewrite (H _ _ Hh), IH. Qed.
(** Component-wise equality. *)
Lemma clearly_eq b c x y : clearly u b c -> nearb b x -> nearb c y ->
  (float_relation Eq x y = true <-> fst (fst b) = fst (fst c)).
Proof.
  destruct b as [[x0 s] n], c as [[y0 t] m]. unfold nearb. cbn [clearly fst snd]. intros C Na Nb.
  destruct (near_sign prec emax n m x0 s y0 t x y Na Nb C) as (_ & _ & Q). destruct Na as (Fa & _ & _), Nb as (Fb & _ & _).
  cbn [float_relation]. unfold fcmp. rewrite Bcompare_correct by assumption. rewrite <- Q.
  destruct (Rcompare_spec (val x) (val y)); split; intros; try discriminate; auto; lra.
Qed.
Lemma vectors_equal bs cs xs ys : Forall2 (clearly u) bs cs -> Forall2 nearb bs xs -> Forall2 nearb cs ys ->
  (forallb (fun p => float_relation Eq (fst p) (snd p)) (combine xs ys) = true <->
   map (fun b => fst (fst b)) bs = map (fun b => fst (fst b)) cs).
Proof.
  intros C. revert xs ys. induction C as [|b c bs cs Hh _ IH]; intros xs ys X Y; inversion X; inversion Y; subst; [cbn; tauto|].
  cbn [combine forallb fst snd map]. rewrite andb_true_iff, (clearly_eq b c) by eassumption. rewrite IH by assumption.
  split; [intros [-> ->]; reflexivity|]. intros E. now injection E.
Qed.

Lemma eval_vec r v o args : evals r (CallVec v o args) =
  match eval_all functions factors [] r args with
  | Some vs => match mapM get_num vs with Some xs => option_map VNum (vec_real v o xs) | None => None end
  | None => None end.
Proof. reflexivity. Qed.
Lemma frun_vec r v o args : runs r (CallVec v o args) =
  match frun_all stop env M mags r args with
  | Some vs => match mapM fnum vs with Some xs => option_map FNum (vec_value M v o xs) | None => None end
  | None => None end.
Proof. reflexivity. Qed.
Lemma eval_sum r s d items : evals r (Sum s d items) =
  match eval_all functions factors [] r items with
  | Some vs => match mapM get_num vs with Some xs => option_map VNum (sum_nums (zero_of s) xs) | None => None end
  | None => None end.
Proof. reflexivity. Qed.
Lemma frun_sum r s d items : runs r (Sum s d items) =
  match frun_all stop env M mags r items with
  | Some vs => match mapM fnum vs with Some xs => option_map FNum (raw_sum s xs) | None => None end
  | None => None end.
Proof. reflexivity. Qed.
Lemma eval_cons r a rest : eval_all functions factors [] r (Cons a rest) =
  match evals r a with
  | Some v => match eval_all functions factors [] r rest with Some vs => Some (v :: vs) | None => None end
  | None => None end.
Proof. reflexivity. Qed.
Lemma frun_cons r a rest : frun_all stop env M mags r (Cons a rest) =
  match runs r a with
  | Some v => match frun_all stop env M mags r rest with Some vs => Some (v :: vs) | None => None end
  | None => None end.
Proof. reflexivity. Qed.

Lemma nums_of ns : mapM get_num (map VNum ns) = Some ns.
Proof. induction ns as [|z ns IH]; [reflexivity|]. cbn [map mapM get_num]. now rewrite IH. Qed.
Lemma raws_of rs : mapM fnum (map (fun r => FNum r) rs) = Some rs.
Proof. induction rs as [|z rs IH]; [reflexivity|]. cbn [map mapM fnum]. now rewrite IH. Qed.

Theorem run_agrees :
  forall rho, (forall p e, tr rho p e -> agrees rho p e) /\ (forall e0 items e, sm rho e0 items e -> agrees_sum rho e0 items e) /\
    (forall ps es, ea rho ps es -> agrees_each rho ps es).
Proof.
  apply (tracks_mutind k u lo hi units ftype agrees agrees_sum agrees_each).
  - (* Var *) intros rho i e H frho Hrho. split.
    + cbn [eval]. now apply map_nth_error.
    + cbn [frun]. revert i H. induction Hrho as [|x v rho frho Hx Hrho IH]; intros [|i] H; cbn [nth_error] in *; try discriminate H.
      * injection H as ->. eauto.
      * eauto.
  - (* Convert *) intros rho a e _ H frho Hrho. exact (H frho Hrho).
  - (* Zero *) intros rho d frho Hrho. split; [reflexivity|]. exists (FNum (inj zero)). split; [cbn [frun]; now rewrite R_default|].
    exists zero. split; [reflexivity|exact near_zero].
  - (* times *) intros rho a v p x s n f m Hp' _ H Hu Hf. start H frho Hrho.
    destruct (Units v f m Hu) as (Ef & g & Eg & Fg & Ng).
    pose proof (near_times_unit prec emax lo hi Hp He Hp10 Hlo Hhi nan_m n m x s f a0 (conv g) Na Fg Ng Hf) as K.
    assert (Ee : evals (map exactly rho) p = Some (exactly (EN (x * f) (s * Rabs f) (n + m + 1)))).
    { destruct Hp' as [-> |[-> |[-> | ->]]]; cbn [eval]; rewrite Ea; cbn [exactly]; unfold with_unit;
        cbn [get_num]; rewrite Ef; reflexivity. }
    split; [exact Ee|]. exists (FNum (inj (mul a0 (conv g)))). split; [|exists (mul a0 (conv g)); split; [reflexivity|exact K]].
    destruct Hp' as [-> |[-> |[-> | ->]]]; cbn [frun]; rewrite Ra; unfold with_mag; cbn [fnum]; rewrite Eg; cbn beta iota;
      rewrite ?R_conv, ?R_mul, ?R_mulm; reflexivity.
  - (* over *) intros rho a v p x s n f m Hp' _ H Hu Nf Hf. start H frho Hrho.
    destruct (Units v f m Hu) as (Ef & g & Eg & Fg & Ng).
    pose proof (near_over_unit prec emax lo hi Hp He Hp10 Hlo Hhi nan_d n m x s f a0 (conv g) Na Nf Ng Hf) as K.
    assert (Ee : evals (map exactly rho) p = Some (exactly (EN (x / f) (s / Rabs f) (n + m + 1)))).
    { destruct Hp' as [-> |[-> |[-> | ->]]]; cbn [eval]; rewrite Ea; cbn [exactly]; unfold with_unit;
        cbn [get_num]; rewrite Ef; cbn [arith arith1]; destruct (Req_EM_T f 0); try contradiction; reflexivity. }
    split; [exact Ee|]. exists (FNum (inj (div a0 (conv g)))). split; [|exists (div a0 (conv g)); split; [reflexivity|exact K]].
    destruct Hp' as [-> |[-> |[-> | ->]]]; cbn [frun]; rewrite Ra; unfold with_mag; cbn [fnum]; rewrite Eg; cbn beta iota;
      rewrite ?R_conv, ?R_div, ?R_divm; reflexivity.
  - (* unit over number *) intros rho a v x n f m _ H Hu Nx Hf. start H frho Hrho.
    destruct (Units v f m Hu) as (Ef & g & Eg & Fg & Ng).
    pose proof (near_unit_over prec emax lo hi Hp He Hp10 Hlo Hhi nan_d n m x f a0 (conv g) Na Fg Ng Nx Hf) as K.
    split.
    + cbn [eval]; rewrite Ea; cbn [exactly]; unfold unit_with; cbn [get_num]; rewrite Ef; cbn [arith arith1].
      destruct (Req_EM_T x 0); [contradiction|reflexivity].
    + exists (FNum (inj (div (conv g) a0))). split; [|exists (div (conv g) a0); split; [reflexivity|exact K]].
      cbn [frun]; rewrite Ra; unfold with_mag; cbn [fnum]; rewrite Eg; cbn beta iota. now rewrite R_conv, R_div.
  - (* add *) intros rho op a b x s n y t m Ho _ H _ H2 Hf. start H frho Hrho. destruct (H2 frho Hrho) as (Eb & vb & Rb & Hb).
    apply holds_num in Hb as (b0 & -> & Nb).
    pose proof (near_add prec emax lo hi Hp He Hp10 Hlo Hhi nan_p n m x s y t a0 b0 Na Nb Hf) as K. split.
    + cbn [eval]. rewrite Ea, Eb. destruct Ho as [-> | ->]; reflexivity.
    + exists (FNum (inj (add a0 b0))). split; [|exists (add a0 b0); split; [reflexivity|exact K]].
      cbn [frun]. rewrite Ra, Rb. cbn [fnum]. destruct Ho as [-> | ->]; now rewrite R_op.
  - (* sub *) intros rho op a b x s n y t m Ho _ H _ H2 Hf. start H frho Hrho. destruct (H2 frho Hrho) as (Eb & vb & Rb & Hb).
    apply holds_num in Hb as (b0 & -> & Nb).
    pose proof (near_sub prec emax lo hi Hp He Hp10 Hlo Hhi nan_s n m x s y t a0 b0 Na Nb Hf) as K. split.
    + cbn [eval]. rewrite Ea, Eb. destruct Ho as [-> | ->]; reflexivity.
    + exists (FNum (inj (sub a0 b0))). split; [|exists (sub a0 b0); split; [reflexivity|exact K]].
      cbn [frun]. rewrite Ra, Rb. cbn [fnum]. destruct Ho as [-> | ->]; now rewrite R_op.
  - (* mul *) intros rho op a b x s n y t m Ho _ H _ H2 Hf. start H frho Hrho. destruct (H2 frho Hrho) as (Eb & vb & Rb & Hb).
    apply holds_num in Hb as (b0 & -> & Nb).
    pose proof (near_mul prec emax lo hi Hp He Hp10 Hlo Hhi nan_m n m x s y t a0 b0 Na Nb Hf) as K. split.
    + cbn [eval]. rewrite Ea, Eb. destruct Ho as [-> | ->]; reflexivity.
    + exists (FNum (inj (mul a0 b0))). split; [|exists (mul a0 b0); split; [reflexivity|exact K]].
      cbn [frun]. rewrite Ra, Rb. cbn [fnum]. destruct Ho as [-> | ->]; now rewrite R_op.
  - (* div *) intros rho op a b x s n y m Ho _ H _ H2 Ny Hf. start H frho Hrho. destruct (H2 frho Hrho) as (Eb & vb & Rb & Hb).
    apply holds_num in Hb as (b0 & -> & Nb).
    pose proof (near_div prec emax lo hi Hp He Hp10 Hlo Hhi nan_d n m x s y a0 b0 Na Nb Ny Hf) as K. split.
    + cbn [eval]. rewrite Ea, Eb. destruct Ho as [-> | ->]; cbn [exactly get_num arith arith1];
        (destruct (Req_EM_T y 0); [contradiction|reflexivity]).
    + exists (FNum (inj (div a0 b0))). split; [|exists (div a0 b0); split; [reflexivity|exact K]].
      cbn [frun]. rewrite Ra, Rb. cbn [fnum]. destruct Ho as [-> | ->]; now rewrite R_op.
  - (* neg *) intros rho a x s n _ H. start H frho Hrho. split; [cbn [eval]; now rewrite Ea|].
    exists (FNum (inj (opp a0))). split; [cbn [frun]; rewrite Ra; cbn [fnum]; now rewrite R_neg|].
    exists (opp a0). split; [reflexivity|now apply near_opp].
  - (* sum *) intros rho d items e _ H frho Hrho.
    destruct (H frho Hrho (Sc 0) (inj zero) eq_refl (ex_intro _ zero (conj eq_refl near_zero)))
      as (ns & rs & n1 & r1 & Ee & E1 & E2 & R1 & R2 & Hr).
    split; [rewrite eval_sum, E1, nums_of; cbn [zero_of]; now rewrite E2, Ee|].
    exists (FNum r1). split; [|exact Hr]. rewrite frun_sum, R1, raws_of. unfold raw_sum. rewrite R_default, R2. reflexivity.
  - (* value *) intros rho m a e x s n Hm -> _ H. start H frho Hrho.
    assert (Em : method_value M m (inj a0) = Some (VRaw (inj a0)) /\ method_real functions m (Sc x) = Some (VNum (Sc x))).
    { destruct Hm as [<-|[<-|[<-|[<-|[<-|[]]]]]]; split; reflexivity. }
    split; [cbn [eval]; rewrite Ea; cbn [exactly get_num]; apply Em|].
    exists (FNum (inj a0)). split; [cbn [frun]; rewrite Ra; cbn [fnum]; now rewrite (proj1 Em)|]. exists a0. auto.
  - (* abs *) intros rho a x s n _ H. start H frho Hrho. split; [cbn [eval]; now rewrite Ea|].
    exists (FNum (inj (fabs a0))). split; [cbn [frun]; rewrite Ra; cbn [fnum]; now rewrite R_abs|].
    exists (fabs a0). split; [reflexivity|now apply near_fabs].
  - (* zero *) intros rho a x s n _ H. start H frho Hrho. split; [cbn [eval]; now rewrite Ea|].
    exists (FNum (inj zero)). split; [cbn [frun]; rewrite Ra; cbn [fnum]; now rewrite R_mzero|].
    exists zero. split; [reflexivity|exact near_zero].
  - (* power *) intros rho m z a x n Hm Hz _ H Nx Hf. start H frho Hrho.
    pose proof (near_power m z x n a0 Hm Hz Na Nx Hf) as K. split.
    + cbn [eval]. rewrite Ea. cbn [exactly get_num]. destruct Hm as [[-> ->]|[[-> ->]| ->]]; cbn [method_real on_scalar];
        unfold power_int; (destruct (Req_EM_T x 0); [contradiction|reflexivity]).
    + exists (FNum (inj (m_powi fm a0 z))). split; [cbn [frun]; rewrite Ra; cbn [fnum]; now rewrite (R_power m z a0 Hm)|].
      exists (m_powi fm a0 z). split; [reflexivity|exact K].
  - (* sqrt *) intros rho a x n Px _ H Hf0 Hf. start H frho Hrho.
    pose proof (near_sqrt prec emax lo hi Hp He Hp10 Hlo Hhi nan_r n x a0 Px Na Hf) as K. split.
    + cbn [eval]. rewrite Ea. cbn [exactly get_num method_real on_scalar]. destruct (Rlt_dec x 0); [lra|reflexivity].
    + exists (FNum (inj (root a0))). split; [cbn [frun]; rewrite Ra; cbn [fnum]; now rewrite R_sqrt|].
      exists (root a0). split; [reflexivity|exact K].
  - (* min *) intros rho a b c x s n y t m e _ H _ H2 _ H3 (x' & s' & n' & ->). start H frho Hrho.
    destruct (H2 frho Hrho) as (Eb & vb & Rb & Hb). apply holds_num in Hb as (b0 & -> & Nb).
    destruct (H3 frho Hrho) as (Ec & vc & Rc & Hc). apply holds_num in Hc as (c0 & -> & Nc). split.
    + cbn [eval]. rewrite Ea, Eb, Ec. reflexivity.
    + exists (FNum (inj (m_min fm a0 b0))). split; [cbn [frun]; rewrite Ra, Rb, Rc; cbn [fnum]; now rewrite R_min|].
      exists (m_min fm a0 b0). split; [reflexivity|]. destruct Na as (Fa & Sa & Oa), Nb as (Fb & Sb & Ob).
      destruct (min_finite _ a0 b0 M_min Fa Fb) as [Cs Ev]. pose proof (Rabs_pos x). pose proof (Rabs_pos y).
      split; [destruct Cs as [-> | ->]; assumption|]. split.
      * pose proof (Rmax_l s t). pose proof (Rmax_r s t). unfold Rmin. destruct (Rle_dec x y); lra.
      * rewrite Ev. apply (off_min prec Hp10); auto; lra.
  - (* max *) intros rho a b c x s n y t m e _ H _ H2 _ H3 (x' & s' & n' & ->). start H frho Hrho.
    destruct (H2 frho Hrho) as (Eb & vb & Rb & Hb). apply holds_num in Hb as (b0 & -> & Nb).
    destruct (H3 frho Hrho) as (Ec & vc & Rc & Hc). apply holds_num in Hc as (c0 & -> & Nc). split.
    + cbn [eval]. rewrite Ea, Eb, Ec. reflexivity.
    + exists (FNum (inj (m_max fm a0 b0))). split; [cbn [frun]; rewrite Ra, Rb, Rc; cbn [fnum]; now rewrite R_max|].
      exists (m_max fm a0 b0). split; [reflexivity|]. destruct Na as (Fa & Sa & Oa), Nb as (Fb & Sb & Ob).
      destruct (max_finite _ a0 b0 M_max Fa Fb) as [Cs Ev]. pose proof (Rabs_pos x). pose proof (Rabs_pos y).
      split; [destruct Cs as [-> | ->]; assumption|]. split.
      * pose proof (Rmax_l s t). pose proof (Rmax_r s t). unfold Rmax at 1. destruct (Rle_dec x y); lra.
      * rewrite Ev. apply (off_max prec Hp10); auto; lra.
  - (* clamp *) intros rho a b c x s n y t m z v l _ H _ H2 _ H3 Hyz Cl. start H frho Hrho.
    destruct (H2 frho Hrho) as (Eb & vb & Rb & Hb). apply holds_num in Hb as (b0 & -> & Nb).
    destruct (H3 frho Hrho) as (Ec & vc & Rc & Hc). apply holds_num in Hc as (c0 & -> & Nc).
    assert (Cl' : clear (y - z) (error u t m + error u v l)).
    { unfold clear in *. rewrite Rabs_minus_sym. exact Cl. }
    destruct (near_sign prec emax m l y t z v b0 c0 Nb Nc Cl') as (_ & Gl & _).
    destruct Na as (Fa & Sa & Oa), Nb as (Fb & Sb & Ob), Nc as (Fc & Sc & Oc).
    destruct (clamp_finite a0 b0 c0 Fa Fb Fc) as [_ K]. destruct (K (proj2 Gl Hyz)) as (w & Ew & Cs & Ev). split.
    + cbn [eval]. rewrite Ea, Eb, Ec. cbn [exactly get_num arg_method_real]. destruct (Rle_dec y z); [reflexivity|contradiction].
    + exists (FNum (inj w)). split; [cbn [frun]; rewrite Ra, Rb, Rc; cbn [fnum]; rewrite R_clamp, Ew; reflexivity|].
      exists w. split; [reflexivity|]. pose proof (Rabs_pos x). pose proof (Rabs_pos y). pose proof (Rabs_pos z).
      split; [destruct Cs as [-> |[-> | ->]]; assumption|]. 
      pose proof (Rmax_l s t). pose proof (Rmax_r s t). pose proof (Rmax_l (Rmax s t) v). pose proof (Rmax_r (Rmax s t) v). split.
      * unfold Rmin. destruct (Rle_dec (Rmax x y) z); [|lra]. unfold Rmax at 1. destruct (Rle_dec x y); lra.
      * rewrite Ev, (Rmin_comm (val c0)), (Rmax_comm (val b0)). apply (off_min prec Hp10); [lra|lra| |exact Oc]. apply (off_max prec Hp10); auto; lra.
  - (* test *) intros rho m a x s n b Ht _ H C. start H frho Hrho.
    destruct (near_exact_zero x s n a0 Na C) as (P1 & P2 & P3 & P4). destruct Na as (Fa & _ & _). destruct R_zero as [Fz Vz]. split.
    + cbn [eval]. rewrite Ea. cbn [exactly get_num].
      destruct Ht as [[-> Ht]|[[-> Ht]|[[-> Ht]|[-> Ht]]]]; cbn [method_real test_scalar]; do 2 f_equal; now apply dec_iff.
    + exists (FBool b). split; [|reflexivity]. cbn [frun]. rewrite Ra. cbn [fnum].
      destruct Ht as [[-> Ht]|[[-> Ht]|[[-> Ht]|[-> Ht]]]]; rewrite ?R_pos, ?R_pos0, ?R_negv, ?R_neg0; cbn [option_map of_res]; do 2 f_equal;
        (eapply bool_iff; [|exact Ht]).
      * rewrite <- P1. now apply flt_iff.
      * rewrite <- P2. now apply fle_iff.
      * rewrite <- P3. now apply flt_iff.
      * rewrite <- P4. now apply fle_iff.
  - (* nan *) intros rho a x s n _ H. start H frho Hrho. split; [cbn [eval]; now rewrite Ea|].
    exists (FBool false). split; [|reflexivity]. cbn [frun]. rewrite Ra. cbn [fnum]. rewrite R_nan. cbn [option_map of_res]. do 2 f_equal.
    destruct Na as (Fa & _ & _). destruct a0; try reflexivity; discriminate Fa.
  - (* compare *) intros rho r a b x s n y t m c Rc _ H _ H2 C. start H frho Hrho. destruct (H2 frho Hrho) as (Eb & vb & Rb & Hb).
    apply holds_num in Hb as (b0 & -> & Nb). destruct (relation_sound r x s n y t m c a0 b0 Rc Na Nb C) as [K1 K2]. split.
    + cbn [eval]. rewrite Ea, Eb. cbn [exactly get_num]. now rewrite K1.
    + exists (FBool c). split; [|reflexivity]. cbn [frun]. rewrite Ra, Rb. cbn [fnum]. now rewrite R_rel, K2.
  - (* if *) intros rho c a b v e _ H _ H2 frho Hrho. destruct (H frho Hrho) as (Ec & vc & Rc & Hc). apply holds_bool in Hc. subst vc.
    destruct (H2 frho Hrho) as (E2 & w & R2 & Hw). split.
    + cbn [eval]. rewrite Ec. cbn [exactly]. destruct v; exact E2.
    + exists w. split; [|exact Hw]. cbn [frun]. rewrite Rc. cbn beta iota. destruct v; exact R2.
  - (* let *) intros rho a b e e' _ H _ H2 frho Hrho. destruct (H frho Hrho) as (Ea & va & Ra & Ha).
    destruct (H2 (va :: frho) (Forall2_cons _ _ Ha Hrho)) as (E2 & w & R2 & Hw). split.
    + cbn [eval]. rewrite Ea. exact E2.
    + exists w. split; [|exact Hw]. cbn [frun]. rewrite Ra. exact R2.
  - (* repeat *) intros rho a b e _ H frho Hrho. exact (H frho Hrho).
  - intros rho n a b e e' _ H _ H2 frho Hrho. destruct (H frho Hrho) as (Ea & va & Ra & Ha).
    destruct (H2 (va :: frho) (Forall2_cons _ _ Ha Hrho)) as (E2 & w & R2 & Hw). cbn [eval frun] in Ea, Ra. split.
    + cbn [eval Nat.iter nat_rect]. unfold Nat.iter in *. cbn [nat_rect]. rewrite Ea. exact E2.
    + exists w. split; [|exact Hw]. cbn [frun]. unfold Nat.iter in *. cbn [nat_rect]. rewrite Ra. exact R2.
  - (* weaken *) intros rho p x s n s' n' _ H L Hn. start H frho Hrho. split; [exact Ea|]. exists (FNum (inj a)).
    split; [exact Ra|]. exists a. split; [reflexivity|]. now apply near_weaken with s n.
  - intros rho p x s n c _ H L. start H frho Hrho. split; [exact Ea|]. exists (FNum (inj a)).
    split; [exact Ra|]. exists a. split; [reflexivity|]. now apply near_relative with s.
  - (* zero vector *) intros rho v d Hv frho Hrho. split; [cbn [eval zero_of exactly]; now rewrite zero_exact|].
    exists (FNum (vinj (repeat zero (num_dims v)))). split; [cbn [frun]; now rewrite V_default|].
    eexists. split; [reflexivity|apply zero_near].
  - (* vector times unit *) intros rho a v bs f m cs _ H Hu Hc. startv H frho Hrho.
    destruct (Units v f m Hu) as (Ef & g & Eg & Fg & Ng). split.
    + cbn [eval]. rewrite Ea. cbn [exactly]. unfold with_unit. cbn [get_num]. rewrite Ef. cbn [arith].
      rewrite (map_arith _ (unit_combines u lo hi f m)) with (ds := cs); [reflexivity| |exact Hc].
      intros [[x s] n] d (-> & _). reflexivity.
    + exists (FNum (vinj (map (fun x => mul x (conv g)) l))). split.
      * cbn [frun]. rewrite Ra. unfold with_mag. cbn [fnum]. rewrite Eg. cbn beta iota. now rewrite V_conv, V_mul.
      * eexists. split; [reflexivity|]. apply (map_near (unit_combines u lo hi f m)) with bs; [|exact Hc|exact Nl].
        intros [[x s] n] d a0 (-> & Fi) Na. unfold nearb in *. cbn [fst snd] in *.
        now apply near_times_unit with (lo := lo) (hi := hi).
  - (* vector over unit *) intros rho a v bs f m cs _ H Hu Nf Hc. startv H frho Hrho.
    destruct (Units v f m Hu) as (Ef & g & Eg & Fg & Ng). split.
    + cbn [eval]. rewrite Ea. cbn [exactly]. unfold with_unit. cbn [get_num]. rewrite Ef. cbn [arith].
      rewrite (map_arith _ (unit_divides u lo hi f m)) with (ds := cs); [reflexivity| |exact Hc].
      intros [[x s] n] d (-> & _). cbn [arith1 fst]. destruct (Req_EM_T f 0); [contradiction|reflexivity].
    + exists (FNum (vinj (map (fun x => div x (conv g)) l))). split.
      * cbn [frun]. rewrite Ra. unfold with_mag. cbn [fnum]. rewrite Eg. cbn beta iota. now rewrite V_conv, V_div.
      * eexists. split; [reflexivity|]. apply (map_near (unit_divides u lo hi f m)) with bs; [|exact Hc|exact Nl].
        intros [[x s] n] d a0 (-> & Fi) Na. unfold nearb in *. cbn [fst snd] in *.
        now apply near_over_unit with (lo := lo) (hi := hi).
  - (* unit over vector *) intros rho a v bs f m cs _ H Hu Hc. startv H frho Hrho.
    destruct (Units v f m Hu) as (Ef & g & Eg & Fg & Ng). split.
    + cbn [eval]. rewrite Ea. cbn [exactly]. unfold unit_with. cbn [get_num]. rewrite Ef. cbn [arith].
      rewrite (map_arith _ (unit_divided u lo hi f m)) with (ds := cs); [reflexivity| |exact Hc].
      intros [[x s] n] d (_ & Nx & -> & _). cbn [arith1 fst]. destruct (Req_EM_T x 0); [contradiction|reflexivity].
    + exists (FNum (vinj (map (fun x => div (conv g) x) l))). split.
      * cbn [frun]. rewrite Ra. unfold with_mag. cbn [fnum]. rewrite Eg. cbn beta iota. now rewrite V_conv, V_div_l.
      * eexists. split; [reflexivity|]. apply (map_near (unit_divided u lo hi f m)) with bs; [|exact Hc|exact Nl].
        intros [[x s] n] d a0 (-> & Nx & -> & Fi) Na. unfold nearb in *. cbn [fst snd] in *.
        now apply near_unit_over with (lo := lo) (hi := hi).
  - (* vector and vector *) intros rho op a b bs cs ds Ho _ H _ H2 Hc. startv H frho Hrho.
    destruct (H2 frho Hrho) as (Eb & vb & Rb & Hb). apply holds_vec in Hb as (l2 & -> & Nl2).
    destruct (float_op_some op Ho) as (g & Eg). split.
    + cbn [eval]. rewrite Ea, Eb. cbn [exactly get_num arith]. now rewrite (zip_arith op bs cs ds).
    + exists (FNum (vinj (g_zip g l l2))). split; [cbn [frun]; rewrite Ra, Rb; cbn [fnum]; now rewrite V_op, Eg|].
      eexists. split; [reflexivity|]. apply (zip_near (combines u lo hi op)) with bs cs; auto.
      intros b0 c d x y K X Y. destruct (near_combines op b0 c d x y K X Y) as (g' & Eg' & N). now rewrite Eg in Eg'; injection Eg' as <-.
  - (* vector and scalar *) intros rho op a b bs y t m ds Ho _ H _ H2 Hc. startv H frho Hrho.
    destruct (H2 frho Hrho) as (Eb & vb & Rb & Hb). apply holds_num in Hb as (b0 & -> & Nb).
    destruct (float_op_some op Ho) as (g & Eg). split.
    + cbn [eval]. rewrite Ea, Eb. cbn [exactly get_num arith].
      rewrite (map_arith _ (fun c d => combines u lo hi op c (y, t, m) d)) with (ds := ds); [reflexivity| |exact Hc].
      intros b1 d K. exact (arith1_value u lo hi op _ _ _ K).
    + exists (FNum (vinj (map (fun x => g x b0) l))). split; [cbn [frun]; rewrite Ra, Rb; cbn [fnum]; now rewrite V_op_r, Eg|].
      eexists. split; [reflexivity|]. apply (map_near (fun c d => combines u lo hi op c (y, t, m) d)) with bs; [|exact Hc|exact Nl].
      intros b1 d x K X. destruct (near_combines op b1 (y, t, m) d x b0 K X Nb) as (g' & Eg' & N). now rewrite Eg in Eg'; injection Eg' as <-.
  - (* scalar and vector *) intros rho op a b x s n cs ds Ho _ H _ H2 Hc. start H frho Hrho.
    destruct (H2 frho Hrho) as (Eb & vb & Rb & Hb). apply holds_vec in Hb as (l2 & -> & Nl2).
    destruct (float_op_some op Ho) as (g & Eg). split.
    + cbn [eval]. rewrite Ea, Eb. cbn [exactly get_num arith].
      rewrite (map_arith _ (combines u lo hi op (x, s, n))) with (ds := ds); [reflexivity| |exact Hc].
      intros b1 d K. exact (arith1_value u lo hi op _ _ _ K).
    + exists (FNum (vinj (map (fun y => g a0 y) l2))). split; [cbn [frun]; rewrite Ra, Rb; cbn [fnum]; now rewrite V_op_l, Eg|].
      eexists. split; [reflexivity|]. apply (map_near (combines u lo hi op (x, s, n))) with cs; [|exact Hc|exact Nl2].
      intros b1 d y K Y. destruct (near_combines op (x, s, n) b1 d a0 y K Na Y) as (g' & Eg' & N). now rewrite Eg in Eg'; injection Eg' as <-.
  - (* negated vector *) intros rho a bs cs _ H Hc. startv H frho Hrho. split.
    + cbn [eval]. rewrite Ea. cbn [exactly get_num neg_num]. rewrite (map_exact Ropp negated) with (ds := cs); [reflexivity| |exact Hc].
      intros [[x s] n] d ->. reflexivity.
    + exists (FNum (vinj (map opp l))). split; [cbn [frun]; rewrite Ra; cbn [fnum]; now rewrite V_neg|].
      eexists. split; [reflexivity|]. apply (map_near negated) with bs; [|exact Hc|exact Nl].
      intros [[x s] n] d y -> Y. now apply near_opp.
  - (* vector sum *) intros rho v d items e Hv _ H frho Hrho.
    destruct (H frho Hrho (Ve (repeat 0 (num_dims v))) (vinj (repeat zero (num_dims v)))) as (ns & rs & n1 & r1 & Ee & E1 & E2 & R1 & R2 & Hr).
    { cbn [exactly]. now rewrite zero_exact. }
    { eexists. split; [reflexivity|apply zero_near]. }
    split; [rewrite eval_sum, E1, nums_of; cbn [zero_of]; now rewrite E2, Ee|].
    exists (FNum r1). split; [|exact Hr]. rewrite frun_sum, R1, raws_of. unfold raw_sum. rewrite V_default, R2 by exact Hv. reflexivity.
  - (* value of a vector *) intros rho m a bs Hm _ H. startv H frho Hrho.
    assert (Em : method_value M m (vinj l) = Some (VRaw (vinj l)) /\ forall q, method_real functions m q = Some (VNum q)).
    { destruct Hm as [<-|[<-|[<-|[<-|[<-|[]]]]]]; split; reflexivity. }
    split; [cbn [eval]; rewrite Ea; cbn [exactly get_num]; apply Em|].
    exists (FNum (vinj l)). split; [cbn [frun]; rewrite Ra; cbn [fnum]; now rewrite (proj1 Em)|]. exists l. auto.
  - (* absolute values *) intros rho a bs cs _ H Hc. startv H frho Hrho. split.
    + cbn [eval]. rewrite Ea. cbn [exactly get_num method_real]. rewrite (map_exact Rabs absolute) with (ds := cs); [reflexivity| |exact Hc].
      intros [[x s] n] d ->. reflexivity.
    + exists (FNum (vinj (map fabs l))). split; [cbn [frun]; rewrite Ra; cbn [fnum]; now rewrite V_abs|].
      eexists. split; [reflexivity|]. apply (map_near absolute) with bs; [|exact Hc|exact Nl].
      intros [[x s] n] d y -> Y. now apply near_fabs.
  - (* vector methods *) intros rho v o args es e Hv _ H Hm frho Hrho. destruct (H frho Hrho) as (Ee & vs & Rs & Hs).
    assert (Nb : Forall (fun e => match e with EB _ => False | _ => True end) es).
    { destruct Hm; try solve [repeat (apply Forall_cons; [exact Logic.I|]); apply Forall_nil].
      clear. induction bs as [|b bs IH]; [apply Forall_nil|]. apply Forall_cons; [exact Logic.I|exact IH]. }
    assert (Hl : exists rs ls, vs = map (fun r => FNum r) rs /\
      Forall2 (fun r l => (exists a, r = inj a /\ l = [a]) \/ r = vinj l) rs ls /\ Forall2 (arg_rel nearb) es ls).
    { clear -Hs Nb. induction Hs as [|e0 v0 es vs Hh _ IH]; [exists [], []; repeat constructor|].
      inversion Nb; subst. destruct (IH H2) as (rs & ls & -> & K1 & K2). destruct e0 as [x s n|bs|b]; [| |contradiction].
      - apply holds_num in Hh as (a & -> & Na). exists (inj a :: rs), ([a] :: ls). split; [reflexivity|]. split; constructor; eauto. exists a. auto.
      - apply holds_vec in Hh as (l & -> & Nl). exists (vinj l :: rs), (l :: ls). split; [reflexivity|]. split; constructor; eauto. }
    destruct Hl as (rs & ls & -> & K1 & K2).
    assert (Ga : forall op b c d x y g, combines u lo hi op b c d -> float_op op = Some g -> nearb b x -> nearb c y -> nearb d (g x y)).
    { intros op b c d x y g K Eg X Y. destruct (near_combines op b c d x y K X Y) as (g' & Eg' & N). now rewrite Eg in Eg'; injection Eg' as <-. }
    destruct (vec_rel u lo hi add sub mul div root (m_min fm) (m_max fm) zero one nearb) with (dims := num_dims v) (o := o) (es := es) (e := e) (args := ls)
      as (r & Er & Hr & Hsr); try assumption.
    { intros b c d x y K X Y. exact (Ga TAdd b c d x y _ K eq_refl X Y). }
    { intros b c d x y K X Y. exact (Ga TSub b c d x y _ K eq_refl X Y). }
    { intros b c d x y K X Y. exact (Ga TMul b c d x y _ K eq_refl X Y). }
    { intros r n a Pr Nr Fi K. exact (near_recip r n a Pr Nr Fi K). }
    { intros x s m c a Px L Fi K. exact (near_length_root x s m c a Px L Fi K). }
    { exact near_lower. }
    { exact near_upper. }
    { exact near_zero. }
    { intros x s n a Fi K. exact (near_axis x s n a Fi K). }
    split.
    + rewrite eval_vec, Ee.
      assert (Eg : mapM get_num (map exactly es) =
        Some (map (fun e => match e with EN x _ _ => Sc x | EV bs => Ve (map value bs) | EB _ => Ve [] end) es)).
      { clear -Nb. induction Nb as [|e es He _ IH]; [reflexivity|]. cbn [map mapM]. rewrite IH. destruct e; [reflexivity|reflexivity|destruct He]. }
      rewrite Eg, (vec_exact u lo hi v o es e Hm Nb). destruct e; [reflexivity|reflexivity|destruct Hr].
    + rewrite frun_vec, Rs, raws_of, (V_vec v o rs ls Hv K1), Er. unfold as_raw. rewrite Hsr. destruct e as [x s n|bs|b].
      * destruct Hr as (a & -> & Na). exists (FNum (inj a)). split; [reflexivity|]. exists a. auto.
      * exists (FNum (vinj r)). split; [reflexivity|]. exists r. auto.
      * destruct Hr.
  - (* equality *) intros rho a b bs cs c _ H _ H2 Cl Hc. startv H frho Hrho.
    destruct (H2 frho Hrho) as (Eb & vb & Rb & Hb). apply holds_vec in Hb as (l2 & -> & Nl2). split.
    + cbn [eval]. rewrite Ea, Eb. cbn [exactly get_num compare_num comps option_map]. do 2 f_equal. now apply dec_iff.
    + exists (FBool c). split; [|reflexivity]. cbn [frun]. rewrite Ra, Rb. cbn [fnum]. rewrite V_rel. cbn [vector_relation option_map].
      do 2 f_equal. eapply bool_iff; [|exact Hc]. now apply vectors_equal.
  - (* inequality *) intros rho a b bs cs c _ H _ H2 Cl Hc. startv H frho Hrho.
    destruct (H2 frho Hrho) as (Eb & vb & Rb & Hb). apply holds_vec in Hb as (l2 & -> & Nl2). split.
    + cbn [eval]. rewrite Ea, Eb. cbn [exactly get_num compare_num comps option_map]. do 2 f_equal.
      unfold dec. destruct (list_eq_dec Req_EM_T _ _) as [E|E]; cbn [negb]; destruct c; try reflexivity; exfalso; intuition congruence.
    + exists (FBool c). split; [|reflexivity]. cbn [frun]. rewrite Ra, Rb. cbn [fnum]. rewrite V_rel. cbn [vector_relation option_map].
      do 2 f_equal. eapply bool_iff; [|exact Hc]. rewrite negb_true_iff. rewrite <- (vectors_equal bs cs l l2 Cl Nl Nl2).
      destruct (forallb _ _); intuition congruence.
  - (* looser *) intros rho p bs cs _ H Hc. startv H frho Hrho. split.
    + rewrite Ea. cbn [exactly]. do 3 f_equal. clear -Hc. induction Hc as [|[[x s] n] [[y t] m] bs cs (<- & _) _ IH]; [reflexivity|].
      cbn [map fst]. now rewrite IH.
    + exists (FNum (vinj l)). split; [exact Ra|]. exists l. split; [reflexivity|]. rewrite <- (map_id l).
      apply (map_near looser) with bs; [|exact Hc|exact Nl]. intros b d x. apply near_looser.
  - (* done *) intros rho e frho Hrho n0 r0 E0 H0. exists [], [], n0, r0. repeat split; auto.
  - (* vector item *) intros rho bs a cs ds rest e _ H Hc _ H2 frho Hrho n0 r0 E0 H0.
    cbn [exactly] in E0. injection E0 as <-. destruct H0 as (l & -> & Nl).
    destruct (H frho Hrho) as (Ea & va & Ra & Ha). apply holds_vec in Ha as (l2 & -> & Nl2).
    assert (K : Forall2 nearb ds (g_zip add l l2)).
    { apply (zip_near (combines u lo hi TAdd)) with bs cs; auto.
      intros b c d x y K X Y. destruct (near_combines TAdd b c d x y K X Y) as (g' & Eg' & N). injection Eg' as <-. exact N. }
    destruct (H2 frho Hrho (Ve (map (fun b => fst (fst b)) ds)) (vinj (g_zip add l l2)) eq_refl (ex_intro _ _ (conj eq_refl K)))
      as (ns & rs & n1 & r1 & Ee & E1 & E2 & R1 & R2 & Hr).
    exists (Ve (map (fun b => fst (fst b)) cs) :: ns), (vinj l2 :: rs), n1, r1. split; [exact Ee|].
    split; [rewrite eval_cons, Ea, E1; reflexivity|].
    split; [cbn [sum_nums arith]|].
    { change (fun p => arith1 TAddAssign (fst p) (snd p)) with (fun p : R * R => arith1 TAdd (fst p) (snd p)). rewrite (zip_arith TAdd bs cs ds Hc). exact E2. }
    split; [rewrite frun_cons, Ra, R1; reflexivity|].
    split; [cbn [sum_from]; rewrite V_add; exact R2|exact Hr].
  - (* item *) intros rho x s n a y t m rest e _ H Hf _ H2 frho Hrho n0 r0 E0 H0.
    cbn [exactly] in E0. injection E0 as <-. destruct H0 as (w & -> & Nw).
    destruct (H frho Hrho) as (Ea & va & Ra & Ha). apply holds_num in Ha as (b & -> & Nb).
    pose proof (near_add prec emax lo hi Hp He Hp10 Hlo Hhi nan_p n m x s y t w b Nw Nb Hf) as K.
    destruct (H2 frho Hrho (Sc (x + y)) (inj (add w b)) eq_refl (ex_intro _ _ (conj eq_refl K)))
      as (ns & rs & n1 & r1 & Ee & E1 & E2 & R1 & R2 & Hr).
    exists (Sc y :: ns), (inj b :: rs), n1, r1. split; [exact Ee|].
    split; [rewrite eval_cons, Ea, E1; reflexivity|].
    split; [cbn [sum_nums arith arith1 option_map]; exact E2|].
    split; [rewrite frun_cons, Ra, R1; reflexivity|].
    split; [cbn [sum_from]; rewrite R_add; exact R2|exact Hr].
  - (* no more *) intros rho frho Hrho. split; [reflexivity|]. exists []. split; [reflexivity|constructor].
  - (* one more *) intros rho a e rest es _ H _ H2 frho Hrho. destruct (H frho Hrho) as (Ea & va & Ra & Ha).
    destruct (H2 frho Hrho) as (E2 & vs & R2 & Hs). split; [rewrite eval_cons, Ea, E2; reflexivity|].
    exists (va :: vs). split; [rewrite frun_cons, Ra, R2; reflexivity|now constructor].
Qed.
End Run.
