(** * Facts for C79: the vector methods, on exact numbers and on floats at once *)
From Coq Require Import List Bool ZArith Reals Lra Lia.
From Flocq Require Import Core IEEE754.Binary.
From Verif Require Import F64 Storage Operators FloatMethods Vector Programs TrackSpec.
Import ListNotations.
Local Open Scope R_scope.

Definition value (b : bound) : R := fst (fst b).
Lemma each3_length {A B D} (P : A -> B -> D -> Prop) xs ys zs : each3 P xs ys zs -> length xs = length ys /\ length xs = length zs.
Proof. induction 1 as [|? ? ? ? ? ? _ _ [IH1 IH2]]; cbn [length]; auto. Qed.

Section Generic.
Context (u : R) (lo hi : Z).
Notation fine := (fine u lo hi).
Notation combines := (combines u lo hi).
Context {F : Type} (add sub mul div : F -> F -> F) (root : F -> F) (fmin fmax : F -> F -> F) (zero one : F).
Context (rel : bound -> F -> Prop).
Hypothesis H_add : forall b c d x y, combines TAdd b c d -> rel b x -> rel c y -> rel d (add x y).
Hypothesis H_sub : forall b c d x y, combines TSub b c d -> rel b x -> rel c y -> rel d (sub x y).
Hypothesis H_mul : forall b c d x y, combines TMul b c d -> rel b x -> rel c y -> rel d (mul x y).
Hypothesis H_recip : forall r n a, 0 <= r -> r <> 0 -> fine (1 / r) (2 * n + 1) -> rel (r, r, n) a ->
  rel (1 / r, 1 / r, (2 * n + 1)%nat) (div one a).
Hypothesis H_root : forall x s m c a, 0 <= x -> s <= INR c * x -> fine (sqrt x) (c * m + 1) -> rel (x, s, m) a ->
  rel (sqrt x, sqrt x, (c * m + 1)%nat) (root a).
Hypothesis H_min : forall b c d x y, lower b c d -> rel b x -> rel c y -> rel d (fmin x y).
Hypothesis H_max : forall b c d x y, upper b c d -> rel b x -> rel c y -> rel d (fmax x y).
Hypothesis H_zero : rel no_bound zero.
Hypothesis H_axis : forall x s n a, fine s (n + 1) -> rel (x, s, n) a ->
  rel (x, s, (n + 1)%nat) (mul a one) /\ rel (0, 0, (n + 1)%nat) (mul a zero).

Lemma zip_rel (P : bound -> bound -> bound -> Prop) f : (forall b c d x y, P b c d -> rel b x -> rel c y -> rel d (f x y)) ->
  forall bs cs ds xs ys, each3 P bs cs ds -> Forall2 rel bs xs -> Forall2 rel cs ys -> Forall2 rel ds (g_zip f xs ys).
Proof.
  intros H bs cs ds xs ys E. revert xs ys. induction E as [|b c d bs cs ds Hh _ IH]; intros xs ys X Y; inversion X; inversion Y; subst; [constructor|].
  unfold g_zip. cbn [combine map fst snd]. constructor; [eauto|]. now apply IH.
Qed.
Lemma total_rel b bs d x xs : adds_up u lo hi b bs d -> rel b x -> Forall2 rel bs xs -> rel d (fold_left add xs x).
Proof.
  intros A. revert x xs. induction A as [b|b c d cs e Hc _ IH]; intros x xs Hx Hxs; inversion Hxs; subst; [exact Hx|].
  cbn [fold_left]. apply IH; eauto.
Qed.
Lemma dot_rel bs cs d xs ys : dots u lo hi bs cs d -> Forall2 rel bs xs -> Forall2 rel cs ys -> rel d (g_dot add mul zero xs ys).
Proof.
  intros (p & ps & E & A) X Y. pose proof (zip_rel _ mul H_mul _ _ _ _ _ E X Y) as Z. unfold g_dot.
  inversion Z as [|? a ? l Ha Hl]; subst. exact (total_rel _ _ _ _ _ A Ha Hl).
Qed.
Lemma length_rel bs r n xs : has_length u lo hi bs r n -> Forall2 rel bs xs -> rel (r, r, n) (g_length add mul root zero xs).
Proof.
  intros (x & s & m & c & D & Px & L & -> & -> & Fi) X. unfold g_length. apply (H_root x s m c); auto. now apply (dot_rel bs bs).
Qed.
Lemma nth_rel bs xs : Forall2 rel bs xs -> forall i b, nth_error bs i = Some b -> exists x, nth_error xs i = Some x /\ rel b x.
Proof.
  induction 1 as [|b' x bs xs Hh _ IH]; intros [|i] b H; try discriminate H; cbn [nth_error] in *; [injection H as <-; eauto|auto].
Qed.
Lemma set_rel bs xs : Forall2 rel bs xs -> forall i b x, (i < length bs)%nat -> rel b x ->
  Forall2 rel (firstn i bs ++ b :: skipn (S i) bs) (g_set i x xs).
Proof.
  induction 1 as [|b' x' bs xs Hh Hr IH]; intros [|i] b x L Hx; cbn [length] in L; try lia; cbn [g_set].
  - cbn [firstn skipn app]. now constructor.
  - change (Forall2 rel (b' :: (firstn i bs ++ b :: skipn (S i) bs)) (x' :: g_set i x xs)). constructor; [exact Hh|]. apply IH; [lia|exact Hx].
Qed.

Definition arg_rel (e : est) (l : list F) : Prop :=
  match e with
  | EN x s n => exists a, l = [a] /\ rel (x, s, n) a
  | EV bs => Forall2 rel bs l
  | EB _ => False
  end.
Lemma arg_scalar b l : arg_rel (scalar_est b) l <-> exists a, l = [a] /\ rel b a.
Proof. destruct b as [[x s] n]. reflexivity. Qed.
Lemma vec_rel dims o es e args : vec_tracks u lo hi dims o es e -> Forall2 arg_rel es args ->
  exists r, g_value add sub mul div root fmin fmax zero one dims o args = Some r /\ arg_rel e r /\
    scalar_result o = match e with EN _ _ _ => true | _ => false end.
Proof.
  intros V A. destruct V.
  - (* new *) exists (concat args). split; [reflexivity|]. split; [|reflexivity]. cbn [arg_rel].
    revert args A. induction bs as [|b bs IH]; intros args A; inversion A; subst; cbn [concat]; [constructor|].
    apply (proj1 (arg_scalar b _)) in H1. destruct H1 as (a & -> & Ha). cbn [app]. constructor; [exact Ha|]. now apply IH.
  - (* axis *) inversion A as [|? l ? ? Hl A']; subst. inversion A'; subst. destruct Hl as (q & -> & Hq). eexists. split; [reflexivity|]. split; [|reflexivity].
    cbn [arg_rel]. unfold g_axis. destruct (H_axis x s n q H Hq) as [K1 K2].
    generalize (seq 0 dims). intros l. induction l as [|i l IH]; cbn [map]; constructor; [|exact IH].
    destruct (Nat.eqb i (axis_index a)); assumption.
  - (* get *) inversion A as [|? l ? ? Hl A']; subst. inversion A'; subst. cbn [arg_rel] in Hl.
    destruct (nth_rel _ _ Hl _ _ H) as (x & E & Hx). exists [x]. split; [cbn [g_value]; now rewrite E|].
    split; [apply arg_scalar; eauto|reflexivity].
  - (* set *) inversion A as [|? l ? ? Hl A']; subst. inversion A' as [|? lb ? ? Hl' A'']; subst. inversion A''; subst.
    apply (proj1 (arg_scalar b _)) in Hl'. destruct Hl' as (q & -> & Hq). eexists. split; [reflexivity|]. split; [|reflexivity].
    cbn [arg_rel] in *. now apply set_rel.
  - (* zero *) inversion A; subst. exists (repeat zero dims). split; [reflexivity|]. split; [|reflexivity].
    cbn [arg_rel]. clear -H_zero. induction dims as [|n IH]; cbn [repeat]; constructor; assumption.
  - (* min *) inversion A as [|? l ? ? Hl A']; subst. inversion A' as [|? lb ? ? Hl' A'']; subst. inversion A''; subst.
    eexists. split; [reflexivity|]. split; [|reflexivity]. exact (zip_rel _ fmin H_min _ _ _ _ _ H Hl Hl').
  - (* max *) inversion A as [|? l ? ? Hl A']; subst. inversion A' as [|? lb ? ? Hl' A'']; subst. inversion A''; subst.
    eexists. split; [reflexivity|]. split; [|reflexivity]. exact (zip_rel _ fmax H_max _ _ _ _ _ H Hl Hl').
  - (* length *) inversion A as [|? l ? ? Hl A']; subst. inversion A'; subst. eexists. split; [reflexivity|]. split; [|reflexivity].
    eexists. split; [reflexivity|]. exact (length_rel _ _ _ _ H Hl).
  - (* distance *) inversion A as [|? l ? ? Hl A']; subst. inversion A' as [|? lb ? ? Hl' A'']; subst. inversion A''; subst.
    eexists. split; [reflexivity|]. split; [|reflexivity]. eexists. split; [reflexivity|]. unfold g_distance.
    apply (length_rel _ _ _ _ H0). exact (zip_rel _ sub H_sub _ _ _ _ _ H Hl Hl').
  - (* distance squared *) inversion A as [|? l ? ? Hl A']; subst. inversion A' as [|? lb ? ? Hl' A'']; subst. inversion A''; subst.
    eexists. split; [reflexivity|]. split; [|reflexivity]. apply arg_scalar. eexists. split; [reflexivity|].
    pose proof (zip_rel _ sub H_sub _ _ _ _ _ H Hl Hl') as Z. unfold g_distance_squared. exact (dot_rel _ _ _ _ _ H0 Z Z).
  - (* normalize *) inversion A as [|? l ? ? Hl A']; subst. inversion A'; subst. eexists. split; [reflexivity|]. split; [|reflexivity].
    cbn [arg_rel] in *. unfold g_normalize. pose proof (length_rel _ _ _ _ H Hl) as Kl.
    assert (Pr : 0 <= r) by (destruct H as (x & s & m & c & _ & _ & _ & -> & _); apply sqrt_pos).
    pose proof (H_recip r n _ Pr H0 H1 Kl) as Kr. set (w := div one (g_length add mul root zero l)) in *. clearbody w.
    clear Kl H A A'. revert l Hl. induction H2 as [|b c bs cs Hh _ IH]; intros l Hl; inversion Hl; subst; cbn [map]; constructor; eauto.
  - (* dot *) inversion A as [|? l ? ? Hl A']; subst. inversion A' as [|? lb ? ? Hl' A'']; subst. inversion A''; subst.
    eexists. split; [reflexivity|]. split; [|reflexivity]. apply arg_scalar. eexists. split; [reflexivity|].
    exact (dot_rel _ _ _ _ _ H Hl Hl').
Qed.
End Generic.

(** On exact numbers. *)
Section Exact.
Context (u : R) (lo hi : Z).
Definition is_value (b : bound) (x : R) : Prop := x = value b.
Lemma arith1_value op b c d : combines u lo hi op b c d -> arith1 op (value b) (value c) = Some (value d).
Proof.
  intros H. destruct H as [x s n y t m O _|x s n y t m O _|x s n y t m O _|x s n y m O Nz _]; cbn [value fst]; destruct O as [-> | ->]; cbn [arith1];
    try reflexivity; (destruct (Req_EM_T y 0); [contradiction|reflexivity]).
Qed.
Lemma values_exact bs : Forall2 is_value bs (map value bs).
Proof. induction bs; constructor; [reflexivity|assumption]. Qed.
Lemma values_unique bs xs : Forall2 is_value bs xs -> xs = map value bs.
Proof. induction 1 as [|b x bs xs Hh _ IH]; [reflexivity|]. cbn [map]. now rewrite Hh, IH. Qed.
Definition exact_comps (e : est) : list R := match e with EN x _ _ => [x] | EV bs => map value bs | EB _ => [] end.
Lemma vec_exact v o es e : vec_tracks u lo hi (num_dims v) o es e -> Forall (fun e => match e with EB _ => False | _ => True end) es ->
  vec_real v o (map (fun e => match e with EN x _ _ => Sc x | EV bs => Ve (map value bs) | EB _ => Ve [] end) es) =
  Some (match e with EN x _ _ => Sc x | EV bs => Ve (map value bs) | EB _ => Ve [] end).
Proof.
  intros V N.
  assert (Ec : map comps (map (fun e => match e with EN x _ _ => Sc x | EV bs => Ve (map value bs) | EB _ => Ve [] end) es) = map exact_comps es).
  { rewrite map_map. apply map_ext. intros []; reflexivity. }
  assert (Ha : Forall2 (arg_rel is_value) es (map exact_comps es)).
  { clear -N. induction N as [|e es He _ IH]; cbn [map]; constructor; [|exact IH].
    destruct e as [x s n|bs|b]; [exists x; split; reflexivity|apply values_exact|destruct He]. }
  assert (Hroot : forall x s m c a, 0 <= x -> s <= INR c * x -> fine u lo hi (sqrt x) (c * m + 1) -> is_value (x, s, m) a ->
    is_value (sqrt x, sqrt x, (c * m + 1)%nat) (sqrt a)) by (intros x s m c a _ _ _ ->; reflexivity).
  assert (Hop : forall op b c d x y, combines u lo hi op b c d -> is_value b x -> is_value c y -> arith1 op x y = Some (value d)).
  { intros op b c d x y K -> ->. now apply arith1_value with (c := c). }
  destruct (vec_rel u lo hi Rplus Rminus Rmult Rdiv sqrt Rmin Rmax 0 1 is_value) with (dims := num_dims v) (o := o) (es := es) (e := e) (args := map exact_comps es)
    as (r & Er & Hr & Hs); try assumption.
  - intros b c d x y K X Y. pose proof (Hop _ _ _ _ _ _ K X Y) as E. cbn [arith1] in E. now injection E.
  - intros b c d x y K X Y. pose proof (Hop _ _ _ _ _ _ K X Y) as E. cbn [arith1] in E. now injection E.
  - intros b c d x y K X Y. pose proof (Hop _ _ _ _ _ _ K X Y) as E. cbn [arith1] in E. now injection E.
  - intros r n a _ _ _ ->. reflexivity.
  - intros [[x s] n] [[y t] m] d x' y' -> -> ->. reflexivity.
  - intros [[x s] n] [[y t] m] d x' y' -> -> ->. reflexivity.
  - reflexivity.
  - intros x s n a _ ->. unfold is_value, value. cbn [fst]. split; ring.
  - unfold vec_real. rewrite Ec, Er.
    assert (Nn : match o, map exact_comps es with VNormalize, [xs] => dec (Req_EM_T (g_length Rplus Rmult sqrt 0 xs) 0) | _, _ => false end = false).
    { destruct V; try reflexivity. cbn [map exact_comps]. unfold dec. destruct (Req_EM_T _ 0) as [Z|Z]; [exfalso|reflexivity].
      rewrite (length_rel u lo hi Rplus Rmult sqrt 0 is_value) with (bs := bs) (r := r0) (n := n) in Z; [cbn in Z; contradiction| | | |assumption|apply values_exact].
      - intros b c d x y K X Y. pose proof (Hop _ _ _ _ _ _ K X Y) as E. cbn [arith1] in E. now injection E.
      - intros b c d x y K X Y. pose proof (Hop _ _ _ _ _ _ K X Y) as E. cbn [arith1] in E. now injection E.
      - exact Hroot. }
    rewrite Nn, Hs. destruct e as [x s n|bs|b].
    + destruct Hr as (a & -> & ->). reflexivity.
    + apply values_unique in Hr. now rewrite Hr.
    + destruct Hr.
Qed.
End Exact.
