(** * Specification: running error bounds for programs over quantities

    A number in a program is described by [EN x s n]: its exact value [x], a size [s] (what [|x|]
    would be without cancellation: additions and subtractions add up sizes) and a number of roundings
    [n].  The claim is that the float is off by at most [n] roundings of something of that size, see
    [off_by].  [EV bs]: a vector, one such bound per component.  [EB b]: the truth value [b], not
    affected by rounding. *)
From Coq Require Import List Bool ZArith Reals.
From Flocq Require Import Core IEEE754.Binary.
From Verif Require Import F64 Setting Storage Operators FloatMethods Vector Programs.
Import ListNotations.
Local Open Scope R_scope.

Definition bound : Type := R * R * nat.
Inductive est := EN (x s : R) (n : nat) | EV (bs : list bound) | EB (b : bool).
Definition scalar_est (b : bound) : est := EN (fst (fst b)) (snd (fst b)) (snd b).
Definition no_bound : bound := (0, 0, 0%nat).

(** Three lists of the same length, related component by component. *)
Inductive each3 {A B D} (P : A -> B -> D -> Prop) : list A -> list B -> list D -> Prop :=
| each3_nil : each3 P [] [] []
| each3_cons a b d xs ys zs : P a b d -> each3 P xs ys zs -> each3 P (a :: xs) (b :: ys) (d :: zs).

Section Tracks.
(** [u]: half a unit in the last place; [lo], [hi]: sizes between [2^lo] and [2^hi] neither overflow
    nor underflow; [units]: the exact value of a unit and the roundings in its factor. *)
Context {k : mode} (u : R) (lo hi : Z) (units : unit_expr -> R -> nat -> Prop).

(** [n] roundings, each by a factor between [1 - u] and [1 / (1 - u)]. *)
Definition spread (n : nat) : R := / (1 - u) ^ n - 1.
Definition off_by (n : nat) (x s y : R) : Prop := Rabs (y - x) <= spread n * s.

Definition few_roundings (n : nat) : Prop := INR n * u <= / 8.
Definition good_size (s : R) : Prop := s = 0 \/ bpow radix2 lo <= s <= bpow radix2 hi.
Definition fine (s : R) (n : nat) : Prop := few_roundings n /\ good_size s.
(** A difference that errors of at most [e] cannot change the sign of. *)
Definition clear (d e : R) : Prop := e < Rabs d \/ e = 0.
Definition error (s : R) (n : nat) : R := spread n * s.

Definition unit_times (a : prog k) (v : unit_expr) (p : prog k) : Prop :=
  p = New v a \/ p = NumberTimes a v \/ p = Times a v \/ p = TimesLeft v a.
Definition unit_over (a : prog k) (v : unit_expr) (p : prog k) : Prop :=
  p = Over a v \/ p = ValueIn a v \/ p = NumberOver a v \/ p = UnitOver v a.
Definition adds (op : trait) : Prop := op = TAdd \/ op = TAddAssign.
Definition subtracts (op : trait) : Prop := op = TSub \/ op = TSubAssign.
Definition multiplies (op : trait) : Prop := op = TMul \/ op = TMulAssign.
Definition divides (op : trait) : Prop := op = TDiv \/ op = TDivAssign.
Definition arithmetic (op : trait) : Prop := adds op \/ subtracts op \/ multiplies op \/ divides op.
Definition raises (m : method) (z : Z) : Prop :=
  (m = MSquared /\ z = 2%Z) \/ (m = MCubed /\ z = 3%Z) \/ m = MPowi z.
Definition tests (m : method) (x : R) (b : bool) : Prop :=
  (m = MIsPositive /\ (b = true <-> 0 < x)) \/ (m = MIsPositiveOrZero /\ (b = true <-> 0 <= x)) \/
  (m = MIsNegative /\ (b = true <-> x < 0)) \/ (m = MIsNegativeOrZero /\ (b = true <-> x <= 0)).
Definition relates (r : relation) (x y : R) (b : bool) : Prop :=
  b = true <-> match r with Eq => x = y | Ne => x <> y | Lt => x < y | Le => x <= y | Gt => x > y | Ge => x >= y end.

(** ** One component *)
(** Arithmetic.  A divisor counts twice, and must be free of cancellation. *)
Inductive combines (op : trait) : bound -> bound -> bound -> Prop :=
| c_add x s n y t m : adds op -> fine (s + t) (Nat.max n m + 1) ->
    combines op (x, s, n) (y, t, m) (x + y, s + t, (Nat.max n m + 1)%nat)
| c_sub x s n y t m : subtracts op -> fine (s + t) (Nat.max n m + 1) ->
    combines op (x, s, n) (y, t, m) (x - y, s + t, (Nat.max n m + 1)%nat)
| c_mul x s n y t m : multiplies op -> fine (s * t) (n + m + 1) ->
    combines op (x, s, n) (y, t, m) (x * y, s * t, (n + m + 1)%nat)
| c_div x s n y m : divides op -> y <> 0 -> fine (s / Rabs y) (n + 2 * m + 1) ->
    combines op (x, s, n) (y, Rabs y, m) (x / y, s / Rabs y, (n + 2 * m + 1)%nat).
(** Times a unit, divided by a unit, a unit divided by it. *)
Definition unit_combines (f : R) (m : nat) (b c : bound) : Prop :=
  let '(x, s, n) := b in c = (x * f, s * Rabs f, (n + m + 1)%nat) /\ fine (s * Rabs f) (n + m + 1).
Definition unit_divides (f : R) (m : nat) (b c : bound) : Prop :=
  let '(x, s, n) := b in c = (x / f, s / Rabs f, (n + m + 1)%nat) /\ fine (s / Rabs f) (n + m + 1).
Definition unit_divided (f : R) (m : nat) (b c : bound) : Prop :=
  let '(x, s, n) := b in s = Rabs x /\ x <> 0 /\ c = (f / x, Rabs (f / x), (m + 2 * n + 1)%nat) /\
    fine (Rabs (f / x)) (m + 2 * n + 1).
Definition negated (b c : bound) : Prop := let '(x, s, n) := b in c = (- x, s, n).
Definition absolute (b c : bound) : Prop := let '(x, s, n) := b in c = (Rabs x, s, n).
Definition lower (b c d : bound) : Prop :=
  let '(x, s, n) := b in let '(y, t, m) := c in d = (Rmin x y, Rmax s t, Nat.max n m).
Definition upper (b c d : bound) : Prop :=
  let '(x, s, n) := b in let '(y, t, m) := c in d = (Rmax x y, Rmax s t, Nat.max n m).
(** A looser bound. *)
Definition looser (b c : bound) : Prop :=
  let '(x, s, n) := b in let '(y, t, m) := c in x = y /\
    ((s <= t /\ (n <= m)%nat) \/ exists k : nat, s <= INR k * Rabs x /\ t = Rabs x /\ m = (k * n)%nat).
Definition clearly (b c : bound) : Prop :=
  let '(x, s, n) := b in let '(y, t, m) := c in clear (x - y) (error s n + error t m).

(** ** Vectors *)
(** [b] plus these, from the left. *)
Inductive adds_up : bound -> list bound -> bound -> Prop :=
| a_done b : adds_up b [] b
| a_more b c d cs e : combines TAdd b c d -> adds_up d cs e -> adds_up b (c :: cs) e.
(** A scalar product. *)
Definition dots (bs cs : list bound) (d : bound) : Prop :=
  exists p ps, each3 (combines TMul) bs cs (p :: ps) /\ adds_up p ps d.
(** A length: the square root of the sum of the squares, where only up to [c] times as much cancels
    as is left (nothing if the components are free of cancellation). *)
Definition has_length (bs : list bound) (r : R) (n : nat) : Prop :=
  exists x s m c, dots bs bs (x, s, m) /\ 0 <= x /\ s <= INR c * x /\ r = sqrt x /\ n = (c * m + 1)%nat /\ fine r n.

(** Methods of vectors with [dims] components. *)
Inductive vec_tracks (dims : nat) : vec_op -> list est -> est -> Prop :=
| v_new bs : vec_tracks dims VNew (map scalar_est bs) (EV bs)
| v_axis a x s n : fine s (n + 1) -> vec_tracks dims (VNewAxis a) [EN x s n]
    (EV (map (fun i => if Nat.eqb i (axis_index a) then (x, s, (n + 1)%nat) else (0, 0, (n + 1)%nat)) (seq 0 dims)))
| v_get a bs b : nth_error bs (axis_index a) = Some b -> vec_tracks dims (VGet a) [EV bs] (scalar_est b)
| v_set a bs b : (axis_index a < length bs)%nat ->
    vec_tracks dims (VSet a) [EV bs; scalar_est b] (EV (firstn (axis_index a) bs ++ b :: skipn (S (axis_index a)) bs))
| v_zero : vec_tracks dims VZero [] (EV (repeat no_bound dims))
| v_min bs cs ds : each3 lower bs cs ds -> vec_tracks dims VMin [EV bs; EV cs] (EV ds)
| v_max bs cs ds : each3 upper bs cs ds -> vec_tracks dims VMax [EV bs; EV cs] (EV ds)
| v_length bs r n : has_length bs r n -> vec_tracks dims VLength [EV bs] (EN r r n)
| v_distance bs cs ds r n : each3 (combines TSub) bs cs ds -> has_length ds r n ->
    vec_tracks dims VDistance [EV bs; EV cs] (EN r r n)
| v_distance_squared bs cs ds d : each3 (combines TSub) bs cs ds -> dots ds ds d ->
    vec_tracks dims VDistanceSquared [EV bs; EV cs] (scalar_est d)
| v_normalize bs r n cs : has_length bs r n -> r <> 0 -> fine (1 / r) (2 * n + 1) ->
    Forall2 (fun b c => combines TMul b (1 / r, 1 / r, (2 * n + 1)%nat) c) bs cs ->
    vec_tracks dims VNormalize [EV bs] (EV cs)
| v_dot bs cs d : dots bs cs d -> vec_tracks dims VDot [EV bs; EV cs] (scalar_est d).

(** ** Programs *)
Context (storage_type : float_type).
Inductive tracks (rho : list est) : prog k -> est -> Prop :=
| k_var i e : nth_error rho i = Some e -> tracks rho (Var i) e
| k_convert a e : tracks rho a e -> tracks rho (Convert a) e
| k_zero d : tracks rho (Zero (Float storage_type) d) (EN 0 0 0)
(* Units: exact values multiply, roundings add up, and there is one more. *)
| k_times a v p x s n f m : unit_times a v p -> tracks rho a (EN x s n) -> units v f m -> 
    fine (s * Rabs f) (n + m + 1) -> tracks rho p (EN (x * f) (s * Rabs f) (n + m + 1))
| k_over a v p x s n f m : unit_over a v p -> tracks rho a (EN x s n) -> units v f m -> f <> 0 ->
    fine (s / Rabs f) (n + m + 1) -> tracks rho p (EN (x / f) (s / Rabs f) (n + m + 1))
| k_unit_over_number a v x n f m : tracks rho a (EN x (Rabs x) n) -> units v f m -> x <> 0 ->
    fine (Rabs (f / x)) (m + 2 * n + 1) ->
    tracks rho (UnitOverNumber v a) (EN (f / x) (Rabs (f / x)) (m + 2 * n + 1))
(* Arithmetic.  A divisor counts twice, and must be free of cancellation. *)
| k_add op a b x s n y t m : adds op -> tracks rho a (EN x s n) -> tracks rho b (EN y t m) ->
    fine (s + t) (Nat.max n m + 1) -> tracks rho (Bin op a b) (EN (x + y) (s + t) (Nat.max n m + 1))
| k_sub op a b x s n y t m : subtracts op -> tracks rho a (EN x s n) -> tracks rho b (EN y t m) ->
    fine (s + t) (Nat.max n m + 1) -> tracks rho (Bin op a b) (EN (x - y) (s + t) (Nat.max n m + 1))
| k_mul op a b x s n y t m : multiplies op -> tracks rho a (EN x s n) -> tracks rho b (EN y t m) ->
    fine (s * t) (n + m + 1) -> tracks rho (Bin op a b) (EN (x * y) (s * t) (n + m + 1))
| k_div op a b x s n y m : divides op -> tracks rho a (EN x s n) -> tracks rho b (EN y (Rabs y) m) -> y <> 0 ->
    fine (s / Rabs y) (n + 2 * m + 1) -> tracks rho (Bin op a b) (EN (x / y) (s / Rabs y) (n + 2 * m + 1))
| k_neg a x s n : tracks rho a (EN x s n) -> tracks rho (Neg a) (EN (- x) s n)
| k_sum d items e : sums rho (EN 0 0 0) items e -> tracks rho (Sum (Float storage_type) d items) e
(* Methods. *)
| k_value m a e x s n : In m [MValue; MValueRef; MDeref; MValueUnchecked; MValueUncheckedRef] -> e = EN x s n ->
    tracks rho a e -> tracks rho (Call m a) e
| k_abs a x s n : tracks rho a (EN x s n) -> tracks rho (Call MAbs a) (EN (Rabs x) s n)
| k_zero_method a x s n : tracks rho a (EN x s n) -> tracks rho (Call MZero a) (EN 0 0 0)
| k_power m z a x n : raises m z -> (Z.abs z < 2 ^ 31)%Z -> tracks rho a (EN x (Rabs x) n) -> x <> 0 ->
    fine (Rabs (powerRZ x z)) (2 * Z.abs_nat z * n + 4 * (Z.abs_nat z + 1)) ->
    tracks rho (Call m a) (EN (powerRZ x z) (Rabs (powerRZ x z)) (2 * Z.abs_nat z * n + 4 * (Z.abs_nat z + 1)))
| k_sqrt a x n : 0 <= x -> tracks rho a (EN x x n) -> fine x (n + 1) -> fine (sqrt x) (n + 1) ->
    tracks rho (Call MSqrt a) (EN (sqrt x) (sqrt x) (n + 1))
| k_min a b c x s n y t m e : tracks rho a (EN x s n) -> tracks rho b (EN y t m) -> tracks rho c e ->
    (exists x' s' n', e = EN x' s' n') ->
    tracks rho (Call2 MMin a b c) (EN (Rmin x y) (Rmax s t) (Nat.max n m))
| k_max a b c x s n y t m e : tracks rho a (EN x s n) -> tracks rho b (EN y t m) -> tracks rho c e ->
    (exists x' s' n', e = EN x' s' n') ->
    tracks rho (Call2 MMax a b c) (EN (Rmax x y) (Rmax s t) (Nat.max n m))
| k_clamp a b c x s n y t m z v l : tracks rho a (EN x s n) -> tracks rho b (EN y t m) -> tracks rho c (EN z v l) ->
    y <= z -> clear (z - y) (error t m + error v l) ->
    tracks rho (Call2 MClamp a b c) (EN (Rmin (Rmax x y) z) (Rmax (Rmax s t) v) (Nat.max (Nat.max n m) l))
(* Tests and comparisons, as long as the difference is clear. *)
| k_test m a x s n b : tests m x b -> tracks rho a (EN x s n) -> clear x (error s n) -> tracks rho (Call m a) (EB b)
| k_nan a x s n : tracks rho a (EN x s n) -> tracks rho (Call MIsNan a) (EB false)
| k_compare r a b x s n y t m c : relates r x y c -> tracks rho a (EN x s n) -> tracks rho b (EN y t m) ->
    clear (x - y) (error s n + error t m) -> tracks rho (Compare r a b) (EB c)
| k_if c a b (v : bool) e : tracks rho c (EB v) -> tracks rho (if v then a else b) e -> tracks rho (If c a b) e
| k_let a b e e' : tracks rho a e -> tracks (e :: rho) b e' -> tracks rho (Let a b) e'
| k_repeat_0 a b e : tracks rho a e -> tracks rho (Repeat 0 a b) e
| k_repeat_S n a b e e' : tracks rho (Repeat n a b) e -> tracks (e :: rho) b e' -> tracks rho (Repeat (S n) a b) e'
(* A bound may be loosened; [c * |x|] as the size is the same as [c] times as many roundings. *)
| k_weaken p x s n s' n' : tracks rho p (EN x s n) -> s <= s' -> (n <= n')%nat -> tracks rho p (EN x s' n')
| k_relative p x s n (c : nat) : tracks rho p (EN x s n) -> s <= INR c * Rabs x -> tracks rho p (EN x (Rabs x) (c * n))
(* Vectors. *)
| k_vec_zero v d : component v = storage_type -> tracks rho (Zero (Vector v) d) (EV (repeat no_bound (num_dims v)))
| k_vec_times a v bs f m cs : tracks rho a (EV bs) -> units v f m -> Forall2 (unit_combines f m) bs cs ->
    tracks rho (NumberTimes a v) (EV cs)
| k_vec_over a v bs f m cs : tracks rho a (EV bs) -> units v f m -> f <> 0 -> Forall2 (unit_divides f m) bs cs ->
    tracks rho (NumberOver a v) (EV cs)
| k_vec_unit_over a v bs f m cs : tracks rho a (EV bs) -> units v f m -> Forall2 (unit_divided f m) bs cs ->
    tracks rho (UnitOverNumber v a) (EV cs)
| k_vec_vec op a b bs cs ds : arithmetic op -> tracks rho a (EV bs) -> tracks rho b (EV cs) -> each3 (combines op) bs cs ds ->
    tracks rho (Bin op a b) (EV ds)
| k_vec_scalar op a b bs y t m ds : arithmetic op -> tracks rho a (EV bs) -> tracks rho b (EN y t m) ->
    Forall2 (fun c d => combines op c (y, t, m) d) bs ds -> tracks rho (Bin op a b) (EV ds)
| k_scalar_vec op a b x s n cs ds : arithmetic op -> tracks rho a (EN x s n) -> tracks rho b (EV cs) ->
    Forall2 (combines op (x, s, n)) cs ds -> tracks rho (Bin op a b) (EV ds)
| k_vec_neg a bs cs : tracks rho a (EV bs) -> Forall2 negated bs cs -> tracks rho (Neg a) (EV cs)
| k_vec_sum v d items e : component v = storage_type -> sums rho (EV (repeat no_bound (num_dims v))) items e ->
    tracks rho (Sum (Vector v) d items) e
| k_vec_value m a bs : In m [MValue; MValueRef; MDeref; MValueUnchecked; MValueUncheckedRef] ->
    tracks rho a (EV bs) -> tracks rho (Call m a) (EV bs)
| k_vec_abs a bs cs : tracks rho a (EV bs) -> Forall2 absolute bs cs -> tracks rho (Call MAbs a) (EV cs)
| k_vec_method v o args es e : component v = storage_type -> tracks_each rho args es -> vec_tracks (num_dims v) o es e ->
    tracks rho (CallVec v o args) e
| k_vec_equal a b bs cs c : tracks rho a (EV bs) -> tracks rho b (EV cs) -> Forall2 clearly bs cs ->
    (c = true <-> map (fun b => fst (fst b)) bs = map (fun b => fst (fst b)) cs) -> tracks rho (Compare Eq a b) (EB c)
| k_vec_unequal a b bs cs c : tracks rho a (EV bs) -> tracks rho b (EV cs) -> Forall2 clearly bs cs ->
    (c = true <-> map (fun b => fst (fst b)) bs <> map (fun b => fst (fst b)) cs) -> tracks rho (Compare Ne a b) (EB c)
| k_vec_weaken p bs cs : tracks rho p (EV bs) -> Forall2 looser bs cs -> tracks rho p (EV cs)
with sums (rho : list est) : est -> progs k -> est -> Prop :=
| k_done e : sums rho e Nil e
| k_vec_item bs a cs ds rest e : tracks rho a (EV cs) -> each3 (combines TAdd) bs cs ds ->
    sums rho (EV ds) rest e -> sums rho (EV bs) (Cons a rest) e
| k_item x s n a y t m rest e : tracks rho a (EN y t m) -> fine (s + t) (Nat.max n m + 1) ->
    sums rho (EN (x + y) (s + t) (Nat.max n m + 1)) rest e -> sums rho (EN x s n) (Cons a rest) e
with tracks_each (rho : list est) : progs k -> list est -> Prop :=
| k_no_more : tracks_each rho Nil []
| k_one_more a e rest es : tracks rho a e -> tracks_each rho rest es -> tracks_each rho (Cons a rest) (e :: es).
End Tracks.

(** What is assumed of [powi]: finite and off by at most [4 * (|z| + 1)] roundings, as long as the power
    is between [2^-r] and [2^r] and not too many. *)
Definition accurate_powers (prec emax r : Z) (powi : Binary.binary_float prec emax -> Z -> Binary.binary_float prec emax) : Prop :=
  forall a z, Binary.is_finite prec emax a = true -> (Z.abs z < 2 ^ 31)%Z -> IZR (Z.abs z) * bpow radix2 (- prec) <= / 8 ->
  let x := powerRZ (Binary.B2R prec emax a) z in
  bpow radix2 (- r) <= Rabs x <= bpow radix2 r ->
  Binary.is_finite prec emax (powi a z) = true /\
  Rabs (Binary.B2R prec emax (powi a z) - x) <= 4 * (IZR (Z.abs z) + 1) * bpow radix2 (- prec) * Rabs x.
