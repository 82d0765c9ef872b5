(** * Random sampling, HDF5 and MPI: C62, C63 *)
From Coq Require Import String List Bool ZArith Lia.
From Verif Require Import MachineInt Exponent CodegenDimension Storage Operators OperatorSpec Interop.
Import ListNotations.
Local Open Scope nat_scope.

Lemma float_enabled ft f :
  existsb (fun g => match f, g with F32, F32 | F64, F64 => true | _, _ => false end) (float_types ft) = true <->
  In (Float f) (storage_types ft).
Proof.
  unfold storage_types. rewrite in_app_iff, in_map_iff, existsb_exists. split.
  - intros (g & Hg & E). left. exists f. split; auto. destruct f, g; congruence.
  - intros [(g & E & Hg)|H]; [|apply in_map_iff in H as (w & E & _); discriminate E].
    injection E as ->. exists f. split; auto. now destruct f.
Qed.
Lemma vector_enabled ft v :
  existsb (fun w => match v, w with Vec2, Vec2 | DVec2, DVec2 | Vec3, Vec3 | DVec3, DVec3 => true | _, _ => false end)
    (vector_types ft) = true <-> In (Vector v) (storage_types ft).
Proof.
  unfold storage_types. rewrite in_app_iff, !in_map_iff, existsb_exists. split.
  - intros (g & Hg & E). right. exists v. split; auto. destruct v, g; congruence.
  - intros [(w & E & _)|(g & E & Hg)]; [discriminate E|]. injection E as ->. exists v. split; auto. now destruct v.
Qed.

(** ** C62 *)

Section Rand.
Context (ft : features) (X : exp_ops) (F U : float_type -> Type) (source : Type).
Context (uf_new uf_new_inclusive : forall f, F f -> F f -> option (U f)).
Context (uf_sample : forall f, U f -> source -> F f * source).
Context (dim_eq_dec : forall a b : dimval X, {a = b} + {a <> b}).
Notation any := (any_quantity X F).
Notation sample := (sample_uniform ft X F U source uf_new uf_new_inclusive uf_sample dim_eq_dec).

(** Two quantities of one float type and one dimension, each by value or by shared reference. *)
Definition same_type (low high : any) f (D : dimval X) (a b : F f) : Prop :=
  exists r1 r2, readable r1 /\ readable r2 /\ low = AnyQ X F r1 f D (Q a) /\ high = AnyQ X F r2 f D (Q b).
(** The raw sample for the raw bounds. *)
Definition raw_sample (inclusive : bool) f (a b : F f) (rng : source) : option (F f * source) :=
  option_map (fun u => uf_sample f u rng) ((if inclusive then uf_new_inclusive f else uf_new f) a b).

Lemma borrowed_readable r : borrowed r = true <-> readable r.
Proof. unfold readable. destruct r; simpl; intuition discriminate. Qed.

Lemma sample_same inclusive f D r1 r2 (a b : F f) rng : readable r1 -> readable r2 -> In (Float f) (storage_types ft) ->
  sample inclusive (AnyQ X F r1 f D (Q a)) (AnyQ X F r2 f D (Q b)) rng =
  Some (option_map (fun xs => (AnyQ X F Value f D (Q (fst xs)), snd xs)) (raw_sample inclusive f a b rng)).
Proof.
  intros H1 H2 Hf. unfold sample_uniform.
  rewrite (proj2 (borrowed_readable r1) H1), (proj2 (borrowed_readable r2) H2), (proj2 (float_enabled ft f) Hf).
  cbn [andb]. destruct (float_eq_dec f f) as [Ef|N]; [|congruence]. destruct (dim_eq_dec D D) as [Ed|N]; [|congruence].
  rewrite <- (Eqdep_dec.eq_rect_eq_dec dim_eq_dec). rewrite <- (Eqdep_dec.eq_rect_eq_dec float_eq_dec).
  unfold raw_sample, uq_new, uq_new_inclusive. destruct inclusive; cbn [stored_number].
  - destruct (uf_new_inclusive f a b) as [u|]; cbn [option_map]; [|reflexivity].
    unfold uq_sample. cbn [inner]. destruct (uf_sample f u rng). reflexivity.
  - destruct (uf_new f a b) as [u|]; cbn [option_map]; [|reflexivity].
    unfold uq_sample. cbn [inner]. destruct (uf_sample f u rng). reflexivity.
Qed.

(** Sampling between [low] and [high], one of which is a quantity, is accepted by the type checker
    exactly if both are quantities of the same float type and the same dimension. *)
Theorem C62_typing : forall inclusive low high rng r f D q,
  low = AnyQ X F r f D q \/ high = AnyQ X F r f D q ->
  (sample inclusive low high rng <> None <->
   In (Float f) (storage_types ft) /\ exists a b, same_type low high f D a b).
Proof.
  intros inclusive low high rng r f D q Hq. split.
  - intros H. unfold sample_uniform in H.
    destruct low as [r1 f1 D1 q1|r1 f1 x1], high as [r2 f2 D2 q2|r2 f2 x2];
      try (destruct Hq as [Hq|Hq]; discriminate Hq); try congruence.
    destruct (borrowed r1 && borrowed r2 && existsb (fun g => match f1, g with F32, F32 | F64, F64 => true | _, _ => false end) (float_types ft)) eqn:E; [|congruence].
    apply andb_true_iff in E as [E Ef]. apply andb_true_iff in E as [E1 E2]. apply float_enabled in Ef.
    destruct (float_eq_dec f2 f1) as [->|]; [|congruence]. destruct (dim_eq_dec D2 D1) as [->|]; [|congruence].
    apply borrowed_readable in E1, E2.
    assert (Ht : same_type (AnyQ X F r1 f1 D1 q1) (AnyQ X F r2 f1 D1 q2) f1 D1 (stored_number q1) (stored_number q2)).
    { exists r1, r2. destruct q1, q2. auto. }
    destruct Hq as [Hq|Hq]; injection Hq as -> -> -> _; eauto.
  - intros (Hf & a & b & r1 & r2 & H1 & H2 & -> & ->). rewrite sample_same by auto. discriminate.
Qed.

(** The result is a quantity of that dimension storing the raw sample for the raw bounds, and the
    random source is used up as by the raw sample; it panics exactly if the raw one does. *)
Theorem C62_value : forall inclusive low high rng f D a b,
  same_type low high f D a b -> In (Float f) (storage_types ft) ->
  sample inclusive low high rng =
  Some (match raw_sample inclusive f a b rng with
        | Some (x, rng') => Some (AnyQ X F Value f D (Q x), rng')
        | None => None
        end).
Proof.
  intros inclusive low high rng f D a b (r1 & r2 & H1 & H2 & -> & ->) Hf. rewrite sample_same by auto.
  destruct (raw_sample inclusive f a b rng) as [[x rng']|]; reflexivity.
Qed.

(** No quantity of another dimension comes out. *)
Theorem C62_dimension : forall inclusive low high rng r f D q rng',
  sample inclusive low high rng = Some (Some (AnyQ X F r f D q, rng')) ->
  exists a b, same_type low high f D a b /\ raw_sample inclusive f a b rng = Some (stored_number q, rng').
Proof.
  intros inclusive low high rng r f D q rng' H.
  destruct low as [r1 f1 D1 q1|r1 f1 x1] eqn:El.
  - assert (N : sample inclusive low high rng <> None) by (rewrite El, H; discriminate).
    apply (C62_typing inclusive low high rng r1 f1 D1 q1) in N; [|now left].
    destruct N as (Hf & a & b & Ht). rewrite <- El in H |- *.
    rewrite (C62_value inclusive low high rng f1 D1 a b Ht Hf) in H.
    destruct (raw_sample inclusive f1 a b rng) as [[x s]|] eqn:Er; [|discriminate H].
    assert (E : (AnyQ X F Value f1 D1 (Q x), s) = (AnyQ X F r f D q, rng')) by congruence.
    pose proof (f_equal snd E) as Es. apply (f_equal fst) in E. cbn [fst snd] in E, Es. subst s.
    pose proof (f_equal (fun z => match z with AnyQ _ _ _ f _ _ => f | AnyRaw _ _ _ f _ => f end) E) as Ef. cbn in Ef. subst f1.
    pose proof (f_equal (fun z => match z with AnyQ _ _ _ _ D' _ => D' | AnyRaw _ _ _ _ _ => D1 end) E) as Ed. cbn in Ed. subst D1.
    exists a, b. split; auto. rewrite Er. do 2 f_equal.
    destruct q as [y]. cbn [stored_number].
    pose proof (f_equal (fun z => match z with
      | AnyQ _ _ _ f' D' q' => existT (fun f => F f) f' (stored_number q')
      | AnyRaw _ _ _ f' x' => existT (fun f => F f) f' x' end) E) as Ex. cbn in Ex.
    now apply (Eqdep_dec.inj_pair2_eq_dec _ float_eq_dec) in Ex.
  - exfalso. unfold sample_uniform in H. destruct high as [r2 f2 D2 q2|r2 f2 x2]; [discriminate H|].
    destruct (borrowed r1 && borrowed r2); [|discriminate H].
    destruct (float_eq_dec f2 f1) as [Ef|]; [|discriminate H].
    destruct (option_map _ _) as [[z s]|] eqn:Eo; [|discriminate H].
    destruct ((if inclusive then uf_new_inclusive f1 else uf_new f1) x1 (eq_rect f2 F x2 f1 Ef)) as [u|]; [|discriminate Eo].
    cbn [option_map] in Eo. destruct (uf_sample f1 u rng). congruence.
Qed.
End Rand.
Print Assumptions C62_typing.
Print Assumptions C62_value.
Print Assumptions C62_dimension.

(** Two lengths; numbers are natural numbers and the source a counter. *)
Example C62_applies : forall (X : exp_ops) (D : dimval X),
  In (Float F64) (storage_types (Build_features false true false false false false)) /\
  same_type X (fun _ => nat) (AnyQ X _ Value F64 D (Q 1)) (AnyQ X _ Reference F64 D (Q 3)) F64 D 1 3.
Proof.
  intros X D. split; [now left|]. exists Value, Reference.
  split; [now left|]. split; [now right|]. auto.
Qed.

(** ** C63 *)

(** Bytes of a float. *)
Definition float_bytes (f : float_type) : nat := match f with F32 => 4 | F64 => 8 end.
(** The floats in memory, with their byte offsets ([Quantity] is [repr(transparent)]; glam's vectors
    are [repr(C)] structs of floats), and the size. *)
Definition memory (s : storage) : list (nat * float_type) :=
  match s with
  | Float f => [(0, f)]
  | Vector v => map (fun i => (i * float_bytes (component v), component v)) (seq 0 (num_dims v))
  end.
Definition memory_bytes (s : storage) : nat :=
  match s with Float f => float_bytes f | Vector v => num_dims v * float_bytes (component v) end.

(** What the descriptors mean: the floats they describe, by byte offset, and their size. *)
Fixpoint h5_bytes (t : h5_type) : nat :=
  match t with H5Float U4 => 4 | H5Float U8 => 8 | H5FixedArray t n => n * h5_bytes t end.
Fixpoint h5_floats (t : h5_type) (at_ : nat) : list (nat * float_type) :=
  match t with
  | H5Float U4 => [(at_, F32)]
  | H5Float U8 => [(at_, F64)]
  | H5FixedArray t n => flat_map (fun i => h5_floats t (at_ + i * h5_bytes t)) (seq 0 n)
  end.
Fixpoint mpi_bytes (t : mpi_type) : nat :=
  match t with RSMPI_FLOAT => 4 | RSMPI_DOUBLE => 8 | MPIContiguous n t => Z.to_nat n * mpi_bytes t end.
Fixpoint mpi_floats (t : mpi_type) (at_ : nat) : list (nat * float_type) :=
  match t with
  | RSMPI_FLOAT => [(at_, F32)]
  | RSMPI_DOUBLE => [(at_, F64)]
  | MPIContiguous n t => flat_map (fun i => mpi_floats t (at_ + i * mpi_bytes t)) (seq 0 (Z.to_nat n))
  end.

Theorem C63_hdf5 : forall ft X s D,
  (In s (storage_types ft) -> exists t, h5_descriptor ft X (Known s) D = Some t /\
     h5_floats t 0 = memory s /\ h5_bytes t = memory_bytes s) /\
  (~ In s (storage_types ft) -> h5_descriptor ft X (Known s) D = None).
Proof.
  intros ft X [f|v] D; cbn [h5_descriptor].
  - pose proof (float_enabled ft f) as E. split; intros H.
    + rewrite (proj2 E H). eexists. split; [reflexivity|]. now destruct f.
    + destruct (existsb _ _); [exfalso; apply H, E; reflexivity|reflexivity].
  - pose proof (vector_enabled ft v) as E. split; intros H.
    + rewrite (proj2 E H). eexists. split; [reflexivity|]. now destruct v.
    + destruct (existsb _ _); [exfalso; apply H, E; reflexivity|reflexivity].
Qed.
Print Assumptions C63_hdf5.

Theorem C63_mpi : forall ft X s D,
  (In s (storage_types ft) -> exists t, mpi_datatype ft X (Known s) D = Some t /\
     mpi_floats t 0 = memory s /\ mpi_bytes t = memory_bytes s) /\
  (~ In s (storage_types ft) -> mpi_datatype ft X (Known s) D = None).
Proof.
  intros ft X [f|v] D; cbn [mpi_datatype].
  - pose proof (float_enabled ft f) as E. split; intros H.
    + rewrite (proj2 E H). eexists. split; [reflexivity|]. now destruct f.
    + destruct (existsb _ _); [exfalso; apply H, E; reflexivity|reflexivity].
  - pose proof (vector_enabled ft v) as E. split; intros H.
    + rewrite (proj2 E H). eexists. split; [reflexivity|]. now destruct v.
    + destruct (existsb _ _); [exfalso; apply H, E; reflexivity|reflexivity].
Qed.
Print Assumptions C63_mpi.

(** The dimension makes no difference. *)
Theorem C63_any_dimension : forall ft X s D D',
  h5_descriptor ft X s D = h5_descriptor ft X s D' /\ mpi_datatype ft X s D = mpi_datatype ft X s D'.
Proof. intros ft X [[f|v]|n] D D'; split; reflexivity. Qed.
Print Assumptions C63_any_dimension.

Example C63_applies : forall X (D : dimval X),
  In (Vector DVec3) (storage_types (Build_features false true false false false true)) /\
  h5_descriptor (Build_features false true false false false true) X (Known (Vector DVec3)) D =
    Some (H5FixedArray (H5Float U8) 3) /\ memory (Vector DVec3) = [(0, F64); (8, F64); (16, F64)].
Proof. intros X D. split; [right; now left|]. split; reflexivity. Qed.
