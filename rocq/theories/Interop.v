(** * Model of codegen/hdf5.rs, codegen/mpi.rs and codegen/rand.rs *)
From Coq Require Import String List Bool ZArith.
From Verif Require Import MachineInt Exponent CodegenDimension Storage Operators.
Import ListNotations.

(** ** HDF5 *)

(** The part of the [hdf5] crate's type descriptors in use. *)
Inductive float_size := U4 | U8.
Inductive h5_type := H5Float (s : float_size) | H5FixedArray (t : h5_type) (n : nat).

(** storage_types.rs:101-124: [hdf5_type]. *)
Definition hdf5_type (f : float_type) : float_size := match f with F32 => U4 | F64 => U8 end.

(** hdf5.rs:24-32 (floats) and 48-60 (vectors): [type_descriptor] of the quantity type with the
    given raw type and dimension; [None]: the trait is not implemented.  The impls are generic in the
    dimension ([const D]). *)
Definition h5_descriptor (ft : features) (X : exp_ops) (s : sty) (D : dimval X) : option h5_type :=
  match s with
  | Known (Float f) =>
      if existsb (fun g => match f, g with F32, F32 | F64, F64 => true | _, _ => false end) (float_types ft)
      then Some (H5Float (hdf5_type f)) else None
  | Known (Vector v) =>
      if existsb (fun w => match v, w with Vec2, Vec2 | DVec2, DVec2 | Vec3, Vec3 | DVec3, DVec3 => true | _, _ => false end)
           (vector_types ft)
      then Some (H5FixedArray (H5Float (hdf5_type (component v))) (num_dims v)) else None
  | Foreign _ => None
  end.

(** ** MPI *)

(** MPI's predefined datatypes in use, and [UserDatatype::contiguous]. *)
Inductive mpi_type := RSMPI_FLOAT | RSMPI_DOUBLE | MPIContiguous (n : Z) (t : mpi_type).

(** storage_types.rs:101-124: [mpi_type]. *)
Definition mpi_type_of (f : float_type) : mpi_type := match f with F32 => RSMPI_FLOAT | F64 => RSMPI_DOUBLE end.
(** The [mpi] crate: [f32::equivalent_datatype()] and [f64::equivalent_datatype()]. *)
Definition raw_equivalent_datatype (f : float_type) : mpi_type :=
  match f with F32 => RSMPI_FLOAT | F64 => RSMPI_DOUBLE end.

(** mpi.rs:27-37 and 57-73: [equivalent_datatype]; the number of components is an [i32]. *)
Definition mpi_datatype (ft : features) (X : exp_ops) (s : sty) (D : dimval X) : option mpi_type :=
  match s with
  | Known (Float f) =>
      if existsb (fun g => match f, g with F32, F32 | F64, F64 => true | _, _ => false end) (float_types ft)
      then Some (mpi_type_of f) else None
  | Known (Vector v) =>
      if existsb (fun w => match v, w with Vec2, Vec2 | DVec2, DVec2 | Vec3, Vec3 | DVec3, DVec3 => true | _, _ => false end)
           (vector_types ft)
      then Some (MPIContiguous (Z.of_nat (num_dims v)) (raw_equivalent_datatype (component v))) else None
  | Foreign _ => None
  end.

(** ** Random numbers *)

Section Rand.
Context (ft : features) (X : exp_ops).
(** The [rand] crate's [UniformFloat<S>], for numbers [F f] of the float type [f]: a distribution is
    built from two bounds ([None]: it panics), and a sample uses up some of the random source. *)
Context (F : float_type -> Type) (U : float_type -> Type) (source : Type).
Context (uf_new uf_new_inclusive : forall f, F f -> F f -> option (U f)).
Context (uf_sample : forall f, U f -> source -> F f * source).

(** quantity_type.rs:16: a quantity of type [Quantity<f, D>] is its stored number. *)
Record quantity (f : float_type) (D : dimval X) := Q { stored_number : F f }.
Arguments Q {f D}. Arguments stored_number {f D}.

(** rand.rs:23: [UniformQuantity<S, D>(UniformFloat<S>)]. *)
Record uniform_quantity (f : float_type) (D : dimval X) := UQ { inner : U f }.
Arguments UQ {f D}. Arguments inner {f D}.

(** rand.rs:36-61.  The bounds have already been borrowed: both are [&Quantity<f, D>]. *)
Definition uq_new {f D} (low high : quantity f D) : option (uniform_quantity f D) :=
  option_map UQ (uf_new f (stored_number low) (stored_number high)).
Definition uq_new_inclusive {f D} (low high : quantity f D) : option (uniform_quantity f D) :=
  option_map UQ (uf_new_inclusive f (stored_number low) (stored_number high)).
Definition uq_sample {f D} (u : uniform_quantity f D) (rng : source) : quantity f D * source :=
  let '(x, rng') := uf_sample f (inner u) rng in (Q x, rng').

(** A bound as the user passes it: a value with its type. *)
Inductive any_quantity :=
| AnyQ (r : ref_kind) (f : float_type) (D : dimval X) (q : quantity f D)
| AnyRaw (r : ref_kind) (f : float_type) (x : F f).

(** [rand]: [Uniform::new(low, high).sample(rng)], [Uniform::new_inclusive] and [Rng::gen_range]:
    there must be a type [X: SampleUniform] such that both bounds are [X] or [&X]
    ([SampleBorrow<X>]); for quantities the only [SampleUniform] impls are rand.rs:64-66, one for
    each enabled float type.  [None]: type error.  [Some None]: panics. *)
Definition float_eq_dec (a b : float_type) : {a = b} + {a <> b}.
Proof. decide equality. Defined.
Context (dim_eq_dec : forall a b : dimval X, {a = b} + {a <> b}).

Definition borrowed (r : ref_kind) : bool := match r with Value | Reference => true | MutableReference => false end.

Definition sample_uniform (inclusive : bool) (low high : any_quantity) (rng : source)
  : option (option (any_quantity * source)) :=
  match low, high with
  | AnyQ r1 f1 D1 q1, AnyQ r2 f2 D2 q2 =>
      if borrowed r1 && borrowed r2 &&
         existsb (fun g => match f1, g with F32, F32 | F64, F64 => true | _, _ => false end) (float_types ft)
      then
        match float_eq_dec f2 f1, dim_eq_dec D2 D1 with
        | left Ef, left Ed =>
            let q2' : quantity f1 D1 :=
              eq_rect D2 (quantity f1) (eq_rect f2 (fun f => quantity f D2) q2 f1 Ef) D1 Ed in
            Some (option_map (fun u => let '(q, rng') := uq_sample u rng in (AnyQ Value f1 D1 q, rng'))
                    ((if inclusive then uq_new_inclusive else uq_new) q1 q2'))
        | _, _ => None
        end
      else None
  | AnyRaw r1 f1 x1, AnyRaw r2 f2 x2 =>
      (* rand's own impls for floats *)
      if borrowed r1 && borrowed r2
      then match float_eq_dec f2 f1 with
           | left Ef =>
               Some (option_map (fun u => let '(x, rng') := uf_sample f1 u rng in (AnyRaw Value f1 x, rng'))
                       ((if inclusive then uf_new_inclusive f1 else uf_new f1) x1 (eq_rect f2 F x2 f1 Ef)))
           | right _ => None
           end
      else None
  | _, _ => None
  end.
End Rand.
Arguments Q {X F f D}. Arguments stored_number {X F f D}.
