(** * Model of codegen/storage_types.rs: which raw number types the generated library supports *)
From Coq Require Import List Bool ZArith.
Import ListNotations.

(** storage_types.rs:67-132: the float and vector types. *)
Inductive float_type := F32 | F64.
Inductive vector_type := Vec2 | DVec2 | Vec3 | DVec3.
Inductive storage := Float (f : float_type) | Vector (v : vector_type).

(** A raw type: one of the above, or any other type [S] a user puts into [Quantity<S, D>]. *)
Inductive sty := Known (s : storage) | Foreign (n : nat).

(** Cargo features (Cargo.toml of diman_unit_system). *)
Record features := {
  ft_f32 : bool; ft_f64 : bool;
  ft_vec2 : bool; ft_dvec2 : bool; ft_vec3 : bool; ft_dvec3 : bool }.

(** storage_types.rs:67-98: vector types with component type and number of components. *)
Definition component (v : vector_type) : float_type :=
  match v with Vec2 | Vec3 => F32 | DVec2 | DVec3 => F64 end.
Definition num_dims (v : vector_type) : nat :=
  match v with Vec2 | DVec2 => 2 | Vec3 | DVec3 => 3 end.
Definition vector_types (ft : features) : list vector_type :=
  (if ft_vec2 ft then [Vec2] else []) ++ (if ft_dvec2 ft then [DVec2] else []) ++
  (if ft_vec3 ft then [Vec3] else []) ++ (if ft_dvec3 ft then [DVec3] else []).

(** storage_types.rs:126-133. *)
Definition float_types (ft : features) : list float_type :=
  (if ft_f32 ft then [F32] else []) ++ (if ft_f64 ft then [F64] else []).

(** storage_types.rs:52-65: floats first, then vectors. *)
Definition storage_types (ft : features) : list storage :=
  map Float (float_types ft) ++ map Vector (vector_types ft).
