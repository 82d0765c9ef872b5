(** * Model of the Cargo features: the manifests and the conditional code

    Cargo.toml, crates/diman_unit_system/Cargo.toml, crates/diman_lib/Cargo.toml and every
    [cfg(feature = ..)] of the sources.  A [package] is a compiled crate: the macro crate runs on the
    host and has its own copy of [diman_lib] (edition 2021, hence Cargo's resolver 2, which does not
    unify the features of the two copies). *)
From Coq Require Import String List Bool.
From Verif Require Import Storage Setting.
Import ListNotations.
Local Open Scope string_scope.
Local Open Scope list_scope.

(** [Diman]: the crate itself; [Macro]: diman_unit_system; [LibMacro], [LibUser]: diman_lib as a
    dependency of the macro and of diman; [NumMacro], [NumUser]: num-traits as a dependency of these. *)
Inductive package := Diman | Macro | LibMacro | LibUser | NumMacro | NumUser.
Definition package_eqb (p q : package) : bool :=
  match p, q with
  | Diman, Diman | Macro, Macro | LibMacro, LibMacro | LibUser, LibUser | NumMacro, NumMacro | NumUser, NumUser => true
  | _, _ => false
  end.
Definition feature : Type := package * string.

(** Cargo.toml:22-40; [dep:x] is the activation of the optional dependency [x]. *)
Definition diman_table : list (string * list feature) := [
  ("num-traits-libm", [(Macro, "num-traits-libm"); (LibUser, "num-traits-libm")]);
  ("glam", [(Diman, "dep:glam"); (Macro, "glam")]);
  ("glam-vec2", [(Diman, "glam"); (Diman, "f32"); (Macro, "glam-vec2")]);
  ("glam-dvec2", [(Diman, "glam"); (Diman, "f64"); (Macro, "glam-dvec2")]);
  ("glam-vec3", [(Diman, "glam"); (Diman, "f32"); (Macro, "glam-vec3")]);
  ("glam-dvec3", [(Diman, "glam"); (Diman, "f64"); (Macro, "glam-dvec3")]);
  ("f32", [(Macro, "f32")]);
  ("f64", [(Macro, "f64")]);
  ("std", [(Macro, "std"); (LibUser, "std")]);
  ("si", []);
  ("rational-dimensions", [(Macro, "rational-dimensions")]);
  ("mpi", [(Diman, "dep:once_cell"); (Diman, "dep:mpi"); (Macro, "mpi")]);
  ("hdf5", [(Diman, "dep:hdf5"); (Macro, "hdf5")]);
  ("rand", [(Diman, "dep:rand"); (Macro, "rand")]);
  ("serde", [(Diman, "dep:serde"); (Macro, "serde")]);
  ("default", [(Diman, "f32"); (Diman, "f64"); (Diman, "si"); (Diman, "std")])].
(** crates/diman_unit_system/Cargo.toml:12-29 ([default-features = false] at Cargo.toml:52). *)
Definition macro_table : list (string * list feature) := [
  ("num-traits-libm", [(LibMacro, "num-traits-libm")]);
  ("std", [(LibMacro, "std")])].
(** crates/diman_lib/Cargo.toml:12-14. *)
Definition lib_table (num : package) : list (string * list feature) := [
  ("num-traits-libm", [(num, "libm")])].

Definition qualified (p : package) (t : list (string * list feature)) : list (feature * list feature) :=
  map (fun e => ((p, fst e), snd e)) t.
Definition table : list (feature * list feature) :=
  qualified Diman diman_table ++ qualified Macro macro_table ++
  qualified LibMacro (lib_table NumMacro) ++ qualified LibUser (lib_table NumUser).
(** The features a user may name. *)
Definition declared : list string := map fst diman_table.

(** Cargo: the selected features are on, and what a feature that is on lists is on. *)
Inductive on (sel : list string) : package -> string -> Prop :=
| on_selected f : In f sel -> on sel Diman f
| on_listed p f l q g : on sel p f -> In ((p, f), l) table -> In (q, g) l -> on sel q g.

(** The same, computed: [n] rounds from one feature. *)
Definition feature_eqb (a b : feature) : bool := package_eqb (fst a) (fst b) && String.eqb (snd a) (snd b).
Definition listed (a : feature) : list feature :=
  flat_map (fun e => if feature_eqb (fst e) a then snd e else []) table.
Fixpoint rounds (n : nat) (l : list feature) : list feature :=
  match n with
  | O => l
  | S n => rounds n (l ++ flat_map listed l)
  end.
Definition reach (s : string) : list feature := rounds 4 [(Diman, s)].
Definition active (sel : list string) (p : package) (f : string) : bool :=
  existsb (fun s => existsb (feature_eqb (p, f)) (reach s)) sel.

(** ** What the conditional code makes of the features *)
(** codegen/storage_types.rs:75-133. *)
Definition features_of (sel : list string) : features :=
  {| ft_f32 := active sel Macro "f32"; ft_f64 := active sel Macro "f64";
     ft_vec2 := active sel Macro "glam-vec2"; ft_dvec2 := active sel Macro "glam-dvec2";
     ft_vec3 := active sel Macro "glam-vec3"; ft_dvec3 := active sel Macro "glam-dvec3" |}.
(** codegen/float_methods.rs:83-84, 101-114. *)
Definition math_of (sel : list string) : bool := active sel Macro "std" || active sel Macro "num-traits-libm".
(** types/mod.rs:16-20 (and the other cfgs on the same feature of the same crate). *)
Definition mode_of (sel : list string) : mode :=
  if active sel Macro "rational-dimensions" then RationalExponents else IntegerExponents.

(** ** Conditions under which the crates compile *)
Inductive cfg := CYes | CFeature (p : package) (f : string) | CNot (c : cfg) | CAny (a b : cfg) | CAll (a b : cfg).
Fixpoint holds (sel : list string) (c : cfg) : bool :=
  match c with
  | CYes => true
  | CFeature p f => active sel p f
  | CNot c => negb (holds sel c)
  | CAny a b => holds sel a || holds sel b
  | CAll a b => holds sel a && holds sel b
  end.
(** [uses]: code that is present if the first condition holds and compiles only if the second does. *)
Definition std_or_libm (p : package) : cfg := CAny (CFeature p "std") (CFeature p "num-traits-libm").
(** The expansion of [unit_system!] in src/si.rs. *)
Definition generated (f : string) : cfg := CAll (CFeature Diman "si") (CFeature Macro f).
Definition some_vector : cfg :=
  CAny (CAny (CFeature Macro "glam-vec2") (CFeature Macro "glam-dvec2"))
       (CAny (CFeature Macro "glam-vec3") (CFeature Macro "glam-dvec3")).
Definition uses : list (cfg * cfg) := [
  (* src/lib.rs:409-415: compile_error! *)
  (CAll (CFeature Diman "rational-dimensions") (CNot (std_or_libm Diman)), CNot CYes);
  (* storage_types.rs:75-98 call f32_type/f64_type, which exist under the cfgs at 102 and 115 *)
  (CFeature Macro "glam-vec2", CFeature Macro "f32");
  (CFeature Macro "glam-dvec2", CFeature Macro "f64");
  (CFeature Macro "glam-vec3", CFeature Macro "f32");
  (CFeature Macro "glam-dvec3", CFeature Macro "f64");
  (* types/mod.rs:16-17 imports diman_lib::ratio, which exists under the cfg at diman_lib/src/lib.rs:7 *)
  (CFeature Macro "rational-dimensions", std_or_libm LibMacro);
  (* the generated import at dimension_type.rs:168-169, through src/lib.rs:538-540 *)
  (generated "rational-dimensions", std_or_libm LibUser);
  (* diman_lib/src/lib.rs:12-15, magnitude.rs:6-10: num-traits has Float only with its feature libm (or std) *)
  (CFeature LibMacro "num-traits-libm", CFeature NumMacro "libm");
  (CFeature LibUser "num-traits-libm", CFeature NumUser "libm");
  (* diman_lib/src/magnitude.rs:54-57: powf is a method of f64 with std, of Float otherwise *)
  (std_or_libm LibMacro, CAny (CFeature LibMacro "std") (CFeature NumMacro "libm"));
  (std_or_libm LibUser, CAny (CFeature LibUser "std") (CFeature NumUser "libm"));
  (* float_methods.rs:12-20: the generated import of Float or FloatCore, and what diman_lib re-exports *)
  (generated "num-traits-libm", CFeature LibUser "num-traits-libm");
  (CAll (CFeature Diman "si") (CNot (CFeature Macro "num-traits-libm")), CNot (CFeature LibUser "num-traits-libm"));
  (* float_methods.rs:83-84, 101-112: the generated calls of ln, sin, sqrt, ... are methods of the float
     types if diman links std (src/lib.rs:401), of the imported Float otherwise *)
  (CAll (CFeature Diman "si") (std_or_libm Macro), CAny (CFeature Diman "std") (CFeature Macro "num-traits-libm"));
  (* storage_types.rs:70-73: paths ::glam::..; mpi.rs, hdf5.rs, rand.rs, serde.rs: paths into the optional
     dependencies *)
  (generated "glam-vec2", CFeature Diman "dep:glam"); (generated "glam-dvec2", CFeature Diman "dep:glam");
  (generated "glam-vec3", CFeature Diman "dep:glam"); (generated "glam-dvec3", CFeature Diman "dep:glam");
  (generated "mpi", CAll (CFeature Diman "dep:mpi") (CFeature Diman "dep:once_cell"));
  (generated "hdf5", CFeature Diman "dep:hdf5");
  (generated "rand", CFeature Diman "dep:rand");
  (generated "serde", CFeature Diman "dep:serde");
  (* serde.rs:26, 41, 64, 113, ..: std::str, format!, Vec, std::fmt; hdf5.rs:51: Box, for vectors only;
     without its feature std, diman is #![no_std] (src/lib.rs:401) and has none of them in scope *)
  (generated "serde", CFeature Diman "std");
  (CAll (generated "hdf5") some_vector, CFeature Diman "std")].
Definition builds (sel : list string) : Prop :=
  Forall (fun u => holds sel (fst u) = true -> holds sel (snd u) = true) uses.
