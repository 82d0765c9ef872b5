(** * The repository's own tests, run on the model

    tests/float, tests/glam, tests/unit_aliases, tests/rational_dimensions, tests/dimension_defs,
    tests/type_aliases, tests/gas, tests/debug, tests/serde and the type-mismatch tests of
    crates/diman_unit_system.  The macro call of the test is parsed ([parse_system]) and run
    ([run_unit_system]); each test is a program whose type is computed by the type checker [infer]
    (which PropertiesInference.v proves to be the typing rules) and whose value is computed on floats
    by [frun].  These are examples on literals, not proofs: they show that the model says what the
    repository's authors expect.

    Left out: references ([x + &y]: programs take operands by value, the reference impls are in
    Operators.v), the rand and mpi tests, and the [float_unknown_method] test (a name that does not
    exist). *)
From Coq Require Import String Ascii List Bool ZArith QArith Qcanon.
From Flocq Require Import IEEE754.Binary IEEE754.Bits.
From Verif Require Import MachineInt Ratio F64 FloatOps Magnitude Exponent ExponentFacts SMap Expression DimensionMath Types Resolve
  Expansion CodegenDimension CodegenLiteral Setting Storage Operators Raw FloatMethods Vector Programs FloatPrograms
  OperatorSpec OperatorFacts PropertiesOperators Inference Parse Sources Text Debug Serde SerdeFacts NumberFormat
  PropertiesDebug PropertiesSerde PropertiesMethods.
Import ListNotations.
Local Close Scope Q_scope.
Local Close Scope Qc_scope.
Local Close Scope Z_scope.
Local Open Scope string_scope.
Local Open Scope list_scope.

(** ** Running a test *)

(** A decimal literal [d * 10^e]. *)
Definition decimal : Set := Z * Z.
Inductive input := Number (x : decimal) | Components (v : vector_type) (xs : list decimal).
Definition num32 (x : decimal) : f32 := if (fst x <? 0)%Z then b32_opp (f32_of_decimal (- fst x) (snd x)) else f32_of_decimal (fst x) (snd x).
Definition num64 (x : decimal) : f64 := if (fst x <? 0)%Z then b64_opp (f64_of_decimal (- fst x) (snd x)) else f64_of_decimal (fst x) (snd x).
Definition raw_of (f : float_type) (i : input) : raw :=
  match i with
  | Number x => match f with F32 => RF32 (num32 x) | F64 => RF64 (num64 x) end
  | Components v xs =>
      match component v with F32 => RVec32 (map num32 xs) | F64 => RVec64 (map num64 xs) end
  end.
Definition type_of k (f : float_type) (i : input) : type k :=
  match i with Number _ => number (Float f) | Components v _ => number (Vector v) end.

(** The generated units and constants by name: constants are units, too. *)
Definition full k (o : defs (ops k)) (d : DimensionMath.bdims (ops k)) : dimval (ops k) :=
  match dim_expr (ops k) (CodegenLiteral.lit k) (df_base_dimensions o) d with Some e => e | None => [] end.
Definition table k (o : defs (ops k)) : list (string * (dimval (ops k) * magnitude)) :=
  map (fun u => (un_name u, (full k o (un_dims u), un_mag u))) (df_units o) ++
  map (fun c => (c_name c, (full k o (c_dims c), c_mag c))) (df_constants o).
Fixpoint position (n : string) (l : list string) : nat :=
  match l with [] => 0 | x :: r => if String.eqb n x then 0 else S (position n r) end.
Definition unit_index k (o : defs (ops k)) (n : string) : unit_expr := U (position n (map fst (table k o))).

(** [core] and [std]: the mathematical functions at the arguments the tests use. *)
Definition root_of (x : f64) : f64 := if float_relation Eq x (f64_of_Z 64) then f64_of_Z 4 else x.
Definition root_of32 (x : f32) : f32 := if float_relation Eq x (f32_of_Z 64) then f32_of_Z 4 else x.
Definition fn64 (g : float_fn) (x : f64) : f64 :=
  match g with Log2 => if float_relation Eq x (f64_of_Z 128) then f64_of_Z 7 else x | _ => x end.
Definition fn32 (g : float_fn) (x : f32) : f32 :=
  match g with Log2 => if float_relation Eq x (f32_of_Z 128) then f32_of_Z 7 else x | _ => x end.
Definition test_math : math :=
  Build_math (Build_float_math f32 powi_rt32 fn32 root_of32 min_impl max_impl)
             (Build_float_math f64 powi_rt fn64 root_of min_impl max_impl).

(** [f64::powf] at exponents one and minus one, and of one. *)
Definition test_env : fenv := env_rt (fun x y =>
  if float_relation Eq y f64_one then x
  else if float_relation Eq y (b64_opp f64_one) then f64_div f64_one x else f64_one).

Definition program k := (string -> unit_expr) -> prog k.

(** The type and the value of a program in the system written in [src]. *)
Definition type_in k f (o : defs (ops k)) (inputs : list input) (p : program k) : option (type k) :=
  infer k (df_base_dimensions o) all_features true (map (fun e => fst (snd e)) (table k o)) false
    (map (type_of k f) inputs) (p (unit_index k o)).
Definition value_in_ k f (o : defs (ops k)) (inputs : list input) (p : program k) : option fval :=
  frun stop test_env test_math (map (fun e => snd (snd e)) (table k o))
    (map (fun i => FNum (raw_of f i)) inputs) (p (unit_index k o)).

(** [f32::EPSILON] and [f64::EPSILON]; tests/utils/mod.rs:1-33: [assert_is_close]. *)
Definition eps64 : f64 := num64 (2220446049250313, -31)%Z.
Definition eps32 : f32 := num32 (11920929, -14)%Z.
Definition close_raw (a b : raw) : bool :=
  match a, b with
  | RF32 x, RF32 y => flt (b32_abs (f32_sub x y)) eps32
  | RF64 x, RF64 y => flt (b64_abs (f64_sub x y)) eps64
  | _, _ => false
  end.
Definition ty_eqb k (a b : option (type k)) : bool :=
  match a, b with Some x, Some y => type_eqb k x y | _, _ => false end.
Inductive check k :=
| Close (inputs : list input) (a b : program k)    (* [assert_is_close(a, b)]: of the same type, and close *)
| True_ (inputs : list input) (p : program k)      (* [assert!(p)] *)
| HasType (inputs : list input) (p : program k) (s : storage) (d : list (string * Z)) (* [let _: T = p] *)
| Rejected (inputs : list input) (p : program k).  (* does not compile *)
Arguments Close {k}. Arguments True_ {k}. Arguments HasType {k}. Arguments Rejected {k}.
Definition passes k f (o : defs (ops k)) (c : check k) : bool :=
  match c with
  | Close i a b =>
      ty_eqb k (type_in k f o i a) (type_in k f o i b) &&
      match value_in_ k f o i a, value_in_ k f o i b with
      | Some (FNum x), Some (FNum y) => close_raw x y
      | _, _ => false
      end
  | True_ i p =>
      ty_eqb k (type_in k f o i p) (Some Bool) &&
      match value_in_ k f o i p with Some (FBool true) => true | _ => false end
  | HasType i p s d =>
      ty_eqb k (type_in k f o i p) (Some (quantity s (map (fun e => (fst e, SerdeFacts.of_int k (snd e))) d)))
  | Rejected i p => match type_in k f o i p with None => true | Some _ => false end
  end.
Definition system_of k (src : list tok) : option (defs (ops k)) :=
  match parse_system k src with
  | Some t => match run_unit_system (ops k) test_env t with Some (o, []) => Some o | _ => None end
  | None => None
  end.
Definition failures k f (src : list tok) (tests : list (string * list (check k))) : option (list string) :=
  option_map (fun o => map fst (filter (fun t => negb (forallb (passes k f o) (snd t))) tests)) (system_of k src).

Section Tests.
Context (k : mode).
(** [make_annotated_unit_constructor!]: [meters(x)] is [x * units::meters]. *)
Definition un (n : string) (i : nat) : program k := fun u => NumberTimes (Var i) (u n).
Definition v_ (i : nat) : program k := fun _ => Var i.
Definition bin (op : trait) (a b : program k) : program k := fun u => Bin op (a u) (b u).
Definition cmp (r : relation) (a b : program k) : program k := fun u => Compare r (a u) (b u).
Definition call (m : method) (a : program k) : program k := fun u => Call m (a u).
Definition call2 (m : arg_method) (a b c : program k) : program k := fun u => Call2 m (a u) (b u) (c u).
Definition vec (v : vector_type) (o : vec_op) (a : program k) : program k := fun u => CallVec v o (Cons (a u) Nil).
Definition n_ (z : Z) : input := Number (z, 0%Z).
Definition d_ (z e : Z) : input := Number (z, e).
Notation meters := (un "meters"). Notation kilometers := (un "kilometers").
Notation dimensionless := (un "dimensionless"). Notation newtons := (un "newtons").
Notation joules := (un "joules"). Notation seconds := (un "seconds").
Notation meters_per_second := (un "meters_per_second"). Notation kilograms := (un "kilograms").

(** tests/float/mod.rs. *)
Definition float_tests : list (string * list (check k)) := [
  ("add_same_unit", [Close [n_ 1; n_ 10; n_ 11] (bin TAdd (meters 0) (meters 1)) (meters 2)]);
  ("add_different_units", [Close [n_ 1; n_ 10; n_ 10001] (bin TAdd (meters 0) (kilometers 1)) (meters 2)]);
  ("add_quantity_type", [Close [n_ 1; n_ 10; n_ 11] (bin TAdd (dimensionless 0) (v_ 1)) (dimensionless 2)]);
  ("add_type_quantity", [Close [n_ 1; n_ 10; n_ 11] (bin TAdd (v_ 1) (dimensionless 0)) (dimensionless 2)]);
  ("add_assign_quantity_quantity", [Close [n_ 1; n_ 10; n_ 10001] (bin TAddAssign (meters 0) (kilometers 1)) (meters 2)]);
  ("add_assign_quantity_type", [Close [n_ 1; n_ 10; n_ 11] (bin TAddAssign (dimensionless 0) (v_ 1)) (dimensionless 2)]);
  ("add_assign_type_quantity", [Close [n_ 1; n_ 10; n_ 11] (bin TAddAssign (v_ 1) (dimensionless 0)) (v_ 2)]);
  ("sub_different_units", [Close [n_ 1; n_ 10; n_ (-9999)] (bin TSub (meters 0) (kilometers 1)) (meters 2)]);
  ("sub_quantity_ref", [Close [n_ 1; n_ 10; n_ (-9)] (bin TSub (meters 0) (meters 1)) (meters 2)]);
  ("sub_quantity_type", [Close [n_ 1; n_ 10; n_ (-9)] (bin TSub (dimensionless 0) (v_ 1)) (dimensionless 2)]);
  ("sub_type_quantity", [Close [n_ 1; n_ 10; n_ 9] (bin TSub (v_ 1) (dimensionless 0)) (dimensionless 2)]);
  ("sub_assign_quantity_quantity", [Close [n_ 1; n_ 10; n_ (-9999)] (bin TSubAssign (meters 0) (kilometers 1)) (meters 2)]);
  ("sub_assign_quantity_type", [Close [n_ 1; n_ 10; n_ (-9)] (bin TSubAssign (dimensionless 0) (v_ 1)) (dimensionless 2)]);
  ("sub_assign_type_quantity", [Close [n_ 1; n_ 10; n_ 9] (bin TSubAssign (v_ 1) (dimensionless 0)) (v_ 2)]);
  ("neg_quantity", [Close [n_ 5; n_ 2; n_ 3] (bin TAdd (meters 0) (fun u => Neg (meters 1 u))) (meters 2);
                    Close [n_ 5; n_ 2; n_ 3] (bin TSub (meters 0) (meters 1)) (meters 2)]);
  ("mul_quantity_quantity", [Close [n_ 2; n_ 3; n_ 6] (bin TMul (newtons 0) (meters 1)) (joules 2)]);
  ("mul_quantity_type", [Close [n_ 2; n_ 3; n_ 6] (bin TMul (newtons 0) (v_ 1)) (newtons 2)]);
  ("mul_type_quantity", [Close [n_ 2; n_ 3; n_ 6] (bin TMul (v_ 1) (newtons 0)) (newtons 2)]);
  ("mul_assign_quantity_quantity", [Close [n_ 2; n_ 3; n_ 6] (bin TMulAssign (newtons 0) (dimensionless 1)) (newtons 2)]);
  ("mul_assign_quantity_type", [Close [n_ 2; n_ 3; n_ 6] (bin TMulAssign (newtons 0) (v_ 1)) (newtons 2)]);
  ("mul_assign_type_quantity", [Close [n_ 3; n_ 2; n_ 6] (bin TMulAssign (v_ 0) (dimensionless 1)) (v_ 2)]);
  ("div_quantity_quantity", [Close [n_ 6; n_ 2; n_ 3] (bin TDiv (meters 0) (seconds 1)) (meters_per_second 2)]);
  ("div_assign_quantity_quantity", [Close [n_ 2; n_ 4; d_ 5 (-1)] (bin TDivAssign (newtons 0) (dimensionless 1)) (newtons 2)]);
  ("div_quantity_type", [Close [n_ 6; n_ 2; n_ 3] (bin TDiv (meters 0) (v_ 1)) (meters 2)]);
  ("div_assign_quantity_type", [Close [n_ 6; n_ 2; n_ 3] (bin TDivAssign (meters 0) (v_ 1)) (meters 2)]);
  ("div_type_quantity", [Close [n_ 2; n_ 6] (bin TDiv (v_ 0) (meters_per_second 1)) (bin TDiv (seconds 0) (meters 1))]);
  ("div_assign_type_quantity", [Close [n_ 6; n_ 2; n_ 3] (bin TDivAssign (v_ 0) (dimensionless 1)) (v_ 2)]);
  ("sqrt_float_quantity", [Close [n_ 6; n_ 2; n_ 3]
     (call MSqrt (bin TDiv (call (MPowi 2) (meters 0)) (call (MPowi 2) (seconds 1)))) (meters_per_second 2)]);
  ("cbrt_float_quantity", [Close [n_ 4; n_ 1]
     (call MCbrt (bin TDiv (call (MPowi 3) (meters 0)) (call (MPowi 3) (seconds 1)))) (meters_per_second 0)]);
  ("constant", [Close [n_ 1; d_ 1988477 24] (un "SOLAR_MASS" 0) (kilograms 1);
                Close [n_ 1; d_ 1988477 24] (un "SOLAR_MASS_GRAMS" 0) (kilograms 1);
                Close [n_ 1; d_ 1988477 24] (un "SOLAR_MASS_AWKWARD" 0) (kilograms 1)]);
  ("log2", [Close [n_ 128; n_ 7] (call (MFn Log2) (dimensionless 0)) (dimensionless 1)]);
  ("deref_dimensionless", [Close [d_ 1283 (-1)] (call MDeref (dimensionless 0)) (v_ 0)]);
  ("partial_eq_quantity_quantity", [True_ [n_ 50] (cmp Eq (meters 0) (meters 0))]);
  ("partial_eq_quantity_type", [True_ [n_ 50] (cmp Eq (dimensionless 0) (v_ 0))]);
  ("partial_eq_type_quantity", [True_ [n_ 50] (cmp Eq (v_ 0) (dimensionless 0))]);
  ("partial_ord_quantity_quantity", [True_ [n_ 50; n_ 49] (cmp Gt (meters 0) (meters 1))]);
  ("partial_ord_quantity_type", [True_ [n_ 50; n_ 49] (cmp Ge (dimensionless 0) (v_ 1))]);
  ("partial_ord_type_quantity", [True_ [n_ 50; n_ 49] (cmp Gt (v_ 0) (dimensionless 1))]);
  ("clamp_quantity_quantity",
     let c i := call2 MClamp (meters i) (meters 0) (kilometers 1) in
     let inputs := [n_ 10; n_ 20; n_ 1; n_ 50; n_ 50000] in
     [True_ inputs (cmp Eq (c 2) (meters 0)); True_ inputs (cmp Eq (c 3) (meters 3));
      True_ inputs (cmp Eq (c 4) (kilometers 1))]);
  ("clamp_quantity_type",
     let c i := call2 MClamp (dimensionless i) (v_ 0) (v_ 1) in
     let inputs := [n_ 10; n_ 20; n_ 5; n_ 15; n_ 50] in
     [True_ inputs (cmp Eq (c 2) (v_ 0)); True_ inputs (cmp Eq (c 3) (dimensionless 3));
      True_ inputs (cmp Eq (c 4) (v_ 1))]);
  ("max_quantity_quantity",
     let c i := call2 MMax (meters i) (meters 0) (meters 0) in let inputs := [n_ 10; n_ 5; n_ 15] in
     [True_ inputs (cmp Eq (c 1) (meters 0)); True_ inputs (cmp Eq (c 2) (meters 2))]);
  ("max_quantity_type",
     let c i := call2 MMax (dimensionless i) (v_ 0) (v_ 0) in let inputs := [n_ 10; n_ 5; n_ 15] in
     [True_ inputs (cmp Eq (c 1) (v_ 0)); True_ inputs (cmp Eq (c 2) (dimensionless 2))]);
  ("min_quantity_quantity",
     let c i := call2 MMin (meters i) (meters 0) (meters 0) in let inputs := [n_ 10; n_ 5; n_ 15] in
     [True_ inputs (cmp Eq (c 1) (meters 1)); True_ inputs (cmp Eq (c 2) (meters 0))]);
  ("min_quantity_type",
     let c i := call2 MMin (dimensionless i) (v_ 0) (v_ 0) in let inputs := [n_ 10; n_ 5; n_ 15] in
     [True_ inputs (cmp Eq (c 1) (dimensionless 1)); True_ inputs (cmp Eq (c 2) (v_ 0))])
].

(** tests/glam/mod.rs, with the vectors of the float type. *)
Definition vec2 f := match f with F32 => Vec2 | F64 => DVec2 end.
Definition vec3 f := match f with F32 => Vec3 | F64 => DVec3 end.
Definition close_components (v : vector_type) (inputs : list input) (p : program k) (expected : list (program k)) : list (check k) :=
  map (fun ae => Close inputs (vec v (VGet (fst ae)) p) (snd ae)) (combine [AxX; AxY; AxZ] expected).
Definition i_ (z : Z) : decimal := (z, 0%Z).
Definition glam_tests f : list (string * list (check k)) := [
  ("mul_vec2", let i := [Components (vec2 f) [i_ 1; i_ 2]; n_ 5; n_ 10] in
     close_components (vec2 f) i (bin TMul (v_ 0) (meters 1)) [meters 1; meters 2] ++
     close_components (vec2 f) i (bin TMul (meters 1) (v_ 0)) [meters 1; meters 2] ++
     [HasType i (bin TMul (meters 1) (v_ 0)) (Vector (vec2 f)) [("length", 1); ("time", 0); ("mass", 0); ("temperature", 0)]%Z]);
  ("mul_quantity_vec2", let i := [Components (vec2 f) [i_ 1; i_ 2]; n_ 5; n_ 10] in
     close_components (vec2 f) i (bin TMul (meters_per_second 0) (seconds 1)) [meters 1; meters 2] ++
     close_components (vec2 f) i (bin TMul (seconds 1) (meters_per_second 0)) [meters 1; meters 2]);
  ("div_vec2", let i := [Components (vec2 f) [i_ 1; i_ 2]; d_ 2 (-1); n_ 1; n_ 5; n_ 10] in
     let base := bin TDiv (v_ 2) (meters 2) in
     close_components (vec2 f) i (bin TDiv (v_ 0) (meters 1)) [bin TMul (v_ 3) base; bin TMul (v_ 4) base]);
  ("mul_vec3", let i := [Components (vec3 f) [i_ 1; i_ 2; i_ 3]; n_ 5; n_ 10; n_ 15] in
     close_components (vec3 f) i (bin TMul (v_ 0) (meters 1)) [meters 1; meters 2; meters 3] ++
     close_components (vec3 f) i (bin TMul (meters 1) (v_ 0)) [meters 1; meters 2; meters 3]);
  ("mul_quantity_vec3", let i := [Components (vec3 f) [i_ 1; i_ 2; i_ 3]; n_ 5; n_ 10; n_ 15] in
     close_components (vec3 f) i (bin TMul (meters_per_second 0) (seconds 1)) [meters 1; meters 2; meters 3] ++
     close_components (vec3 f) i (bin TMul (seconds 1) (meters_per_second 0)) [meters 1; meters 2; meters 3]);
  ("div_vec3", let i := [Components (vec3 f) [i_ 1; i_ 2; i_ 3]; d_ 2 (-1); n_ 1; n_ 5; n_ 10; n_ 15] in
     let base := bin TDiv (v_ 2) (meters 2) in
     close_components (vec3 f) i (bin TDiv (v_ 0) (meters 1)) [bin TMul (v_ 3) base; bin TMul (v_ 4) base; bin TMul (v_ 5) base])
].

(** tests/dimension_defs/mod.rs, tests/type_aliases/mod.rs and the type_mismatch tests of
    crates/diman_unit_system/tests/compile_fail: the types the compiler finds there. *)
Definition no_dimension : list (string * Z) := [("length", 0); ("time", 0); ("mass", 0); ("temperature", 0)]%Z.
Definition type_tests f : list (string * list (check k)) := [
  ("one_over_dimension_def", [HasType [n_ 1; n_ 5] (bin TDiv (v_ 0) (un "kelvins" 1)) (Float f)
      [("length", 0); ("time", 0); ("mass", 0); ("temperature", -1)]%Z]);
  ("exponent_dimension_def",
     let vol := fun u => Times (un "square_meters" 0 u) (u "meters") in
     [HasType [n_ 20] vol (Float f) [("length", 3); ("time", 0); ("mass", 0); ("temperature", 0)]%Z;
      Close [n_ 20] vol (un "cubic_meters" 0)]);
  ("product_1", [HasType [n_ 1; n_ 1] (bin TMul (meters 0) (seconds 1)) (Float f)
      [("length", 1); ("time", 1); ("mass", 0); ("temperature", 0)]%Z]);
  ("quotient_1", [HasType [n_ 1; n_ 1] (bin TDiv (meters 0) (seconds 1)) (Float f)
      [("length", 1); ("time", -1); ("mass", 0); ("temperature", 0)]%Z]);
  ("type_mismatch", let new n i := fun u => New (u n) (Var i) in
     let length := [("length", 1); ("time", 0); ("mass", 0); ("temperature", 0)]%Z in
     let area := [("length", 2); ("time", 0); ("mass", 0); ("temperature", 0)]%Z in
     [(* add_type_quantity *) HasType [n_ 1] (bin TAdd (v_ 0) (new "dimensionless" 0)) (Float f) no_dimension;
      (* dimension *) HasType [n_ 1] (new "meters" 0) (Float f) length;
      (* div_quantity *) HasType [n_ 1] (bin TDiv (new "meters" 0) (new "meters" 0)) (Float f) no_dimension;
      (* div_quantity_type *) HasType [n_ 1] (bin TDiv (v_ 0) (new "dimensionless" 0)) (Float f) no_dimension;
      (* div_type_quantity *) HasType [n_ 1] (bin TDiv (new "dimensionless" 0) (v_ 0)) (Float f) no_dimension;
      (* function_call *) HasType [n_ 1] (call MAbs (new "meters" 0)) (Float f) length;
      (* mul_quantity *) HasType [n_ 1] (bin TMul (new "meters" 0) (new "meters" 0)) (Float f) area;
      (* mul_quantity_type *) HasType [n_ 1] (bin TMul (v_ 0) (new "dimensionless" 0)) (Float f) no_dimension;
      (* mul_type_quantity *) HasType [n_ 1] (bin TMul (new "dimensionless" 0) (v_ 0)) (Float f) no_dimension]);
  ("rejected", [Rejected [n_ 1; n_ 1] (bin TAdd (meters 0) (seconds 1)); Rejected [n_ 1; n_ 1] (bin TAdd (meters 0) (v_ 1));
     Rejected [n_ 1] (call MSqrt (meters 0)); Rejected [n_ 1] (call MValue (meters 0))])
].

(** tests/unit_aliases/mod.rs. *)
Definition alias_tests : list (string * list (check k)) :=
  let same a b i j := True_ [n_ 100; n_ 25] (cmp Eq (un a i) (un b j)) in
  let reads a i b j := Close [n_ 100; n_ 1] (fun u => ValueIn (un a i u) (u b)) (v_ j) in [
  ("unit_aliases", [same "meters" "metres" 0 0; reads "meters" 0 "meters" 0; reads "meters" 0 "metres" 0]);
  ("prefixed_aliases", [same "centimeters" "centimetres" 0 0; reads "centimeters" 0 "meters" 1; reads "centimeters" 0 "metres" 1;
     reads "centimeters" 0 "centimeters" 0; reads "centimeters" 0 "centimetres" 0]);
  ("explicit_prefix", [same "foo" "meters" 0 1; same "kilofoo" "kilometers" 0 1])
].
End Tests.

Example float_tests_pass : forall k f, failures k f example_source (float_tests k) = Some [].
Proof. intros [] []; vm_compute; reflexivity. Qed.
Example glam_tests_pass : forall k f, failures k f example_source (glam_tests k f) = Some [].
Proof. intros [] []; vm_compute; reflexivity. Qed.
Example type_tests_pass : forall f, failures IntegerExponents f example_source (type_tests IntegerExponents f) = Some [].
Proof. intros []; vm_compute; reflexivity. Qed.
Example alias_tests_pass : forall k f, failures k f unit_aliases_source (alias_tests k) = Some [].
Proof. intros [] []; vm_compute; reflexivity. Qed.

(** tests/rational_dimensions/mod.rs. *)
Definition rational_test (f : float_type) : bool :=
  let k := RationalExponents in
  match system_of k rational_source with
  | None => false
  | Some o =>
      let l := un k "micrometers" 0 in let t := un k "milliseconds" 1 in
      let inputs := [n_ 2; n_ 5] in
      let sorptivity := bin k TDiv l (call k MSqrt t) in
      ty_eqb k (type_in k f o inputs sorptivity) (type_in k f o inputs (un k "meters_per_sqrt_second" 0)) &&
      match value_in_ k f o inputs sorptivity, value_in_ k f o inputs l, value_in_ k f o inputs t with
      | Some (FNum s), Some (FNum (RF32 x)), Some (FNum (RF32 y)) => close_raw s (RF32 (f32_div x (f32_sqrt y)))
      | Some (FNum s), Some (FNum (RF64 x)), Some (FNum (RF64 y)) => close_raw s (RF64 (f64_div x (f64_sqrt y)))
      | _, _, _ => false
      end
  end.
Example rational_test_passes : forall f, rational_test f = true.
Proof. intros []; vm_compute; reflexivity. Qed.

(** tests/gas/mod.rs, over the bundled SI system. *)
Section Gas.
Notation k := IntegerExponents.
Notation "a +' b" := (bin k TAdd a b) (at level 50). Notation "a -' b" := (bin k TSub a b) (at level 50).
Notation "a *' b" := (bin k TMul a b) (at level 40). Notation "a /' b" := (bin k TDiv a b) (at level 40).
(** 100e3, 100.0, 293.15, 1004.0, 717.0, 0.5, 1.0, 1e-14. *)
Definition gas_inputs : list input :=
  [n_ 100000; n_ 100; d_ 29315 (-2); n_ 1004; n_ 717; d_ 5 (-1); n_ 1; d_ 1 (-14)].
Definition new_ (n : string) (i : nat) : program k := fun u => New (u n) (Var i).
Definition dim_named (o : defs (ops k)) (n : string) : dimval (ops k) :=
  match find (fun d => String.eqb (d_name d) n) (df_dimensions o) with Some d => full k o (d_dims d) | None => [] end.
Definition gas (o : defs (ops k)) : list (program k * string) * list (program k) :=
  (* IdealGas::air *)
  let cp := new_ "joules_per_kilogram_kelvin" 3 in let cv := new_ "joules_per_kilogram_kelvin" 4 in
  let r := cp -' cv in let gamma := cp /' cv in
  (* Primitive::ntp *)
  let pressure := new_ "pascals" 0 in let v := new_ "meters_per_second" 1 in let temperature := new_ "kelvin" 2 in
  let kinetic v := v_ k 5 *' (fun u => let x := call k (MPowi 2) v u in
    Sum (Float F64) (dim_named o "SpecificEnergy") (Cons x (Cons x (Cons x Nil)))) in
  (* Conservative::from *)
  let density := pressure /' (r *' temperature) in
  let momentum := density *' v in
  let energy := density *' (cv *' temperature +' kinetic v) in
  (* Primitive::from *)
  let velocity := momentum /' density in
  let e_internal := energy /' density -' kinetic velocity in
  let pressure' := (gamma -' v_ k 6) *' density *' e_internal in
  let temperature' := e_internal /' cv in
  ([(density, "MassDensity"); (momentum, "MomentumDensity"); (energy, "EnergyDensity"); (gamma, "Dimensionless");
    (velocity, "Velocity"); (pressure', "Pressure"); (temperature', "Temperature")],
   [cmp k Lt (call k MAbs ((pressure -' pressure') /' pressure)) (v_ k 7);
    cmp k Lt (call k MAbs ((temperature -' temperature') /' temperature)) (v_ k 7)]).
Definition gas_test : option bool :=
  option_map (fun o =>
    forallb (fun pd => ty_eqb k (type_in k F64 o gas_inputs (fst pd)) (Some (quantity (Float F64) (dim_named o (snd pd))))) (fst (gas o)) &&
    forallb (fun p => passes k F64 o (True_ gas_inputs p)) (snd (gas o))) (system_of k si_source).
End Gas.
Example gas_test_passes : gas_test = Some true.
Proof. vm_compute; reflexivity. Qed.

(** ** Debug and serde *)

(** Shortest decimals of the numbers the tests print. *)
Definition printed : list (decimal * text) :=
  [((50, 0), str "50"); ((5000, 0), str "5000"); ((1, 0), str "1"); ((5, 0), str "5"); ((10, 0), str "10");
   ((53, -1), str "5.3"); ((11, -1), str "1.1"); ((22, -1), str "2.2")]%Z.
Definition fmt64 (x : f64) : text :=
  match find (fun p => float_relation Eq x (num64 (fst p))) printed with Some p => snd p | None => str "?" end.
Definition fmt32 (x : f32) : text :=
  match find (fun p => float_relation Eq x (num32 (fst p))) printed with Some p => snd p | None => str "?" end.
Definition text_of (k : mode) (f : float_type) (o : defs (ops k))
  (render : dimval (ops k) -> raw -> option (option text)) (inputs : list input) (p : program k) : option (option text) :=
  match type_in k f o inputs p, value_in_ k f o inputs p with
  | Some (T (TyQ _ d)), Some (FNum x) => render d x
  | _, _ => None
  end.
Definition debug_of k f o := text_of k f o (fun d x =>
  debug (ops k) test_env (CodegenLiteral.lit k) (show k) o d (display fmt32 fmt64 x)).
Definition serialized k f o := text_of k f o (fun d x =>
  serialize (ops k) test_env (CodegenLiteral.lit k) (show k) fmt32 fmt64 o d x).
Definition same_text (a : option (option text)) (b : string) : bool :=
  match a with Some (Some t) => text_eqb t (str b) | _ => false end.

(** tests/debug/mod.rs; tests/glam/mod.rs: debug_vector_2, debug_vector_3; tests/serde/mod.rs:
    serialize. *)
Definition printing_tests k f (o : defs (ops k)) : list bool :=
  let u n := un k n 0 in
  let xs := [(53, -1); (11, -1); (22, -1)]%Z in
  [same_text (debug_of k f o [n_ 50] (u "meters")) "50 m";
   same_text (debug_of k f o [n_ 50] (u "square_meters")) "50 m^2";
   same_text (debug_of k f o [n_ 50] (fun t => Times (u "joules" t) (t "meters"))) "50 m^3 s^-2 kg";
   same_text (debug_of k f o [n_ 50] (u "joules")) "50 J";
   same_text (debug_of k f o [Components (vec2 f) [i_ 1; i_ 5]; n_ 1] (bin k TMul (v_ k 0) (un k "meters" 1))) "[1, 5] m";
   same_text (debug_of k f o [Components (vec3 f) [i_ 1; i_ 5; i_ 10]; n_ 1] (bin k TMul (v_ k 0) (un k "meters" 1))) "[1, 5, 10] m";
   same_text (serialized k f o [n_ 5] (u "kilometers")) "5000 m";
   same_text (serialized k f o [n_ 5] (u "joules")) "5 J";
   same_text (serialized k f o [n_ 5; n_ 1] (bin k TMul (u "joules") (un k "meters" 1))) "5 m^3 s^-2 kg";
   same_text (serialized k f o [Components (vec2 f) (firstn 2 xs)] (u "meters")) "(5.3 1.1) m";
   same_text (serialized k f o [Components (vec2 f) (firstn 2 xs)] (u "dimensionless")) "(5.3 1.1)";
   same_text (serialized k f o [Components (vec3 f) xs] (u "meters")) "(5.3 1.1 2.2) m";
   same_text (serialized k f o [Components (vec3 f) xs] (u "dimensionless")) "(5.3 1.1 2.2)"].

(** tests/serde/mod.rs: deserialize. *)
Definition reads_as k f (o : defs (ops k)) (s : storage) (t : string) (inputs : list input) (expected : list (program k)) : bool :=
  match expected with
  | [] => false
  | p :: _ =>
      match serde_units (ops k) test_env (CodegenLiteral.lit k) o, type_in k f o inputs p with
      | Some us, Some (T (TyQ _ d)) =>
          match deserialize (ops k) (df_base_dimensions o) us test_env s d (EStr (str t)) with
          | Ok r =>
              let parts := match r with RVec32 xs => map RF32 xs | RVec64 xs => map RF64 xs | x => [x] end in
              Nat.eqb (List.length parts) (List.length expected) &&
              forallb (fun re => match value_in_ k f o inputs (snd re) with Some (FNum y) => close_raw (fst re) y | _ => false end)
                      (combine parts expected)
          | _ => false
          end
      | _, _ => false
      end
  end.
Definition refused k f (o : defs (ops k)) (s : storage) (t : string) : bool :=
  match serde_units (ops k) test_env (CodegenLiteral.lit k) o, type_in k f o [n_ 1] (un k "meters" 0) with
  | Some us, Some (T (TyQ _ d)) =>
      match deserialize (ops k) (df_base_dimensions o) us test_env s d (EStr (str t)) with Err => true | _ => false end
  | _, _ => false
  end.
Definition reading_tests k f (o : defs (ops k)) : list bool :=
  let km := un k "kilometers" in
  [reads_as k f o (Float f) "5.0 km" [n_ 5] [km 0];
   reads_as k f o (Float f) "5.0 km s^-1" [n_ 5; n_ 1] [bin k TDiv (km 0) (un k "seconds" 1)];
   refused k f o (Float f) "5.0 kg";
   reads_as k f o (Vector (vec2 f)) "(5.0 3.0) km" [n_ 5; n_ 3] [km 0; km 1];
   refused k f o (Vector (vec2 f)) "(5.0) km"; refused k f o (Vector (vec2 f)) "(5.0 3.0 7.0) km";
   reads_as k f o (Vector (vec3 f)) "(5.0 3.0 7.0) km" [n_ 5; n_ 3; n_ 7] [km 0; km 1; km 2];
   refused k f o (Vector (vec3 f)) "(5.0 4.0) km"; refused k f o (Vector (vec3 f)) "(5.0 3.0 7.0 9.0) km"].
Example printing_tests_pass : forall k f,
  option_map (printing_tests k f) (system_of k example_source) = Some (repeat true 13).
Proof. intros [] []; vm_compute; reflexivity. Qed.
Example reading_tests_pass : forall k f,
  option_map (reading_tests k f) (system_of k example_source) = Some (repeat true 9).
Proof. intros [] []; vm_compute; reflexivity. Qed.
