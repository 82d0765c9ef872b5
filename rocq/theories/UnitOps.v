(** * Model of codegen/unit_type.rs, [value_in] of codegen/quantity_type.rs, and
    codegen/units_and_constants.rs: operators between units, quantities and bare numbers

    Types are carried by the values: [None] means that no impl applies, i.e. a compile error (an
    aborted const evaluation included). *)
From Coq Require Import String ZArith Bool List.
From Verif Require Import MachineInt Ratio F64 Magnitude Exponent SMap Types CodegenDimension Storage Raw.
Import ListNotations.

Section Units.
Context (X : exp_ops) (fields : list string) (env : fenv).
Notation dimval := (dimval X).

(** unit_type.rs:13-14: [Unit<D, F>] (no run-time content) and [RuntimeUnit<D>(magnitude)];
    [Quantity<S, D>(x)]; a bare number. *)
Inductive thing :=
| UnitC (d : dimval) (f : magnitude)
| UnitR (d : dimval) (f : magnitude)
| Quant (d : dimval) (x : raw)
| Number (x : raw).

Definition quant (d : option dimval) (x : option raw) : option thing :=
  let? d := d in let? x := x in Some (Quant d x).

(** [l * r]. *)
Definition unit_mul (l r : thing) : option thing :=
  match l, r with
  (* unit_type.rs:24-32 *)
  | UnitC dl fl, UnitC dr fr => let? d := dim_add X fields dl dr in Some (UnitR d (mag_mul env fl fr))
  (* unit_type.rs:46-56 *)
  | UnitC dl fl, Quant dr x => quant (dim_add X fields dl dr) (raw_mul_mag env x fl)
  (* unit_type.rs:59-69 *)
  | Quant dl x, UnitC dr fr => quant (dim_add X fields dl dr) (raw_mul_mag env x fr)
  (* unit_type.rs:107-117 *)
  | UnitR dl f, Quant dr x => quant (dim_add X fields dl dr) (raw_mul_mag env x f)
  (* unit_type.rs:120-130 *)
  | Quant dl x, UnitR dr f => quant (dim_add X fields dl dr) (raw_mul_mag env x f)
  (* unit_type.rs:201-206, 233-238 *)
  | Number x, UnitC d f => quant (Some d) (raw_mul x (conversion env x f))
  | Number x, UnitR d f => quant (Some d) (raw_mul x (conversion env x f))
  (* unit_type.rs:217-222, 249-254 *)
  | UnitC d f, Number x => quant (Some d) (raw_mul (conversion env x f) x)
  | UnitR d f, Number x => quant (Some d) (raw_mul (conversion env x f) x)
  | _, _ => None
  end.

(** [l / r]. *)
Definition unit_div (l r : thing) : option thing :=
  match l, r with
  (* unit_type.rs:35-43 *)
  | UnitC dl fl, UnitC dr fr => let? d := dim_sub X fields dl dr in Some (UnitR d (mag_div env fl fr))
  (* unit_type.rs:72-82: [x.value_unchecked() / FL] *)
  | UnitC dl fl, Quant dr x => quant (dim_sub X fields dl dr) (raw_div_mag env x fl)
  (* unit_type.rs:85-95 *)
  | Quant dl x, UnitC dr fr => quant (dim_sub X fields dl dr) (raw_div_mag env x fr)
  (* unit_type.rs:133-143: [x.value_unchecked() / self.0] *)
  | UnitR dl f, Quant dr x => quant (dim_sub X fields dl dr) (raw_div_mag env x f)
  (* unit_type.rs:146-156 *)
  | Quant dl x, UnitR dr f => quant (dim_sub X fields dl dr) (raw_div_mag env x f)
  (* unit_type.rs:209-214, 241-246: output dimension [D] *)
  | Number x, UnitC d f => quant (Some d) (raw_div x (conversion env x f))
  | Number x, UnitR d f => quant (Some d) (raw_div x (conversion env x f))
  (* unit_type.rs:225-230, 257-262 *)
  | UnitC d f, Number x => quant (Some d) (raw_div (conversion env x f) x)
  | UnitR d f, Number x => quant (Some d) (raw_div (conversion env x f) x)
  | _, _ => None
  end.

(** unit_type.rs:97-104, 158-165: [u.new(x)]. *)
Definition unit_new (u : thing) (x : raw) : option thing :=
  match u with
  | UnitC d f => quant (Some d) (raw_mul_mag env x f)
  | UnitR d f => quant (Some d) (raw_mul_mag env x f)
  | _ => None
  end.

(** unit_type.rs:167-177: [Into<Magnitude>]. *)
Definition into_magnitude (u : thing) : option magnitude :=
  match u with UnitC _ f => Some f | UnitR _ f => Some f | _ => None end.

(** quantity_type.rs:60-67: [q.value_in(u)]; no relation between the dimensions is asked for. *)
Definition value_in (q u : thing) : option raw :=
  match q with
  | Quant _ x => let? m := into_magnitude u in raw_div_mag env x m
  | _ => None
  end.
End Units.
Arguments UnitC {X}. Arguments UnitR {X}. Arguments Quant {X}. Arguments Number {X}.
