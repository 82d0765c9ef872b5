(** * C91: the macro panics exactly when the arithmetic on dimension exponents overflows

    [OverflowSpec]: the exponents of every declaration over the rational numbers ([solution]), and
    what it means that the arithmetic for every product, quotient and power on the right-hand side of
    a declaration stays in the range of [i64] ([declaration_fits]).  A declaration counts if it is
    grounded: its definition does not lead back to itself or to an undefined name (otherwise an error
    is reported for it).  Both for integer and for rational exponents. *)
From Coq Require Import String List Bool ZArith QArith Qcanon Qcabs Lia.
From Verif Require Import MachineInt Ratio F64 Magnitude Exponent ExponentFacts SMap Expression DimensionMath
  Types PrefixSpec Snake Resolve ResolveLoop SystemSpec ResolveFacts ResolveReports ExpansionSpec Expansion
  Setting ExampleSystems PropertiesSystem OverflowSpec OverflowFacts OverflowRational.
Import ListNotations.
Local Close Scope Qc_scope.
Local Close Scope Q_scope.
Local Open Scope string_scope.
Local Open Scope list_scope.
Local Open Scope Z_scope.
Notation entries k := (unresolved (ops k) (unit_entry (ops k))).

Theorem C91_panics_exactly_on_overflow : forall k env (T : template k) V,
  unique_names _ (declared T) -> exponents_written k (declared T) -> solution k (declared T) V ->
  run_unit_system (ops k) env T = None <->
  exists x, In x (decls (declared T)) /\ grounded (declared T) (decl_name x) /\ ~ declaration_fits k V x.
Proof.
  intros k env T V N W SV. unfold run_unit_system. apply exponents_written_written in W. rewrite <- (declared_expand) in *.
  exact (resolve_none_iff k env (expand_templates T) V (generated_ok_expand _ T) N W SV).
Qed.
Print Assumptions C91_panics_exactly_on_overflow.

(** There is always a solution, and only one for the grounded names. *)
Theorem C91_solution_exists : forall k (S : entries k), unique_names _ S -> exists V, solution k S V.
Proof. exact solution_exists. Qed.
Print Assumptions C91_solution_exists.

Theorem C91_solution_unique : forall k (S : entries k) V W, unique_names _ S -> solution k S V -> solution k S W ->
  forall n, grounded S n -> forall b, V n b = W n b.
Proof. exact solution_unique. Qed.
Print Assumptions C91_solution_unique.

(** If it does not panic, the solution is what the macro computes. *)
Theorem C91_computes_the_solution : forall k env (T : template k) V o ds,
  unique_names _ (declared T) -> exponents_written k (declared T) -> solution k (declared T) V ->
  run_unit_system (ops k) env T = Some (o, ds) ->
  (forall d, In d (df_dimensions o) -> forall b, listed k (d_dims d) b = V (d_name d) b) /\
  (forall u, In u (df_units o) -> forall b, listed k (un_dims u) b = V (un_name u) b) /\
  (forall c, In c (df_constants o) -> forall b, listed k (c_dims c) b = V (c_name c) b).
Proof.
  intros k env T V o ds N HW SV R. apply exponents_written_written in HW.
  unfold run_unit_system in R. rewrite <- (declared_expand) in *.
  apply (resolve_some (ops k) env) in R as (res & d8 & Hres & -> & _).
  assert (K : forall r ri, sget r res = Some ri -> forall b, qvec (ops k) (laws k) (dm_dims (ri_dims ri)) b = V r b).
  { intros r ri G. destruct (resolved_entry (ops k) env _ _ _ _ _ Hres G) as (_ & _ & I).
    eapply (iden_incl (ops k) env) in I; [|intros i; apply U4_sub]. exact (proj2 (iden_degree k env _ V _ _ HW SV I)). }
  pose proof (resolved_wf (ops k) env _ _ _ Hres) as W.
  assert (N' : forall n r, sget n res = Some r -> it_ident (ri_item r) = n).
  { intros n r G. exact (proj1 (proj2 (resolved_entry (ops k) env _ _ _ _ _ Hres G))). }
  unfold out_of. cbn [df_dimensions df_units df_constants]. split; [|split].
  - intros y Hy b. apply get_dimensions_In in Hy as (n & r & d & G & Et & ->); [|exact W]. cbn [d_dims d_name].
    rewrite listed_qvec, (K n r G). rewrite <- (N' n r G). unfold it_ident. now rewrite Et.
  - intros y Hy b. apply get_units_In in Hy as (n & r & d & G & Et & ->); [|exact W]. cbn [un_dims un_name].
    rewrite listed_qvec, (K n r G). rewrite <- (N' n r G). unfold it_ident. now rewrite Et.
  - intros y Hy b. apply get_constants_In in Hy as (n & r & d & G & Et & ->); [|exact W]. cbn [c_dims c_name].
    rewrite listed_qvec, (K n r G). rewrite <- (N' n r G). unfold it_ident. now rewrite Et.
Qed.
Print Assumptions C91_computes_the_solution.

(** A condition that is easy to check for integer exponents: the absolute exponents on each right-hand
    side add up to less than [2^63]. *)
Theorem C91_small_exponents_never_panic : forall env (T : template IntegerExponents) V,
  unique_names _ (declared T) -> exponents_written IntegerExponents (declared T) -> solution IntegerExponents (declared T) V ->
  (forall x, In x (decls (declared T)) -> forall b, (declaration_weight IntegerExponents V x b < ZQc (2 ^ 63))%Qc) ->
  run_unit_system (ops IntegerExponents) env T <> None.
Proof.
  intros env T V N W SV H R. apply (C91_panics_exactly_on_overflow _ env T V N W SV) in R as (x & Hx & _ & F).
  apply F. apply small_fits. now apply H.
Qed.
Print Assumptions C91_small_exponents_never_panic.

(** For rational exponents: all exponents are multiples of [1/d], and the absolute exponents on each
    right-hand side add up to less than [2^63 / d^2].  With [d = 60], say, the sums may be as large as
    [2 * 10^15]. *)
Theorem C91_common_denominator_never_panics : forall env (T : template RationalExponents) V d,
  unique_names _ (declared T) -> exponents_written RationalExponents (declared T) -> solution RationalExponents (declared T) V ->
  (0 < d)%Z -> (d * d < 2 ^ 63)%Z ->
  (forall x, In x (decls (declared T)) ->
     declaration_in_steps RationalExponents d V x /\
     forall b, (declaration_weight RationalExponents V x b * ZQc (d * d) < ZQc (2 ^ 63))%Qc) ->
  run_unit_system (ops RationalExponents) env T <> None.
Proof.
  intros env T V d N W SV Hd Hdd H R. apply (C91_panics_exactly_on_overflow _ env T V N W SV) in R as (x & Hx & _ & F).
  apply F. destruct (H x Hx) as [Hs Hw]. now apply (light_declaration d Hd Hdd).
Qed.
Print Assumptions C91_common_denominator_never_panics.

(** ** Examples: [dimension A = Length^e1; dimension B = Length^e2 * A] etc. *)
Section Systems.
Context (k : mode).
Definition pow_dim (n m : ident) (p : ops k) : dimension_entry (ops k) :=
  {| de_name := n; de_rhs := DefExpr (EVal (FPow (Other m) p)) |}.
Definition bin_dim (n a b : ident) (op : operator) : dimension_entry (ops k) :=
  {| de_name := n; de_rhs := DefExpr (EBin (EVal (nm k a)) (nm k b) op) |}.
Definition length_dim : dimension_entry (ops k) := {| de_name := "Length"; de_rhs := DefBase tt |}.
Definition only_dims ds : template k := {|
  u_dimension_types := ["Dimension"]; u_quantity_types := ["Quantity"];
  u_dimensions := ds; u_units := []; u_constants := [] |}.
End Systems.
Notation KI := IntegerExponents.
Notation KR := RationalExponents.
Notation ip z := (z%Z : ops KI).
Definition rp (n d : Z) : ops KR := mkRatio n d.
Definition at_length (z : Qc) : degrees := fun b => if String.eqb b (base_dimension_of "Length") then z else Q2Qc 0.
Fixpoint assign (l : list (ident * Qc)) (n : ident) : degrees :=
  match l with
  | [] => fun _ => Q2Qc 0
  | (m, z) :: l => if String.eqb n m then at_length z else assign l n
  end.

(** [A = Length^(2^62); B = A * A]: [2^63] does not fit. *)
Definition too_big := only_dims KI [length_dim KI; pow_dim KI "A" "Length" (ip (2 ^ 62)); bin_dim KI "B" "A" "A" OMul].
(** [A = Length^(2^62); N = Length^(-2^62); B = N / A]: [-2^63] fits. *)
Definition just_fits := only_dims KI [length_dim KI; pow_dim KI "A" "Length" (ip (2 ^ 62));
  pow_dim KI "N" "Length" (ip (- 2 ^ 62)); bin_dim KI "B" "N" "A" ODiv].
(** [N = Length^(-2^63); M = Length^(-1); B = M / N]: [2^63 - 1] fits, but the divisor changes its
    sign first. *)
Definition sign_change := only_dims KI [length_dim KI; pow_dim KI "N" "Length" (ip (- 2 ^ 63));
  pow_dim KI "M" "Length" (ip (-1)); bin_dim KI "B" "M" "N" ODiv].
(** Rational exponents: [A = Length^(1/2^40); B = A * A]: the sum [1/2^39] fits, but the common
    denominator [2^80] does not. *)
Definition denominators := only_dims KR [length_dim KR; pow_dim KR "A" "Length" (rp 1 (2 ^ 40)); bin_dim KR "B" "A" "A" OMul].
(** [A = Length^(1/2^31); B = A * A] fits. *)
Definition small_denominators :=
  only_dims KR [length_dim KR; pow_dim KR "A" "Length" (rp 1 (2 ^ 31)); bin_dim KR "B" "A" "A" OMul].
Definition V_big := assign [("Length", ZQc 1); ("A", ZQc (2 ^ 62)); ("B", ZQc (2 ^ 63))].
Definition V_fits := assign [("Length", ZQc 1); ("A", ZQc (2 ^ 62)); ("N", ZQc (- 2 ^ 62)); ("B", ZQc (- 2 ^ 63))].
Definition V_sign := assign [("Length", ZQc 1); ("N", ZQc (- 2 ^ 63)); ("M", ZQc (-1)); ("B", ZQc (2 ^ 63 - 1))].
Definition V_denominators := assign [("Length", ZQc 1); ("A", Q2Qc (1 # (2 ^ 40))); ("B", Q2Qc (1 # (2 ^ 39)))].
Definition V_small := assign [("Length", ZQc 1); ("A", Q2Qc (1 # (2 ^ 31))); ("B", Q2Qc (1 # (2 ^ 30)))].

Ltac solve_assigned :=
  intros x Hx _ b;
  cbn [decls declared u_dimensions u_units u_constants only_dims too_big just_fits sign_change denominators
       small_denominators map app flat_map In] in Hx;
  repeat (destruct Hx as [<-|Hx];
    [unfold V_big, V_fits, V_sign, V_denominators, V_small;
     cbn [assign decl_name de_name declared_degree de_rhs length_dim pow_dim bin_dim degree fdegree named nm String.eqb
          Ascii.eqb Bool.eqb at_length];
     unfold at_length;
     destruct (String.eqb b (base_dimension_of "Length")); apply Qc_is_canon; reflexivity|]);
  destruct Hx.
Ltac solve_written :=
  intros x p Hx Hp;
  cbn [decls declared u_dimensions u_units u_constants only_dims too_big just_fits sign_change denominators
       small_denominators map app flat_map In] in Hx;
  repeat (destruct Hx as [<-|Hx]; [cbn in Hp; repeat (destruct Hp as [<-|Hp]; [|]); try destruct Hp;
    try (split; [first [exact Logic.I | split; [reflexivity|reflexivity]]|split; split; [now compute|reflexivity|now compute|reflexivity]])|]);
  try destruct Hx.
Definition panics k (T : template k) : bool :=
  match run_unit_system (ops k) env0 T with None => true | Some _ => false end.
Lemma panics_spec k T : run_unit_system (ops k) env0 T = None <-> panics k T = true.
Proof. unfold panics. destruct (run_unit_system (ops k) env0 T); split; congruence. Qed.

Example C91_applies :
  (unique_names _ (declared too_big) /\ exponents_written KI (declared too_big) /\ solution KI (declared too_big) V_big /\
   run_unit_system (ops KI) env0 too_big = None) /\
  (unique_names _ (declared just_fits) /\ exponents_written KI (declared just_fits) /\ solution KI (declared just_fits) V_fits /\
   run_unit_system (ops KI) env0 just_fits <> None) /\
  (unique_names _ (declared sign_change) /\ exponents_written KI (declared sign_change) /\
   solution KI (declared sign_change) V_sign /\ run_unit_system (ops KI) env0 sign_change = None) /\
  (unique_names _ (declared denominators) /\ exponents_written KR (declared denominators) /\
   solution KR (declared denominators) V_denominators /\ run_unit_system (ops KR) env0 denominators = None) /\
  (unique_names _ (declared small_denominators) /\ exponents_written KR (declared small_denominators) /\
   solution KR (declared small_denominators) V_small /\ run_unit_system (ops KR) env0 small_denominators <> None).
Proof.
  rewrite !panics_spec. repeat apply conj.
  all: try (unfold unique_names; cbn; repeat constructor; cbn; intuition discriminate).
  all: try solve [solve_assigned].
  all: try solve [solve_written].
  all: try reflexivity.
Qed.

(** [small_denominators] with [d = 2^31]. *)
Example C91_common_denominator_applies :
  (2 ^ 31 * 2 ^ 31 < 2 ^ 63)%Z /\
  forall x, In x (decls (declared small_denominators)) ->
     declaration_in_steps RationalExponents (2 ^ 31) V_small x /\
     forall b, (declaration_weight RationalExponents V_small x b * ZQc (2 ^ 31 * 2 ^ 31) < ZQc (2 ^ 63))%Qc.
Proof.
  split; [reflexivity|]. intros x Hx.
  assert (Z0 : in_steps (2 ^ 31) (Q2Qc 0)) by (exists 0; now apply Qc_is_canon).
  assert (Z1 : in_steps (2 ^ 31) (ZQc 1)) by (exists (2 ^ 31); now apply Qc_is_canon).
  assert (Zs : in_steps (2 ^ 31) (Q2Qc (1 # 2 ^ 31))) by (exists 1; now apply Qc_is_canon).
  cbn [decls declared u_dimensions u_units u_constants only_dims small_denominators map app flat_map In] in Hx.
  destruct Hx as [<-|[<-|[<-|[]]]].
  - split; [exact Logic.I|]. intros b. reflexivity.
  - split.
    + change (in_steps (2 ^ 31) (l_val _ (laws KR) (rp 1 (2 ^ 31))) /\ forall b, in_steps (2 ^ 31) (at_length (ZQc 1) b) /\
        in_steps (2 ^ 31) (at_length (ZQc 1) b * l_val _ (laws KR) (rp 1 (2 ^ 31)))%Qc).
      assert (Zp : in_steps (2 ^ 31) (l_val _ (laws KR) (rp 1 (2 ^ 31)))) by (exists 1; now apply Qc_is_canon).
      split; [exact Zp|]. intros b. unfold at_length. destruct (String.eqb b _); (split; [assumption|]).
      * exists 1. now apply Qc_is_canon.
      * exists 0. now apply Qc_is_canon.
    + intros b. change (Qcabs (at_length (ZQc 1) b * l_val _ (laws KR) (rp 1 (2 ^ 31))) * ZQc (2 ^ 31 * 2 ^ 31) < ZQc (2 ^ 63))%Qc.
      unfold at_length. destruct (String.eqb b _); reflexivity.
  - split.
    + change ((forall b, in_steps (2 ^ 31) (at_length (Q2Qc (1 # 2 ^ 31)) b)) /\ (forall b, in_steps (2 ^ 31) (at_length (Q2Qc (1 # 2 ^ 31)) b))).
      split; intros b; unfold at_length; destruct (String.eqb b _); assumption.
    + intros b. change ((Qcabs (at_length (Q2Qc (1 # 2 ^ 31)) b) + Qcabs (at_length (Q2Qc (1 # 2 ^ 31)) b)) * ZQc (2 ^ 31 * 2 ^ 31) < ZQc (2 ^ 63))%Qc.
      unfold at_length. destruct (String.eqb b _); reflexivity.
Qed.
