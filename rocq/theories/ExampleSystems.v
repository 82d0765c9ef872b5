(** * Concrete unit systems used to show that hypotheses are satisfiable, and as witnesses *)
From Coq Require Import String List Bool ZArith Lia.
From Verif Require Import MachineInt Ratio RatioFacts F64 Magnitude MagnitudeFacts Exponent ExponentFacts
  SMap Expression DimensionMath DimensionMathFacts Types Snake Resolve SystemSpec ResolveFacts ResolveAccept
  ResolveEquations ResolveReports Expansion Setting SystemFacts.
Import ListNotations.
Local Open Scope string_scope.
Local Open Scope list_scope.

(** A platform for evaluation: [powi] of compiler-rt and a [powf] that squares (the only power
    used below is the square). *)
Definition env0 : fenv := env_rt (fun x _ => f64_mul x x).
Lemma good0 : good_platform env0 (-1023).
Proof. apply good_rt. Qed.

Section Mode.
Context (k : mode).
Notation X := (ops k).

Definition num (d e : Z) : factor (fac magnitude) X := FVal (Concrete (from_f64 (f64_of_decimal d e))).
Definition nm {C} (n : ident) : factor (fac C) X := FVal (Other n).

(** [dimension Length; dimension Time; dimension Velocity = Length / Time;
     #[base(Length)] #[symbol(m)] #[metric_prefixes] #[alias(metre)] unit meter;
     #[base(Time)] #[symbol(s)] #[prefix(milli)] unit second;
     unit hour: Time = 3600 second;
     unit kph: Velocity = kilometer / hour;
     unit acre = 4046.86 meter^2;
     constant C: Velocity = 299792458 meter / second;] *)
Definition dims : list (dimension_entry X) := [
  {| de_name := "Length"; de_rhs := DefBase tt |};
  {| de_name := "Time"; de_rhs := DefBase tt |};
  {| de_name := "Velocity"; de_rhs := DefExpr (EBin (EVal (nm "Length")) (nm "Time") ODiv) |}].

Definition meter : unit_template X :=
  {| ut_name := "meter"; ut_symbol := Some "m"; ut_aliases := ["metre"];
     ut_prefixes := metric_prefixes []; ut_annotation := None; ut_definition := DefBase "Length" |}.
Definition second : unit_template X :=
  {| ut_name := "second"; ut_symbol := Some "s"; ut_aliases := [];
     ut_prefixes := [Milli]; ut_annotation := None; ut_definition := DefBase "Time" |}.
Definition hour : unit_template X :=
  {| ut_name := "hour"; ut_symbol := Some "h"; ut_aliases := []; ut_prefixes := [];
     ut_annotation := Some "Time";
     ut_definition := DefExpr (EBin (EVal (num 3600 0)) (nm "second") OMul) |}.
Definition kph : unit_template X :=
  {| ut_name := "kph"; ut_symbol := None; ut_aliases := []; ut_prefixes := [];
     ut_annotation := Some "Velocity";
     ut_definition := DefExpr (EBin (EVal (nm "kilometer")) (nm "hour") ODiv) |}.
Definition acre : unit_template X :=
  {| ut_name := "acre"; ut_symbol := None; ut_aliases := []; ut_prefixes := [];
     ut_annotation := None;
     ut_definition := DefExpr (EBin (EVal (num 404686 (-2)))
                                    (FPow (Other "meter") (e_of_i32 X 2)) OMul) |}.
Definition lightspeed : constant_entry X :=
  {| ce_name := "C"; ce_annotation := Some "Velocity";
     ce_rhs := EBin (EBin (EVal (num 299792458 0)) (nm "meter") OMul) (nm "second") ODiv |}.

Definition example : unresolved X (unit_template X) := {|
  u_dimension_types := ["Dimension"]; u_quantity_types := ["Quantity"];
  u_dimensions := dims; u_units := [meter; second; hour; kph; acre];
  u_constants := [lightspeed] |}.
(** The same statements in another order. *)
Definition example_permuted : unresolved X (unit_template X) := {|
  u_dimension_types := ["Dimension"]; u_quantity_types := ["Quantity"];
  u_dimensions := rev dims; u_units := [acre; kph; hour; second; meter];
  u_constants := [lightspeed] |}.

Definition with_units (us : list (unit_template X)) : unresolved X (unit_template X) := {|
  u_dimension_types := ["Dimension"]; u_quantity_types := ["Quantity"];
  u_dimensions := dims; u_units := us; u_constants := [] |}.

(** A cycle, an undefined name, a duplicate name, a mixed kind. *)
Definition unit_from (n m : ident) : unit_template X :=
  {| ut_name := n; ut_symbol := None; ut_aliases := []; ut_prefixes := [];
     ut_annotation := None; ut_definition := DefExpr (EVal (nm m)) |}.
Definition cyclic := with_units [meter; second; unit_from "a" "b"; unit_from "b" "a"; unit_from "c" "a"].
Definition undefined := with_units [meter; second; unit_from "a" "parsec"].
Definition duplicate := with_units [meter; second; unit_from "millimeter" "meter"].
Definition mixed := with_units [meter; second; unit_from "a" "Length"].
(** Two base units for [Length], a base unit for [Velocity], one without symbol. *)
Definition base_unit (n : ident) (s : option ident) (d : ident) : unit_template X :=
  {| ut_name := n; ut_symbol := s; ut_aliases := []; ut_prefixes := [];
     ut_annotation := None; ut_definition := DefBase d |}.
Definition bad_base := with_units
  [meter; base_unit "foot" (Some "ft") "Length"; base_unit "mph" None "Velocity"; base_unit "s" None "Time"].
(** [#[symbol(mm)] unit mile = meter] clashes with the prefixed millimeter. *)
Definition clash := with_units
  [meter; second; {| ut_name := "mile"; ut_symbol := Some "mm"; ut_aliases := []; ut_prefixes := [];
     ut_annotation := None; ut_definition := DefExpr (EVal (nm "meter")) |}].

Definition annotated (n a : ident) (e : expr (fac magnitude) X) : unit_template X :=
  {| ut_name := n; ut_symbol := None; ut_aliases := []; ut_prefixes := [];
     ut_annotation := Some a; ut_definition := DefExpr e |}.

(** [dimension Dimensionless = 1; unit a: Dimensionless = meter]: accepted. *)
Definition false_annotation : unresolved X (unit_template X) := {|
  u_dimension_types := ["Dimension"]; u_quantity_types := ["Quantity"];
  u_dimensions := dims ++
    [{| de_name := "Dimensionless"; de_rhs := DefExpr (EVal (FVal (Concrete tt))) |}];
  u_units := [meter; second; annotated "a" "Dimensionless" (EVal (nm "meter"))];
  u_constants := [] |}.
(** [dimension Angle = Length / Length; unit radian: Angle = 1]: rejected. *)
Definition true_annotation : unresolved X (unit_template X) := {|
  u_dimension_types := ["Dimension"]; u_quantity_types := ["Quantity"];
  u_dimensions := dims ++
    [{| de_name := "Angle"; de_rhs := DefExpr (EBin (EVal (nm "Length")) (nm "Length") ODiv) |}];
  u_units := [meter; second; annotated "radian" "Angle" (EVal (num 1 0))];
  u_constants := [] |}.

Definition accepted (T : unresolved X (unit_template X)) : bool :=
  match run_unit_system X env0 T with Some (_, []) => true | _ => false end.

Lemma accepted_run T : accepted T = true -> exists o, run_unit_system X env0 T = Some (o, []).
Proof.
  unfold accepted. destruct (run_unit_system X env0 T) as [[o [|]]|]; try discriminate. eauto.
Qed.
End Mode.

Lemma example_accepted k : accepted k (example k) = true.
Proof. destruct k; vm_compute; reflexivity. Qed.
Lemma example_permuted_accepted k : accepted k (example_permuted k) = true.
Proof. destruct k; vm_compute; reflexivity. Qed.
Lemma false_annotation_accepted k : accepted k (false_annotation k) = true.
Proof. destruct k; vm_compute; reflexivity. Qed.

(** The diagnostics of the faulty systems. *)
Definition diags k (T : unresolved (ops k) (unit_template (ops k))) : option (list diag) :=
  option_map snd (run_unit_system (ops k) env0 T).
Lemma diags_run k T ds : diags k T = Some ds -> exists o, run_unit_system (ops k) env0 T = Some (o, ds).
Proof.
  unfold diags. destruct (run_unit_system (ops k) env0 T) as [[o d]|]; simpl; intros H; inversion H; subst; eauto.
Qed.
Lemma true_annotation_rejected k : diags k (true_annotation k) = Some [ViolatedAnnotation "Angle"].
Proof. destruct k; vm_compute; reflexivity. Qed.
Lemma cyclic_diags k :
  diags k (cyclic k) = Some [Unresolvable "a"; Unresolvable "b"; Unresolvable "c"].
Proof. destruct k; vm_compute; reflexivity. Qed.
Lemma undefined_diags k : diags k (undefined k) = Some [Undefined "parsec"].
Proof. destruct k; vm_compute; reflexivity. Qed.
Lemma duplicate_diags k :
  diags k (duplicate k) = Some [MultipleDefinitions ["millimeter"; "millimeter"]].
Proof. destruct k; vm_compute; reflexivity. Qed.
Lemma mixed_diags k : diags k (mixed k) = Some [KindNotAllowed "a" "Length" KUnit KDimension].
Proof. destruct k; vm_compute; reflexivity. Qed.
Lemma bad_base_diags k :
  diags k (bad_base k) = Some [MultipleBaseUnits "Length" "foot"; BaseUnitForNonBase "Velocity" "mph";
                               NoSymbol "mph"; NoSymbol "s"].
Proof. destruct k; vm_compute; reflexivity. Qed.
Lemma clash_diags k : diags k (clash k) = Some [SymbolMultiple "mm" ["millimeter"; "mile"]].
Proof. destruct k; vm_compute; reflexivity. Qed.

Lemma example_literals k : template_literals_ok k (example k).
Proof.
  repeat apply conj.
  - intros t e [<-|[<-|[<-|[<-|[<-|[]]]]]] E; try discriminate E; inversion E; subst; clear E; simpl;
      split; try easy; intros c H; repeat destruct H as [H|H]; try easy; inversion H; subst;
      try (eexists; reflexivity); apply (l_of_i32 _ (laws k)).
  - intros c [<-|[]]. simpl. split; try easy. intros x H. repeat destruct H as [H|H]; try easy.
    inversion H; subst. eexists; reflexivity.
  - intros d e [<-|[<-|[<-|[]]]] E; try discriminate E; inversion E; subst; clear E; simpl. easy.
Qed.

(** The hypotheses shared by the theorems about accepted systems hold of [example]. *)
Lemma example_ok k : exists o,
  run_unit_system (ops k) env0 (example k) = Some (o, []) /\ literals_ok k (example k) /\
  good_platform env0 (-1023).
Proof.
  destruct (accepted_run k _ (example_accepted k)) as [o H]. exists o.
  split; [exact H|]. split; [apply template_literals, example_literals|apply good0].
Qed.

(** The recorded exponents of a name in an output. *)
Definition dims_named {X} (o : defs X) (n : ident) : option (bdims X) :=
  match find (fun d => String.eqb (d_name d) n) (df_dimensions o) with
  | Some d => Some (d_dims d)
  | None => option_map un_dims (find (fun u => String.eqb (un_name u) n) (df_units o))
  end.
Lemma dims_named_result X L (o : defs X) n d :
  dims_named o n = Some d -> dim_result X L o n (DimensionMathFacts.vec_of X L d).
Proof.
  unfold dims_named, dim_result. destruct (find _ (df_dimensions o)) as [y|] eqn:E.
  - apply find_some in E as [H1 H2]. apply String.eqb_eq in H2. intros [= <-]. left.
    exists y. repeat split; auto. now apply vec_is_iff.
  - destruct (find _ (df_units o)) as [y|] eqn:E'; [|discriminate]. simpl. intros [= <-]. right. left.
    apply find_some in E' as [H1 H2]. apply String.eqb_eq in H2.
    exists y. repeat split; auto. now apply vec_is_iff.
Qed.

Definition run_dims k (T : unresolved (ops k) (unit_template (ops k))) (n : ident)
  : option (bdims (ops k) * list diag) :=
  match run_unit_system (ops k) env0 T with
  | Some (o, ds) => option_map (fun d => (d, ds)) (dims_named o n)
  | None => None
  end.
Lemma run_dims_result k T n d ds o :
  run_dims k T n = Some (d, ds) -> run_unit_system (ops k) env0 T = Some (o, ds) ->
  dim_result (ops k) (laws k) o n (DimensionMathFacts.vec_of (ops k) (laws k) d).
Proof.
  unfold run_dims. intros H E. rewrite E in H. destruct (dims_named o n) as [d'|] eqn:En; [|discriminate].
  simpl in H. inversion H; subst. now apply dims_named_result.
Qed.

Lemma false_annotation_dims k :
  run_dims k (false_annotation k) "Dimensionless" = Some ([], []) /\
  run_dims k (false_annotation k) "a" = Some ([("length", e_one (ops k))], []).
Proof. destruct k; split; vm_compute; reflexivity. Qed.
Lemma true_annotation_dims k :
  run_dims k (true_annotation k) "Angle" = Some ([("length", e_zero (ops k))], [ViolatedAnnotation "Angle"]) /\
  run_dims k (true_annotation k) "radian" = Some ([], [ViolatedAnnotation "Angle"]).
Proof. destruct k; split; vm_compute; reflexivity. Qed.

Fixpoint nodupb (l : list string) : bool :=
  match l with [] => true | x :: r => negb (existsb (String.eqb x) r) && nodupb r end.
Lemma nodupb_NoDup l : nodupb l = true -> NoDup l.
Proof.
  induction l as [|x l IH]; simpl; intros H; constructor; apply andb_true_iff in H as [H1 H2]; auto.
  intros Hin. apply negb_true_iff in H1. assert (existsb (String.eqb x) l = true); [|congruence].
  apply existsb_exists. exists x. split; auto. apply String.eqb_refl.
Qed.
Lemma systems_unique k :
  Forall (fun T => ResolveReports.unique_names _ (expand_templates T))
    [example k; cyclic k; undefined k; mixed k; bad_base k; clash k].
Proof.
  repeat (constructor; [apply nodupb_NoDup; destruct k; vm_compute; reflexivity|]). constructor.
Qed.
Lemma systems_defined k :
  Forall (fun T => ResolveReports.all_defined _ (expand_templates T))
    [example k; cyclic k; duplicate k; mixed k; bad_base k; clash k].
Proof.
  repeat (constructor; [apply (ResolveReports.all_defined_nil _ _); destruct k; vm_compute; reflexivity|]).
  constructor.
Qed.

(** [unit a = kilometer^4294967296;] *)
Definition big_power : unresolved (int_exp Checked) (unit_template (int_exp Checked)) :=
  with_units IntegerExponents [meter IntegerExponents; second IntegerExponents;
    {| ut_name := "a"; ut_symbol := None; ut_aliases := []; ut_prefixes := []; ut_annotation := None;
       ut_definition := DefExpr (EVal (FPow (Other "kilometer") (4294967296%Z : int_exp Checked))) |}].

Definition unit_named {X} (o : defs X) (n : ident) : option (unit_def X) :=
  find (fun u => String.eqb (un_name u) n) (df_units o).
Definition big_power_check (r : option (defs (int_exp Checked) * list diag)) : Prop :=
  match r with
  | Some (o, []) => match unit_named o "a", unit_named o "kilometer" with
                    | Some a, Some u =>
                        un_dims u = [("length", 1%Z)] /\ un_dims a = [("length", 4294967296%Z)] /\
                        un_mag u = from_f64 (f64_of_Z 1000) /\ un_mag a = from_f64 f64_one
                    | _, _ => False
                    end
  | _ => False
  end.
Lemma big_power_checked : big_power_check (run_unit_system (int_exp Checked) env0 big_power).
Proof. vm_compute. repeat split. Qed.
Lemma big_power_exists r : big_power_check r -> exists o a u,
  r = Some (o, []) /\ In a (df_units o) /\ un_name a = "a" /\ In u (df_units o) /\
  un_name u = "kilometer" /\ un_mag u = from_f64 (f64_of_Z 1000) /\ un_mag a = from_f64 f64_one.
Proof.
  destruct r as [[o [|]]|]; try easy. unfold big_power_check, unit_named.
  destruct (find _ (df_units o)) as [a|] eqn:Ea; [|easy].
  destruct (find (fun u => String.eqb (un_name u) "kilometer") (df_units o)) as [u|] eqn:Eu; [|easy].
  intros (Du & Da & Mu & Ma).
  apply find_some in Ea as [Ia Na]. apply find_some in Eu as [Iu Nu].
  apply String.eqb_eq in Na, Nu. exists o, a, u. auto 10.
Qed.
Lemma big_power_result : exists o a u,
  run_unit_system (int_exp Checked) env0 big_power = Some (o, []) /\
  In a (df_units o) /\ un_name a = "a" /\ In u (df_units o) /\
  un_name u = "kilometer" /\ un_mag u = from_f64 (f64_of_Z 1000) /\ un_mag a = from_f64 f64_one.
Proof. apply big_power_exists, big_power_checked. Qed.
