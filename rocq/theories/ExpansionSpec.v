(** * Specification: what a unit statement declares

    A unit statement with prefixes and aliases declares one unit for every choice of (one of the
    prefixes or none) and (one of the aliases or the unit's own name).  All of them measure the same
    dimension and carry the same annotation; the value of a variant is the power of ten of its prefix
    times the unit; only the variants without alias have a symbol.  Dimensions, constants and the two
    type names are declared as they are written. *)
From Coq Require Import String List Bool ZArith.
From Verif Require Import F64 Magnitude Exponent Expression Types PrefixSpec.
Import ListNotations.
Local Open Scope list_scope.

Section Spec.
Context {X : exp_ops}.

Definition variant_name (t : unit_template X) (p : option prefix) (a : option ident) : ident :=
  (match p with Some p => si_name p | None => "" end ++ match a with Some a => a | None => ut_name t end)%string.
Definition variant_symbol (t : unit_template X) (p : option prefix) (a : option ident) : option ident :=
  match a, p, ut_symbol t with
  | None, None, Some s => Some s
  | None, Some p, Some s => Some (si_symbol p ++ s)%string
  | _, _, _ => None
  end.
(** [10^n * unit] with [n = 0] for a mere alias; the number is stored as the nearest double. *)
Definition variant_definition (t : unit_template X) (p : option prefix) (a : option ident)
  : definition X ident magnitude :=
  let power := match p with Some p => si_power p | None => 0%Z end in
  let scaled := DefExpr (EBin (EVal (FVal (Concrete (from_f64 (f64_of_decimal 1 power)))))
                              (FVal (Other (ut_name t))) OMul) in
  match p, a with None, None => ut_definition t | Some _, _ => scaled | None, Some _ => scaled end.
Definition variant (t : unit_template X) (p : option prefix) (a : option ident) : unit_entry X := {|
  ue_name := variant_name t p a; ue_symbol := variant_symbol t p a; ue_annotation := ut_annotation t;
  ue_definition := variant_definition t p a;
  ue_autogenerated_from := match p, a with None, None => None | _, _ => Some (ut_name t) end |}.

(** [p] is one of the prefixes of [t] or none; [a] is one of its aliases or none. *)
Definition chosen {A} (l : list A) (x : option A) : Prop :=
  match x with Some y => In y l | None => True end.
Definition is_variant (t : unit_template X) (u : unit_entry X) : Prop :=
  exists p a, chosen (ut_prefixes t) p /\ chosen (ut_aliases t) a /\ u = variant t p a.

(** The system with every variant written out (prefixed ones first, in the order written). *)
Definition options {A} (l : list A) : list (option A) := map Some l ++ [None].
Definition declared (T : unresolved X (unit_template X)) : unresolved X (unit_entry X) := {|
  u_dimension_types := u_dimension_types T; u_quantity_types := u_quantity_types T;
  u_dimensions := u_dimensions T; u_constants := u_constants T;
  u_units := flat_map (fun t => flat_map (fun p => map (variant t p) (options (ut_aliases t)))
                                         (options (ut_prefixes t))) (u_units T) |}.

Lemma declared_units T u : In u (u_units (declared T)) <-> exists t, In t (u_units T) /\ is_variant t u.
Proof.
  assert (O : forall A (l : list A) x, In x (options l) <-> chosen l x).
  { intros A l x. unfold options. rewrite in_app_iff, in_map_iff. destruct x as [x|]; cbn [chosen In].
    - split; [intros [(y & [= ->] & H)|[H|[]]]; [auto|discriminate]|eauto].
    - split; auto. }
  cbn [declared u_units]. rewrite in_flat_map. split; intros (t & Ht & H); exists t; (split; [exact Ht|]).
  - apply in_flat_map in H as (p & Hp & H). apply in_map_iff in H as (a & <- & Ha).
    exists p, a. rewrite <- !O. auto.
  - destruct H as (p & a & Hp & Ha & ->). apply in_flat_map. exists p. rewrite O. split; auto.
    apply in_map_iff. exists a. rewrite O. auto.
Qed.

(** ** The model's expansion agrees *)
Lemma expand_one_variant t p a : expand_one t p a = variant t p a.
Proof.
  unfold expand_one, variant, format_name, variant_name, format_symbol, variant_symbol, get_definition,
    variant_definition, prefix_factor.
  f_equal.
  - destruct p as [p|], a; rewrite ?prefix_name_si; reflexivity.
  - destruct p as [p|], a; rewrite ?prefix_short_si; destruct (ut_symbol t); reflexivity.
  - destruct p as [p|]; rewrite ?prefix_decimal_si; destruct a; reflexivity.
Qed.
Lemma declared_expand T : expand_templates T = declared T.
Proof.
  unfold expand_templates, declared. f_equal.
  apply flat_map_ext. intros t. unfold expand, options. apply flat_map_ext. intros p.
  apply map_ext. intros a. apply expand_one_variant.
Qed.
End Spec.
