(** * The generated modules: when their names are valid, for any resolved system *)
From Coq Require Import String Ascii List Bool ZArith Lia Sorted.
From Verif Require Import MachineInt Ratio F64 Magnitude Exponent ExponentFacts SMap Expression
  DimensionMath DimensionMathFacts Types PrefixSpec ExpansionSpec Snake Resolve ResolveLoop ResolveChecks
  SystemSpec ResolveFacts ResolveAccept ResolveEquations ResolveReports Expansion Setting SystemFacts
  ExampleSystems PropertiesSystem CodegenDimension CodegenDimensionFacts PropertiesDimension
  Parse Grammar ParseFacts ParsedSystems NamesSpec CodegenModules.
Import ListNotations.
Local Close Scope Z_scope.
Local Open Scope string_scope.
Local Open Scope list_scope.

(** ** The generated modules, for any resolved system *)
Section Gen.
Context {X : exp_ops} (ft : gen_features) (o : defs X).
Notation P := (generated ft o).
Notation valid := (names_valid entity spaces P).

Lemma introduces_In s n e (l : list (string * entity)) :
  In (s, n, e) (flat_map (introduces entity spaces) l) <-> In (n, e) l /\ In s (spaces e).
Proof.
  rewrite in_flat_map. split.
  - intros ([m f] & Hm & H). apply in_map_iff in H as (s' & E & Hs). cbn [fst snd] in *.
    assert (s' = s /\ m = n /\ f = e) as (-> & -> & ->) by (repeat split; congruence). auto.
  - intros [H Hs]. exists (n, e). split; [exact H|]. apply in_map_iff. exists s. auto.
Qed.
Lemma named_In n (b : binding entity) l : In b (named entity n l) <-> In b l /\ snd (fst b) = n.
Proof. unfold named. rewrite filter_In, String.eqb_eq. reflexivity. Qed.

Lemma outer_In s n e : In (s, n, e) (outer_scope entity spaces P) ->
  (In (n, e) (root_items ft o) /\ In s (spaces e)) \/ (n = "Unit" /\ e = EnUnit).
Proof.
  unfold outer_scope. rewrite in_app_iff. intros [H|H].
  - left. now apply introduces_In.
  - right. cbn in H. destruct H as [H|[H|[]]]; split; congruence.
Qed.
Lemma root_dimension n : In (n, EnDimension) (root_items ft o) -> n = df_dimension_type o.
Proof.
  unfold root_items, serde_items, rand_items.
  destruct (g_serde ft), (g_rand ft); cbn [app In];
    intros H; repeat (destruct H as [H|H]; [try discriminate H; congruence|]); destruct H.
Qed.
Lemma root_quantity n : In (n, EnQuantity) (root_items ft o) -> n = df_quantity_type o.
Proof.
  unfold root_items, serde_items, rand_items.
  destruct (g_serde ft), (g_rand ft); cbn [app In];
    intros H; repeat (destruct H as [H|H]; [try discriminate H; congruence|]); destruct H.
Qed.

Lemma type_names_needed : valid -> df_dimension_type o = "Dimension" /\ df_quantity_type o = "Quantity".
Proof.
  intros V.
  assert (Hm : In unit_type_module (p_modules _ P)) by (right; now left).
  assert (K : forall n e, e = EnDimension \/ e = EnQuantity ->
     In (Types, n, e) (inner_scope entity spaces P unit_type_module) -> In (n, e) (root_items ft o)).
  { intros n e He H. unfold inner_scope in H. apply in_app_iff in H as [H|H].
    - apply in_flat_map in H as (m & _ & H). apply named_In in H as [H _].
      apply outer_In in H as [[H _]|[_ ->]]; [exact H|destruct He; discriminate].
    - unfold module_items in H. apply introduces_In in H as [H _]. cbn in H.
      repeat (destruct H as [H|H]; [destruct He as [->| ->]; discriminate H|]). destruct H. }
  split; symmetry.
  - apply root_dimension, K; [now left|]. apply (inner_mentions _ _ _ V unit_type_module); [exact Hm|].
    cbn. do 8 right. now left.
  - apply root_quantity, K; [now right|]. apply (inner_mentions _ _ _ V unit_type_module); [exact Hm|].
    cbn. do 9 right. now left.
Qed.
End Gen.

Lemma nodup_app_iff {A} (l m : list A) : NoDup (l ++ m) <-> NoDup l /\ NoDup m /\ forall x, In x l -> ~ In x m.
Proof.
  induction l as [|a l IH]; cbn [app].
  - split; [intros H; repeat split; [constructor|exact H|intros x []]|tauto].
  - split.
    + intros H. inversion H as [|? ? Ha Hl]; subst. apply IH in Hl as (N & M & D). rewrite in_app_iff in Ha.
      split; [constructor; tauto|]. split; [exact M|]. intros x [<-|Hx]; [tauto|auto].
    + intros (N & M & D). inversion N as [|? ? Ha Hl]; subst. constructor.
      * rewrite in_app_iff. intros [H|H]; [tauto|]. exact (D a (or_introl eq_refl) H).
      * apply IH. repeat split; [exact Hl|exact M|]. intros x Hx. apply D. now right.
Qed.

Definition tagged (k : namespace * string) : string :=
  (match fst k with Types => "t" | Values => "v" end ++ snd k)%string.
Lemma nodup_keys l : nodupb (map tagged l) = true -> NoDup l.
Proof. intros H. apply nodupb_iff in H. exact (NoDup_map_inv _ _ H). Qed.

Definition gen_ok {X} (o : defs X) : Prop :=
  df_dimension_type o = "Dimension" /\ df_quantity_type o = "Quantity" /\
  (NoDup (map d_name (df_dimensions o)) /\
     forall n, In n ["Dimension"; "Quantity"; "Exponent"] -> ~ In n (map d_name (df_dimensions o))) /\
  (NoDup (map un_name (df_units o)) /\ ~ In "Unit" (map un_name (df_units o))) /\
  (NoDup (map c_name (df_constants o)) /\ ~ In "Unit" (map c_name (df_constants o))) /\
  NoDup (df_base_dimensions o) /\
  (forall n, In n (map d_name (df_dimensions o) ++ map un_name (df_units o) ++ map c_name (df_constants o)
       ++ df_base_dimensions o) -> is_name n).

Section Iff.
Context {X : exp_ops} (ft : gen_features) (o : defs X).
Hypothesis Ed : df_dimension_type o = "Dimension".
Hypothesis Eq : df_quantity_type o = "Quantity".

Lemma keys_items (A : Type) (l : list A) (f : A -> string) e s : spaces e = [s] ->
  map fst (flat_map (introduces entity spaces) (map (fun a => (f a, e)) l)) = map (fun n => (s, n)) (map f l).
Proof.
  intros E. induction l as [|a l IH]; [easy|]. cbn [map flat_map]. rewrite map_app.
  apply (f_equal2 (@app _) (y1 := [(s, f a)])); [|exact IH].
  unfold introduces. cbn [fst snd]. now rewrite E.
Qed.
Lemma nodup_tag {A B} (s : A) (l : list B) : NoDup (map (fun n => (s, n)) l) <-> NoDup l.
Proof.
  split; [apply NoDup_map_inv|]. intros H. apply FinFun.Injective_map_NoDup; [|exact H].
  intros a b E. congruence.
Qed.
Lemma in_tag {A B} (s s' : A) (l : list B) n : In (s', n) (map (fun n => (s, n)) l) <-> s' = s /\ In n l.
Proof.
  rewrite in_map_iff. split.
  - intros (x & E & Hx). split; congruence.
  - intros [-> H]. exists n. auto.
Qed.

Lemma scope_dimensions :
  map fst (inner_scope entity spaces (generated ft o) (dimensions_module o)) =
  [(Types, "Dimension"); (Types, "Quantity"); (Values, "Quantity"); (Types, "Exponent")]
  ++ map (fun n => (Types, n)) (map d_name (df_dimensions o)).
Proof.
  unfold inner_scope. rewrite map_app. f_equal.
  - unfold outer_scope, generated, p_items, root_items, dimensions_module, m_super. rewrite Ed, Eq.
    destruct (g_libm ft), (g_serde ft), (g_rand ft); reflexivity.
  - unfold module_items, dimensions_module, m_items. now rewrite (keys_items _ _ _ _ Types).
Qed.
Lemma scope_unit_type :
  no_clash entity (inner_scope entity spaces (generated ft o) unit_type_module).
Proof.
  unfold no_clash, inner_scope. rewrite map_app.
  unfold outer_scope, generated, p_items, root_items, unit_type_module, m_super. rewrite Ed, Eq.
  destruct (g_libm ft), (g_serde ft), (g_rand ft);
    apply nodup_keys; reflexivity.
Qed.
Lemma scope_units :
  map fst (inner_scope entity spaces (generated ft o) (units_module o)) =
  [(Types, "Magnitude"); (Types, "Unit"); (Values, "Unit"); (Types, "Dimension"); (Types, "Exponent")]
  ++ map (fun n => (Values, n)) (map un_name (df_units o)).
Proof.
  unfold inner_scope. rewrite map_app. f_equal.
  - unfold outer_scope, generated, p_items, root_items, units_module, m_super. rewrite Ed, Eq.
    destruct (g_libm ft), (g_serde ft), (g_rand ft); reflexivity.
  - unfold module_items, units_module, m_items. now rewrite (keys_items _ _ _ _ Values).
Qed.
Lemma scope_constants :
  map fst (inner_scope entity spaces (generated ft o) (constants_module o)) =
  [(Types, "Magnitude"); (Types, "Unit"); (Values, "Unit"); (Types, "Dimension"); (Types, "Exponent")]
  ++ map (fun n => (Values, n)) (map c_name (df_constants o)).
Proof.
  unfold inner_scope. rewrite map_app. f_equal.
  - unfold outer_scope, generated, p_items, root_items, constants_module, m_super. rewrite Ed, Eq.
    destruct (g_libm ft), (g_serde ft), (g_rand ft); reflexivity.
  - unfold module_items, constants_module, m_items. now rewrite (keys_items _ _ _ _ Values).
Qed.
Lemma imported :
  flat_map (fun n => named entity n (outer_scope entity spaces (generated ft o))) (m_super _ (dimensions_module o)) =
    [(Types, "Dimension", EnDimension); (Types, "Quantity", EnQuantity); (Values, "Quantity", EnQuantity);
     (Types, "Exponent", EnExponent)] /\
  flat_map (fun n => named entity n (outer_scope entity spaces (generated ft o))) (m_super _ unit_type_module) =
    [(Types, "Dimension", EnDimension); (Types, "Magnitude", EnMagnitude); (Types, "Quantity", EnQuantity);
     (Values, "Quantity", EnQuantity)] /\
  forall m, m = units_module o \/ m = constants_module o ->
  flat_map (fun n => named entity n (outer_scope entity spaces (generated ft o))) (m_super _ m) =
    [(Types, "Magnitude", EnMagnitude); (Types, "Unit", EnUnit); (Values, "Unit", EnUnit);
     (Types, "Dimension", EnDimension); (Types, "Exponent", EnExponent)].
Proof.
  unfold outer_scope, generated, p_items, root_items, dimensions_module, m_super at 1 2. rewrite Ed, Eq.
  split; [|split; [|intros m [->| ->]]];
    destruct (g_libm ft), (g_serde ft), (g_rand ft); reflexivity.
Qed.
Lemma clash_dimensions : no_clash entity (inner_scope entity spaces (generated ft o) (dimensions_module o)) <->
  NoDup (map d_name (df_dimensions o)) /\
     forall n, In n ["Dimension"; "Quantity"; "Exponent"] -> ~ In n (map d_name (df_dimensions o)).
Proof.
  unfold no_clash. rewrite scope_dimensions, nodup_app_iff, nodup_tag. split.
  - intros (_ & N & D). split; [exact N|]. intros n Hn I. apply (D (Types, n)); [|now apply in_tag].
    cbn in Hn |- *. destruct Hn as [<-|[<-|[<-|[]]]]; auto.
  - intros (N & D). split; [|split; [exact N|]].
    + repeat constructor; cbn [In]; intros H; repeat (destruct H as [H|H]; [discriminate H|]); destruct H.
    + intros [s n] H I. apply in_tag in I as [-> I]. apply (D n); [|exact I].
      cbn in H |- *. destruct H as [H|[H|[H|[H|[]]]]]; inversion H; auto.
Qed.
Lemma clash_values (l : list string) :
  NoDup ([(Types, "Magnitude"); (Types, "Unit"); (Values, "Unit"); (Types, "Dimension"); (Types, "Exponent")]
     ++ map (fun n => (Values, n)) l) <-> NoDup l /\ ~ In "Unit" l.
Proof.
  rewrite nodup_app_iff, nodup_tag. split.
  - intros (_ & N & D). split; [exact N|]. intros I. apply (D (Values, "Unit")); [|now apply in_tag]. cbn. auto.
  - intros (N & D). split; [|split; [exact N|]].
    + repeat constructor; cbn [In]; intros H; repeat (destruct H as [H|H]; [discriminate H|]); destruct H.
    + intros [s n] H I. apply in_tag in I as [-> I].
      cbn in H. destruct H as [H|[H|[H|[H|[H|[]]]]]]; inversion H; subst; tauto.
Qed.
Lemma clash_outer : no_clash entity (outer_scope entity spaces (generated ft o)).
Proof.
  unfold no_clash, outer_scope, generated, p_items, root_items. rewrite Ed, Eq.
  destruct (g_libm ft), (g_serde ft), (g_rand ft);
    apply nodup_keys; reflexivity.
Qed.
End Iff.

Lemma names_iff {X} (ft : gen_features) (o : defs X) :
  names_valid entity spaces (generated ft o) <-> gen_ok o.
Proof.
  split.
  - intros V. destruct (type_names_needed ft o V) as [Ed Eq]. split; [exact Ed|]. split; [exact Eq|].
    split; [apply (clash_dimensions ft o Ed Eq), (inner_clash _ _ _ V); now left|].
    split; [|split; [|split]].
    + pose proof (inner_clash _ _ _ V (units_module o) ltac:(right; right; now left)) as H.
      unfold no_clash in H. rewrite (scope_units ft o Ed Eq) in H. now apply clash_values.
    + pose proof (inner_clash _ _ _ V (constants_module o) ltac:(right; right; right; now left)) as H.
      unfold no_clash in H. rewrite (scope_constants ft o Ed Eq) in H. now apply clash_values.
    + apply (fields_once _ _ _ V). now left.
    + intros n Hn. apply (no_keywords _ _ _ V). unfold identifiers. apply in_app_iff. right.
      cbn [generated p_modules flat_map m_items dimensions_module units_module constants_module p_structs concat].
      rewrite !map_map. cbn [fst]. rewrite !in_app_iff in *. tauto.
  - intros (Ed & Eq & Hd & Hu & Hc & Hf & Hk). constructor.
    + exact (clash_outer ft o Ed Eq).
    + intros m [<-|[<-|[<-|[<-|[]]]]].
      * now apply (clash_dimensions ft o Ed Eq).
      * exact (scope_unit_type ft o Ed Eq).
      * unfold no_clash. rewrite (scope_units ft o Ed Eq). now apply clash_values.
      * unfold no_clash. rewrite (scope_constants ft o Ed Eq). now apply clash_values.
    + intros u [<-|[]]. discriminate.
    + intros m n Hm Hn. unfold outer_scope, generated, p_items, root_items. rewrite Ed, Eq.
      destruct Hm as [<-|[<-|[<-|[<-|[]]]]]; cbn [dimensions_module unit_type_module units_module constants_module m_super] in Hn;
        rewrite ?Ed, ?Eq in Hn;
        repeat (destruct Hn as [<-|Hn]; [destruct (g_libm ft), (g_serde ft), (g_rand ft); discriminate|]); destruct Hn.
    + intros s n e H. unfold outer_scope, generated, p_items, root_items. rewrite Ed, Eq. apply in_app_iff.
      cbn [generated p_mentions mentions_of] in H. unfold mentions_of, literal_names, unit_names in H. rewrite Ed, Eq in H.
      rewrite introduces_In.
      destruct (g_vectors ft), (g_serde ft); cbn [app In] in H;
        repeat (destruct H as [H|H]; [first [discriminate H |
          (injection H as <- <- <-; left; split; [cbn [app In]; tauto | cbn; tauto])]|]); destruct H.
    + intros m s n e Hm H. unfold inner_scope. rewrite in_app_iff.
      cbn [generated p_mentions] in H. unfold mentions_of, literal_names, unit_names in H. rewrite Ed, Eq in H.
      destruct (imported ft o Ed Eq) as (I1 & I2 & I3).
      destruct Hm as [<-|[<-|[<-|[<-|[]]]]];
        cbn [dimensions_module unit_type_module units_module constants_module m_name] in H.
      * left. rewrite I1. destruct (g_vectors ft), (g_serde ft); cbn [app In] in H |- *;
          repeat (destruct H as [H|H]; [first [discriminate H | (injection H as <- <- <-; tauto)]|]); destruct H.
      * rewrite I2. cbn. destruct (g_vectors ft), (g_serde ft); cbn [app In] in H;
          repeat (destruct H as [H|H]; [first [discriminate H | (injection H as <- <- <-; tauto)]|]); destruct H.
      * left. rewrite (I3 (units_module o)) by (now left). destruct (g_vectors ft), (g_serde ft); cbn [app In] in H |- *;
          repeat (destruct H as [H|H]; [first [discriminate H | (injection H as <- <- <-; tauto)]|]); destruct H.
      * left. rewrite (I3 (constants_module o)) by (now right). destruct (g_vectors ft), (g_serde ft); cbn [app In] in H |- *;
          repeat (destruct H as [H|H]; [first [discriminate H | (injection H as <- <- <-; tauto)]|]); destruct H.
    + intros fs [<-|[]]. exact Hf.
    + intros i Hi. unfold identifiers in Hi.
      cbn [generated p_items p_modules flat_map m_items dimensions_module unit_type_module units_module constants_module p_structs concat] in Hi.
      rewrite !map_map in Hi. cbn [fst] in Hi. rewrite !in_app_iff in Hi.
      assert (R : In i (map fst (root_items ft o)) \/ In i ["Unit"; "RuntimeUnit"; "Mul"; "Div"] -> is_name i).
      { intros H. apply accept_name. unfold root_items in H. rewrite Ed, Eq in H.
        destruct (g_libm ft), (g_serde ft), (g_rand ft); cbn in H;
          destruct H as [H|H]; repeat (destruct H as [<-|H]; [reflexivity|]); destruct H. }
      specialize (Hk i). rewrite !in_app_iff in Hk. cbn [In map] in Hi. cbn [In] in R. tauto.
Qed.
