(** * Cargo features: C77 *)
From Coq Require Import String List Bool ZArith.
From Verif Require Import MachineInt Ratio F64 Magnitude Exponent SMap Types CodegenDimension Storage Operators Raw FloatMethods Setting Features.
Import ListNotations.
Local Open Scope string_scope.
Local Open Scope list_scope.

(** ** The computed closure is Cargo's *)
Lemma package_eqb_ok p q : package_eqb p q = true <-> p = q.
Proof. destruct p, q; cbn; split; intros H; try reflexivity; discriminate H. Qed.
Lemma feature_eqb_ok a b : feature_eqb a b = true <-> a = b.
Proof.
  destruct a as [p f], b as [q g]. unfold feature_eqb. cbn [fst snd]. rewrite andb_true_iff, package_eqb_ok, String.eqb_eq.
  split; [intros [-> ->]; reflexivity|intros E; injection E; auto].
Qed.
Lemma in_existsb a l : existsb (feature_eqb a) l = true <-> In a l.
Proof.
  rewrite existsb_exists. split.
  - intros (b & Hb & E). apply feature_eqb_ok in E. now subst b.
  - intros H. exists a. split; [exact H|]. now apply feature_eqb_ok.
Qed.
Lemma in_listed a b : In b (listed a) <-> exists l, In (a, l) table /\ In b l.
Proof.
  unfold listed. rewrite in_flat_map. split.
  - intros ((c & l) & Hc & Hb). cbn [fst snd] in Hb. destruct (feature_eqb c a) eqn:E; [|destruct Hb].
    apply feature_eqb_ok in E. subst c. eauto.
  - intros (l & Hl & Hb). exists (a, l). split; [exact Hl|]. cbn [fst snd]. now rewrite (proj2 (feature_eqb_ok a a) eq_refl).
Qed.
Definition closed_one (s : string) : bool :=
  forallb (fun a => forallb (fun b => existsb (feature_eqb b) (reach s)) (listed a)) (reach s).
Lemma declared_closed : forallb closed_one declared = true.
Proof. vm_compute. reflexivity. Qed.
Lemma in_rounds n : forall l a, In a l -> In a (rounds n l).
Proof. induction n as [|n IH]; intros l a H; cbn [rounds]; [exact H|]. apply IH. apply in_app_iff. now left. Qed.
Lemma rounds_sound sel n : forall l, (forall p f, In (p, f) l -> on sel p f) -> forall p f, In (p, f) (rounds n l) -> on sel p f.
Proof.
  induction n as [|n IH]; intros l K; cbn [rounds]; [exact K|]. apply IH. intros p f H. apply in_app_iff in H as [H|H]; [auto|].
  apply in_flat_map in H as ((q & g) & Hq & H). apply in_listed in H as (l' & Hl & H). eapply on_listed; eauto.
Qed.
Theorem C77_closure : forall sel p f, incl sel declared -> (active sel p f = true <-> on sel p f).
Proof.
  intros sel p f D. unfold active. rewrite existsb_exists. split.
  - intros (s & Hs & H). apply in_existsb in H. revert H. apply (rounds_sound sel). intros q g [E|[]].
    injection E as <- <-. now constructor.
  - intros O. induction O as [f H|p f l q g O (s & Hs & IH) Hl Hg].
    + exists f. split; [exact H|]. apply in_existsb. unfold reach. apply in_rounds. now left.
    + exists s. split; [exact Hs|]. apply in_existsb in IH.
      pose proof declared_closed as C. rewrite forallb_forall in C. specialize (C s (D s Hs)).
      unfold closed_one in C. rewrite forallb_forall in C. specialize (C _ IH). rewrite forallb_forall in C.
      apply C. apply in_listed. eauto.
Qed.
Print Assumptions C77_closure.

(** ** Specification: the selections that turn something on *)
Definition one_of (l sel : list string) : Prop := exists f, In f l /\ In f sel.
Definition enabling (p : package) (f : string) : list string := filter (fun s => existsb (feature_eqb (p, f)) (reach s)) declared.
Lemma active_iff sel p f : incl sel declared -> (active sel p f = true <-> one_of (enabling p f) sel).
Proof.
  intros D. unfold active, one_of, enabling. rewrite existsb_exists. split.
  - intros (s & Hs & H). exists s. split; [|exact Hs]. apply filter_In. auto.
  - intros (s & H & Hs). apply filter_In in H as [_ H]. eauto.
Qed.
Definition has (sel : list string) (s : string) : bool := existsb (String.eqb s) sel.
Lemma has_ok sel s : has sel s = true <-> In s sel.
Proof.
  unfold has. rewrite existsb_exists. split.
  - intros (b & Hb & E). apply String.eqb_eq in E. now subst b.
  - intros H. exists s. split; [exact H|apply String.eqb_refl].
Qed.
Lemma one_of_has l sel : one_of l sel <-> existsb (has sel) l = true.
Proof.
  unfold one_of. rewrite existsb_exists. split; intros (f & A & B); exists f; split; auto; now apply has_ok.
Qed.
Lemma active_has sel p f : incl sel declared -> active sel p f = existsb (has sel) (enabling p f).
Proof.
  intros D. apply eq_true_iff_eq. rewrite (active_iff sel p f D). apply one_of_has.
Qed.
Ltac to_has D :=
  repeat match goal with
  | |- context [active ?s ?p ?f] =>
      rewrite (active_has s p f D);
      let l := eval vm_compute in (enabling p f) in change (enabling p f) with l
  end; cbn [existsb].
Ltac cases_has sel := repeat match goal with |- context [has sel ?s] => destruct (has sel s) end.

(** ** Storage types *)
(** README "Features": "`f32` and `f64` float storage types (behind the `f32` and `f64` feature gate
    respectively)", "Vector storage types via glam (behind the `glam-vec2`, .. features)"; the default
    features include f32 and f64, and each vector feature turns on its float type. *)
Definition gate (s : storage) : list string :=
  match s with
  | Float F32 => ["f32"; "glam-vec2"; "glam-vec3"; "default"]
  | Float F64 => ["f64"; "glam-dvec2"; "glam-dvec3"; "default"]
  | Vector Vec2 => ["glam-vec2"]
  | Vector DVec2 => ["glam-dvec2"]
  | Vector Vec3 => ["glam-vec3"]
  | Vector DVec3 => ["glam-dvec3"]
  end.
Lemma storage_gate sel s : incl sel declared -> (In s (storage_types (features_of sel)) <-> one_of (gate s) sel).
Proof.
  intros D. rewrite one_of_has. unfold storage_types, float_types, vector_types, features_of.
  cbn [ft_f32 ft_f64 ft_vec2 ft_dvec2 ft_vec3 ft_dvec3]. to_has D.
  destruct s as [[]|[]]; cbn [gate existsb]; cases_has sel; cbn; split; intros H; try reflexivity; try discriminate H;
    repeat match goal with H : _ \/ _ |- _ => destruct H as [H|H] end; try discriminate H; try destruct H; auto 10.
Qed.
(** A storage type has its generated methods ([abs] for all of them) exactly if one of its features is
    selected. *)
Theorem C77_storage_types : forall sel fields s d, incl sel declared ->
  method_ok (ops (mode_of sel)) fields (features_of sel) (math_of sel) MAbs (Known s) d (ResQ (Known s) d) <->
  one_of (gate s) sel.
Proof.
  intros sel fields s d D. rewrite <- (storage_gate sel s D). cbn [method_ok]. unfold is_storage_ty. split.
  - intros ((c & E & H) & _). injection E as <-. exact H.
  - intros H. split; [eauto|reflexivity].
Qed.
Print Assumptions C77_storage_types.
(** With a vector type its component type is available too (the vector methods return it). *)
Theorem C77_components : forall sel v, incl sel declared ->
  In (Vector v) (storage_types (features_of sel)) -> In (Float (component v)) (storage_types (features_of sel)).
Proof.
  intros sel v D. rewrite !(storage_gate _ _ D), !one_of_has. destruct v; cbn [gate component existsb]; cases_has sel; auto.
Qed.
Print Assumptions C77_components.
(** The exponents are rational exactly with the feature of that name. *)
Theorem C77_mode : forall sel, incl sel declared -> (mode_of sel = RationalExponents <-> In "rational-dimensions" sel).
Proof.
  intros sel D. rewrite <- has_ok. unfold mode_of. to_has D. rewrite orb_false_r.
  destruct (has sel "rational-dimensions"); split; intros H; try reflexivity; discriminate H.
Qed.
Print Assumptions C77_mode.
(** [ln], [sin], .. and [sqrt], [cbrt] exist exactly with std or libm (README: "The `num-traits-libm`
    feature uses libm to provide math functions in `no_std` environments"). *)
Theorem C77_math : forall sel fields f t d, incl sel declared -> dim_none (ops (mode_of sel)) fields = Some d ->
  method_ok (ops (mode_of sel)) fields (features_of sel) (math_of sel) (MFn f) (Known (Float t)) d (ResQ (Known (Float t)) d) <->
  one_of (gate (Float t)) sel /\ one_of ["num-traits-libm"; "std"; "default"] sel.
Proof.
  intros sel fields f t d D N. rewrite <- (storage_gate sel (Float t) D).
  assert (M : math_of sel = true <-> one_of ["num-traits-libm"; "std"; "default"] sel).
  { rewrite one_of_has. unfold math_of. to_has D. cases_has sel; cbn; tauto. }
  assert (F : is_float (features_of sel) (Known (Float t)) <-> In (Float t) (storage_types (features_of sel))).
  { unfold is_float, storage_types. rewrite in_app_iff, !in_map_iff. split.
    - intros (g & E & H). injection E as <-. left. eauto.
    - intros [(g & E & H)|(v & E & _)]; [|discriminate E]. injection E as ->. eauto. }
  cbn [method_ok]. rewrite M, F. tauto.
Qed.
Print Assumptions C77_math.

(** ** The crates agree *)
(** The two copies of diman_lib, and the macro and the crate, see the same features. *)
Definition names (p : package) (l : list feature) : list string :=
  nodup string_dec (map snd (filter (fun a => package_eqb p (fst a)) l)).
Lemma existsb_names p f l : existsb (feature_eqb (p, f)) l = existsb (String.eqb f) (names p l).
Proof.
  apply eq_true_iff_eq. rewrite in_existsb, existsb_exists. unfold names. split.
  - intros H. exists f. split; [|apply String.eqb_refl]. apply nodup_In. apply in_map_iff. exists (p, f).
    split; [reflexivity|]. apply filter_In. split; [exact H|]. now apply package_eqb_ok.
  - intros (g & H & E). apply String.eqb_eq in E. subst g. apply nodup_In in H. apply in_map_iff in H as ([q g] & E & H).
    apply filter_In in H as [H K]. apply package_eqb_ok in K. cbn [fst snd] in *. now subst.
Qed.
Lemma active_agree sel p q f : incl sel declared ->
  forallb (fun s => eqb (existsb (String.eqb f) (names p (reach s))) (existsb (String.eqb f) (names q (reach s)))) declared = true ->
  active sel p f = active sel q f.
Proof.
  intros D H. rewrite forallb_forall in H. apply eq_true_iff_eq. unfold active. rewrite !existsb_exists.
  split; intros (s & Hs & K); exists s; split; auto; specialize (H s (D s Hs)); apply eqb_prop in H;
    rewrite existsb_names in *; congruence.
Qed.
Theorem C77_agreement : forall sel f, incl sel declared ->
  active sel LibMacro f = active sel LibUser f /\ active sel NumMacro f = active sel NumUser f /\
  (In f declared -> f <> "si" -> f <> "default" -> active sel Macro f = active sel Diman f).
Proof.
  intros sel f D.
  assert (E : forall p q, map (fun s => names p (reach s)) declared = map (fun s => names q (reach s)) declared -> active sel p f = active sel q f).
  { intros p q H. apply active_agree; [exact D|]. apply forallb_forall. intros s Hs.
    assert (K : names p (reach s) = names q (reach s)).
    { assert (G : forall l, map (fun s => names p (reach s)) l = map (fun s => names q (reach s)) l ->
                forall s, In s l -> names p (reach s) = names q (reach s)).
      { induction l as [|x l IH]; intros Hl y Hy; [destruct Hy|]. cbn [map] in Hl.
        pose proof (f_equal (hd []) Hl) as H1. pose proof (f_equal (@tl _) Hl) as H2. cbn [hd tl] in H1, H2.
        destruct Hy as [<-|Hy]; [exact H1|]. exact (IH H2 y Hy). }
      exact (G declared H s Hs). }
    rewrite K. apply eqb_reflx. }
  split; [apply E; vm_compute; reflexivity|]. split; [apply E; vm_compute; reflexivity|].
  intros Hf N1 N2. apply active_agree; [exact D|]. cbn [declared diman_table map fst In] in Hf.
  repeat (destruct Hf as [<-|Hf]; [first [vm_compute; reflexivity | now exfalso; (apply N1 || apply N2)]|]). destruct Hf.
Qed.
Print Assumptions C77_agreement.

(** ** Which selections build *)
(** The documented condition (src/lib.rs:409-415): rational-dimensions needs std or libm. *)
Definition documented (sel : list string) : Prop :=
  In "rational-dimensions" sel -> one_of ["num-traits-libm"; "std"; "default"] sel.
Definition C77_full : Prop := forall sel, incl sel declared -> documented sel -> builds sel.

Lemma builds_forallb sel : builds sel <-> forallb (fun u => implb (holds sel (fst u)) (holds sel (snd u))) uses = true.
Proof.
  unfold builds. rewrite forallb_forall, Forall_forall. split; intros H u Hu; specialize (H u Hu); destruct (holds sel (fst u)); auto.
  - intros K. discriminate K.
Qed.
(** Exactly: besides the documented condition, the SI system with serde, and the SI system with hdf5 and
    a vector type, need std. *)
Theorem C77_builds_exactly : forall sel, incl sel declared ->
  (builds sel <->
   documented sel /\
   (one_of ["si"; "default"] sel -> In "serde" sel -> one_of ["std"; "default"] sel) /\
   (one_of ["si"; "default"] sel -> In "hdf5" sel -> one_of ["glam-vec2"; "glam-dvec2"; "glam-vec3"; "glam-dvec3"] sel ->
    one_of ["std"; "default"] sel)).
Proof.
  intros sel D. rewrite builds_forallb. unfold documented. rewrite <- !has_ok, !one_of_has.
  unfold uses. cbn [forallb fst snd holds generated some_vector std_or_libm]. to_has D. rewrite !andb_true_iff.
  split.
  - intros (U1 & _ & _ & _ & _ & _ & _ & _ & _ & _ & _ & _ & _ & _ & _ & _ & _ & _ & _ & _ & _ & _ & U2 & U3 & _).
    split; [|split].
    + clear U2 U3. revert U1. cases_has sel; cbn; auto; discriminate.
    + clear U1 U3. revert U2. cases_has sel; cbn; auto; discriminate.
    + clear U1 U2. revert U3. cases_has sel; cbn; auto; discriminate.
  - intros (U1 & U2 & U3).
    repeat split; first
      [ clear U1 U2 U3; abstract (cases_has sel; reflexivity)
      | clear U2 U3; revert U1; abstract (cases_has sel; cbn; intros U; first [reflexivity | discriminate (U eq_refl)])
      | clear U1 U3; revert U2; abstract (cases_has sel; cbn; intros U; first [reflexivity | discriminate (U eq_refl eq_refl)])
      | clear U1 U2; revert U3; abstract (cases_has sel; cbn; intros U; first [reflexivity | discriminate (U eq_refl eq_refl eq_refl)]) ].
Qed.
Print Assumptions C77_builds_exactly.

(** [features = ["si", "f64", "serde"]] without default features: the documentation allows it. *)
Theorem C77_refuted : ~ C77_full.
Proof.
  intros K. assert (B : builds ["si"; "f64"; "serde"]).
  { apply K.
    - intros s Hs. cbn [In] in Hs. destruct Hs as [<-|[<-|[<-|[]]]]; vm_compute; auto 20.
    - intros [H|[H|[H|[]]]]; discriminate H. }
  apply builds_forallb in B. vm_compute in B. discriminate B.
Qed.
Print Assumptions C77_refuted.

(** ** Cases *)
Definition subsetb (sel : list string) : bool := forallb (fun s => existsb (String.eqb s) declared) sel.
Lemma subsetb_ok sel : subsetb sel = true -> incl sel declared.
Proof.
  unfold subsetb. rewrite forallb_forall. intros H s Hs. specialize (H s Hs). apply existsb_exists in H as (t & Ht & E).
  apply String.eqb_eq in E. now subst t.
Qed.
(** The selections of the project's own checks (.github/workflows/rust.yml) build, ... *)
Example C77_applies : forall sel, In sel
  [["default"]; ["f32"; "f64"]; declared; ["f32"; "f64"; "si"]; ["f32"; "f64"; "num-traits-libm"; "si"];
   ["default"; "glam"; "glam-vec2"; "glam-dvec2"; "glam-vec3"; "glam-dvec3"; "f32"; "f64"; "si"; "mpi"; "hdf5"; "rand"; "serde"]] ->
  incl sel declared /\ builds sel.
Proof.
  intros sel H.
  assert (K : subsetb sel = true /\ forallb (fun u => implb (holds sel (fst u)) (holds sel (snd u))) uses = true).
  { cbn [In] in H. repeat (destruct H as [<-|H]; [split; vm_compute; reflexivity|]). destruct H. }
  destruct K as [K1 K2]. split; [now apply subsetb_ok|now apply builds_forallb].
Qed.
(** ... and with them f64 but no vector type is available. *)
Example C77_default : In (Float F64) (storage_types (features_of ["default"])) /\
  ~ In (Vector DVec3) (storage_types (features_of ["default"])) /\ mode_of ["default"] = IntegerExponents.
Proof. vm_compute. split; [auto|]. split; [intros [H|[H|[]]]; discriminate H|reflexivity]. Qed.
