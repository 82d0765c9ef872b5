(** * Data read after statements were removed: C99 *)
From Coq Require Import String Ascii List Bool ZArith QArith Qcanon Lia.
From Verif Require Import MachineInt Ratio F64 Magnitude Exponent ExponentFacts SMap Snake Expression DimensionMath DimensionMathFacts Types PrefixSpec ExpansionSpec
  Resolve ResolveLoop ResolveChecks SystemSpec ResolveFacts Expansion CodegenDimension CodegenDimensionFacts CodegenLiteral ResolveEquations Setting SystemFacts ExampleSystems Parse Grammar ParseFacts ParsedSystems
  Accuracy PropertiesDimension PropertiesExponents PropertiesParse PropertiesSystem PropertiesExtension
  Storage Raw Text TextFacts CodegenLiteral Debug TextSystem PropertiesDebug Serde SerdeFacts PropertiesSerde ExactFacts ExtensionFacts PropertiesLocal PropertiesGrowth.
Import ListNotations.
Local Close Scope Q_scope.
Local Close Scope Qc_scope.
Local Close Scope Z_scope.
Local Open Scope string_scope.
Local Open Scope list_scope.

(** Every symbol in the text that the system [o2] knows is the symbol of a unit of [o1]. *)
Definition uses_only k (o2 o1 : defs (ops k)) (s : storage) (e : event) : Prop :=
  forall t ws w u n, e = EStr t -> unit_words s t ws -> In w ws -> unit_word k o2 w (u, n) -> In u (df_units o1).

Lemma deserialize_shrunk k fs fs2 us us2 env s a a2 e r : NoDup fs -> NoDup fs2 -> incl fs fs2 -> ext k fs fs2 a a2 ->
  (forall ws, grown k fs fs2 (code_read_unit_str (ops k) fs us env ws) (code_read_unit_str (ops k) fs2 us2 env ws)) ->
  (forall t ws p, e = EStr t -> unit_words s t ws -> code_read_unit_str (ops k) fs2 us2 env ws = Ok p -> code_read_unit_str (ops k) fs us env ws <> Err) ->
  deserialize (ops k) fs2 us2 env s a2 e = Ok r -> deserialize (ops k) fs us env s a e = Ok r.
Proof.
  intros N N2 Sub H G Known. destruct s as [f|v], e as [t|z|z|x|]; cbn [deserialize]; intros D; try discriminate D;
    try (rewrite (number_ext k fs fs2 N N2 Sub a a2 _ H); exact D).
  - unfold visit_str_float in *. rewrite split_trim in *. destruct (split_ws t) as [|n ws] eqn:Es; [discriminate D|].
    destruct (parse_raw f n) as [y|]; cbn [or_err andthen] in *; [|discriminate D].
    pose proof (G ws) as K. pose proof (Known t ws) as Kn.
    destruct (code_read_unit_str (ops k) fs2 us2 env ws) as [[d2 x2]| |]; cbn [andthen] in D; try discriminate D.
    specialize (Kn (d2, x2) eq_refl (ex_intro _ n Es) eq_refl).
    destruct (code_read_unit_str (ops k) fs us env ws) as [[d x]| |]; cbn [grown] in K; [|now destruct Kn|discriminate K].
    destruct K as (d2' & K & Hd). injection K as <- <-. cbn [andthen] in *. unfold get_quantity_if_dimensions_match in *.
    destruct (raw_mul y (f64_as f x2)); cbn [or_panic andthen] in *; [|discriminate D].
    now rewrite (ext_eqb k fs fs2 N N2 _ _ _ _ Hd H).
  - unfold visit_str_vector in *. destruct (cut ")" (trim t)) as [[vp up]|] eqn:E1; cbn [or_err andthen] in *; [|discriminate D].
    destruct (cut "(" vp) as [[v0 vp']|]; cbn [or_err andthen] in *; [|discriminate D].
    destruct (Nat.eqb (length (split_ws vp')) (num_dims v)); [|discriminate D].
    destruct (parse_components (component v) (split_ws vp')) as [y|]; cbn [or_err andthen] in *; [|discriminate D].
    assert (U : unit_words (Vector v) t (split_ws up)). { apply cut_iff in E1 as [E1 N1]. exists vp, up. auto. }
    pose proof (G (split_ws up)) as K. pose proof (Known t (split_ws up)) as Kn.
    destruct (code_read_unit_str (ops k) fs2 us2 env (split_ws up)) as [[d2 x2]| |]; cbn [andthen] in D; try discriminate D.
    specialize (Kn (d2, x2) eq_refl U eq_refl).
    destruct (code_read_unit_str (ops k) fs us env (split_ws up)) as [[d x]| |]; cbn [grown] in K; [|now destruct Kn|discriminate K].
    destruct K as (d2' & K & Hd). injection K as <- <-. cbn [andthen] in *. unfold get_quantity_if_dimensions_match in *.
    destruct (raw_mul (f64_as (component v) x2) y); cbn [or_panic andthen] in *; [|discriminate D].
    now rewrite (ext_eqb k fs fs2 N N2 _ _ _ _ Hd H).
Qed.

(** Remove statements from a file.  What the larger system read, the smaller one still reads, as the same
    value, unless the text uses a unit that was removed. *)
Theorem C99_still_readable : forall k env f1 f2 T1 T2 o1 o2 us1 us2 s X1 X2 v1 v2 e r,
  wf_file f1 -> wf_file f2 -> incl (sl_items f1) (sl_items f2) ->
  parse_system k (print_file f1) = Some T1 -> parse_system k (print_file f2) = Some T2 ->
  readable_system k env T1 o1 us1 -> readable_system k env T2 o2 us2 ->
  denotes k (df_base_dimensions o1) X1 v1 -> denotes k (df_base_dimensions o2) X2 v2 ->
  (forall b, In b (df_base_dimensions o1) -> v2 b = v1 b) ->
  (forall b, In b (df_base_dimensions o2) -> ~ In b (df_base_dimensions o1) -> v2 b = ZQc 0) ->
  uses_only k o2 o1 s e ->
  deserialize (ops k) (df_base_dimensions o2) us2 env s X2 e = Ok r ->
  deserialize (ops k) (df_base_dimensions o1) us1 env s X1 e = Ok r.
Proof.
  intros k env f1 f2 T1 T2 o1 o2 us1 us2 s X1 X2 v1 v2 e r W1 W2 Sub E1 E2 H1 H2 HX1 HX2 Hv Hz Only D.
  pose proof (tables_grow k env f1 f2 T1 T2 o1 o2 us1 us2 W1 W2 Sub E1 E2 H1 H2) as Look.
  destruct H1 as (C1 & Hid1 & Us1), H2 as (C2 & Hid2 & Us2).
  pose proof (nodup_fields k env T1 o1 C1) as N1. pose proof (nodup_fields k env T2 o2 C2) as N2.
  pose proof (fields_grow k env f1 f2 T1 T2 o1 o2 W1 W2 Sub E1 E2 (proj1 C1) (proj1 C2)) as Fs.
  apply (deserialize_shrunk k _ _ us1 us2 env s X1 X2 e r N1 N2 Fs (denotes_ext k _ _ N1 N2 Fs X1 X2 v1 v2 HX1 HX2 Hv Hz)); [exact (read_grown k _ _ N1 N2 Fs us1 us2 env Look)| |exact D].
  intros t ws [d x] He Hw Hr He1. unfold code_read_unit_str in Hr, He1.
  destruct (read_Ok k env T2 o2 C2 Hid2 us2 Us2 _ _ _ ws d x Hr) as (terms & Ht & _).
  destruct (read_Err k env T1 o1 C1 Hid1 us1 Us1 _ _ _ ws He1) as (w & Iw & Nw).
  assert (K : exists ue, unit_word k o2 w ue).
  { clear - Ht Iw. induction Ht as [|w0 ue ws terms H0 Ht IH]; [destruct Iw|]. destruct Iw as [->|Iw]; [eauto|auto]. }
  destruct K as [[u n] K]. apply (Nw (u, n)). destruct K as [Iu K]. split; [|exact K]. exact (Only t ws w u n He Hw Iw (conj Iu K)).
Qed.
Print Assumptions C99_still_readable.

(** ** [timed_file] loses [Time] and [second]: ["2.5 km"] is still 2500 *)
Definition has_km (f : slist stmt) : bool :=
  match parse_system IntegerExponents (print_file f) with
  | Some T => match run_unit_system (ops IntegerExponents) env0 T with
    | Some (o, []) => existsb (fun u => match un_symbol u with Some s => String.eqb s "km" | None => false end) (df_units o)
    | _ => false end
  | None => false
  end.
Example C99_applies : exists T1 T2 o1 o2 us1 us2 X1 X2 v x,
  wf_file field_file /\ wf_file timed_file /\ incl (sl_items field_file) (sl_items timed_file) /\
  parse_system IntegerExponents (print_file field_file) = Some T1 /\ parse_system IntegerExponents (print_file timed_file) = Some T2 /\
  readable_system IntegerExponents env0 T1 o1 us1 /\ readable_system IntegerExponents env0 T2 o2 us2 /\
  denotes IntegerExponents (df_base_dimensions o1) X1 v /\ denotes IntegerExponents (df_base_dimensions o2) X2 v /\
  (forall b, In b (df_base_dimensions o2) -> ~ In b (df_base_dimensions o1) -> v b = ZQc 0) /\
  df_base_dimensions o2 = "time" :: df_base_dimensions o1 /\
  uses_only IntegerExponents o2 o1 (Float F64) (EStr (str "2.5 km")) /\
  deserialize (ops IntegerExponents) (df_base_dimensions o2) us2 env0 (Float F64) X2 (EStr (str "2.5 km")) = Ok (RF64 x) /\
  f64_eqb x (f64_of_Z 2500) = true.
Proof.
  destruct (reads_ok _ _ _ _ field_reads) as (T1 & o1 & us1 & x1 & E1 & H1 & F1 & _).
  destruct (reads_ok _ _ _ _ timed_reads) as (T2 & o2 & us2 & x & E2 & H2 & F2 & D & Q).
  destruct C96_applies as (_ & _ & _ & _ & _ & _ & _ & _ & _ & _ & _ & W & W2 & Sub & _).
  pose (v := fun b : ident => if String.eqb b "length" then ZQc 1 else ZQc 0).
  exists T1, T2, o1, o2, us1, us2, [("length", 1%Z)], [("time", 0%Z); ("length", 1%Z)], v, x.
  split; [exact W|]. split; [exact W2|]. split; [exact Sub|]. split; [exact E1|]. split; [exact E2|]. split; [exact H1|]. split; [exact H2|].
  cbn [map fst] in F1, F2.
  split. { rewrite F1. split; [reflexivity|]. intros y e [K|[]]; injection K as <- <-; (split; [exact I|reflexivity]). }
  split. { rewrite F2. split; [reflexivity|]. intros y e [K|[K|[]]]; injection K as <- <-; (split; [exact I|reflexivity]). }
  split. { rewrite F1, F2. intros b [<-|[<-|[]]] N; [reflexivity|]. destruct N. now left. }
  split; [now rewrite F1, F2|]. split; [|split; [exact D|exact Q]].
  intros t ws w u n He (number & Hn) Iw K. injection He as <-. cbv in Hn. injection Hn as _ <-. destruct Iw as [<-|[]].
  (* the smaller system has a unit with the symbol km, which the larger one inherits *)
  destruct (C75_adding_statements _ env0 _ _ T1 T2 o1 o2 W W2 Sub E1 E2 (proj1 (proj1 H1)) (proj1 (proj1 H2))) as (_ & Units & _).
  assert (Km : exists u1, In u1 (df_units o1) /\ un_symbol u1 = Some "km").
  { assert (Ck : has_km field_file = true) by (vm_compute; reflexivity). unfold has_km in Ck. rewrite E1, (proj1 (proj1 H1)) in Ck.
    apply existsb_exists in Ck as (u1 & Hu1 & S1). exists u1. split; [exact Hu1|].
    destruct (un_symbol u1) as [s|]; [|discriminate S1]. apply String.eqb_eq in S1. now subst. }
  destruct Km as (u1 & Hu1 & S1).
  assert (K1 : unit_word IntegerExponents o2 (str "km") (u1, 1%Z)).
  { split; [now apply Units|]. exists "km". split; [exact S1|]. left. split; reflexivity. }
  destruct H2 as (C2 & Hid2 & Us2).
  pose proof (terms_unique IntegerExponents env0 T2 o2 C2 Hid2 [str "km"] [(u, n)] [(u1, 1%Z)]) as U.
  assert (Eu : (u, n) = (u1, 1%Z)).
  { assert (L : [(u, n)] = [(u1, 1%Z)]) by (apply U; (constructor; [assumption|constructor])). congruence. }
  injection Eu as -> _. exact Hu1.
Qed.
