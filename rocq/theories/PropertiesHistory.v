(** * Data across the history of a unit system: C97 *)
From Coq Require Import String Ascii List Bool ZArith QArith Qcanon Lia Reals Permutation.
From Flocq Require Import IEEE754.Binary IEEE754.Bits.
From Verif Require Import Parse Grammar ParseFacts ParsedSystems PropertiesParse PropertiesSystem ExpansionSpec ExactFacts PropertiesExtension RemovalFacts AnnotationFacts
  LocalSpec RenameSpec RenameFacts PropertiesLocal PropertiesRename.
From Verif Require Import MachineInt Ratio RatioFacts F64 Magnitude MagnitudeFacts Exponent ExponentFacts SMap
  Expression DimensionMath DimensionMathFacts Types Snake Resolve SystemSpec ResolveFacts
  ResolveEquations Expansion CodegenDimension CodegenDimensionFacts CodegenLiteral Setting
  SystemFacts ExampleSystems PropertiesDimension Storage Raw Text TextFacts Debug TextSystem
  PropertiesDebug Serde SerdeFacts PropertiesSerde FloatOps NumberFormat RoundTripFacts PropertiesRoundTrip PropertiesExchange PropertiesExact PropertiesExponents
  PropertiesRenameText PropertiesRenameData PropertiesGrowth.
Import ListNotations.
Local Close Scope R_scope.
Local Close Scope Q_scope.
Local Close Scope Qc_scope.
Local Open Scope list_scope.
Local Open Scope Z_scope.

(** One version of a program: the file, what the macro makes of it, and the table of units its
    deserializer searches. *)
Record version k := { ve_file : slist stmt; ve_system : unresolved (ops k) (unit_template (ops k));
  ve_defs : defs (ops k); ve_units : list (runtime_unit (ops k)) }.
Arguments ve_file {k}. Arguments ve_system {k}. Arguments ve_defs {k}. Arguments ve_units {k}.
Definition fields_of {k} (a : version k) : list string := df_base_dimensions (ve_defs a).
Definition working {k} env (a : version k) : Prop :=
  wf_file (ve_file a) /\ parse_system k (print_file (ve_file a)) = Some (ve_system a) /\
  readable_system k env (ve_system a) (ve_defs a) (ve_units a).

(** A quantity type of a version: the dimension struct and the exponents it stands for. *)
Definition qtype k : Type := dimval (ops k) * (string -> Qc).
Definition type_in {k} (a : version k) (q : qtype k) : Prop := denotes k (fields_of a) (fst q) (snd q).

(** One step of the history: statements are added or reordered, or names are changed (symbols stay).
    [q] is a quantity type before the step, [q2] the corresponding one after it. *)
Inductive step {k} (env : fenv) (a : version k) (q : qtype k) (b : version k) (q2 : qtype k) : Prop :=
| Extended : incl (sl_items (ve_file a)) (sl_items (ve_file b)) ->
    (forall f, In f (fields_of a) -> snd q2 f = snd q f) ->
    (forall f, In f (fields_of b) -> ~ In f (fields_of a) -> snd q2 f = ZQc 0) ->
    step env a q b q2
| Renamed (new : ident -> ident) : ve_file b = rename_file new (fun s => s) (ve_file a) ->
    fits new (fun s => s) (ve_file a) -> carried new (ve_file a) (snd q) (snd q2) ->
    step env a q b q2.

(** Any number of steps, every version on the way being a working one. *)
Inductive history {k} (env : fenv) : version k -> qtype k -> version k -> qtype k -> Prop :=
| Same a q : working env a -> type_in a q -> history env a q a q
| Next a q b q2 c q3 : working env a -> type_in a q -> step env a q b q2 -> history env b q2 c q3 -> history env a q c q3.

Lemma history_start k env (a : version k) q b q2 : history env a q b q2 -> working env a /\ type_in a q.
Proof. intros H. destruct H; auto. Qed.
Lemma history_end k env (a : version k) q b q2 : history env a q b q2 -> working env b /\ type_in b q2.
Proof. intros H. induction H; auto. Qed.
Lemma step_reads k env (a : version k) q b q2 s e : working env a -> type_in a q -> working env b -> type_in b q2 -> step env a q b q2 ->
  deserialize (ops k) (fields_of a) (ve_units a) env s (fst q) e <> Err ->
  deserialize (ops k) (fields_of b) (ve_units b) env s (fst q2) e = deserialize (ops k) (fields_of a) (ve_units a) env s (fst q) e.
Proof.
  intros (W & E & H) Ta (W2 & E2 & H2) Tb [Sub Hv Hz|new Ef Fi Ca] NE.
  - exact (C96_still_readable k env _ _ _ _ _ _ _ _ s _ _ _ _ e W W2 Sub E E2 H H2 Ta Tb Hv Hz NE).
  - rewrite Ef in W2, E2. symmetry. exact (C95_read k env _ new _ _ _ _ _ _ s _ _ _ _ e W W2 Fi E E2 H H2 Ta Tb Ca).
Qed.

(** Whatever the first version reads (or panics on), the last one reads the same. *)
Theorem C97_read : forall k env (a : version k) q b q2 s e,
  history env a q b q2 ->
  deserialize (ops k) (fields_of a) (ve_units a) env s (fst q) e <> Err ->
  deserialize (ops k) (fields_of b) (ve_units b) env s (fst q2) e = deserialize (ops k) (fields_of a) (ve_units a) env s (fst q) e.
Proof.
  intros k env a q b q2 s e H. induction H as [a q W T|a q b q2 c q3 W T S H IH]; intros NE; [reflexivity|].
  destruct (history_start _ _ _ _ _ _ H) as [Wb Tb].
  pose proof (step_reads k env a q b q2 s e W T Wb Tb S NE) as K. rewrite IH; [exact K|]. now rewrite K.
Qed.
Print Assumptions C97_read.

(** Whatever the first version wrote, the last one reads back, bit for bit, under the conditions of C48. *)
Theorem C97_written : forall k env lo fmt32 fmt64 (a : version k) q b q2 s value t,
  good_platform env lo -> ones env ->
  number_format parse_f32 (is_nan 24 128) fmt32 -> number_format parse_f64 (is_nan 53 1024) fmt64 ->
  history env a q b q2 ->
  (exists sym, coherent_symbol k env (ve_defs a) sym (snd q)) \/ small_integers (fields_of a) (snd q) ->
  stored_value s value ->
  serialize (ops k) env (CodegenLiteral.lit k) (show k) fmt32 fmt64 (ve_defs a) (fst q) value = Some (Some t) ->
  deserialize (ops k) (fields_of b) (ve_units b) env s (fst q2) (EStr t) = Ok value.
Proof.
  intros k env lo fmt32 fmt64 a q b q2 s value t G One N32 N64 H Hv Sv E.
  destruct (history_start _ _ _ _ _ _ H) as [(_ & _ & Ra) Ta].
  pose proof (C48_partial k env lo _ _ _ fmt32 fmt64 s (fst q) (snd q) value t G One Ra N32 N64 Ta Hv Sv E) as K.
  rewrite (C97_read k env a q b q2 s (EStr t) H); [exact K|]. unfold fields_of. rewrite K. discriminate.
Qed.
Print Assumptions C97_written.

(** ** [field_file] gets German names, then [Time] and [second] *)
Definition german_renamed : slist stmt := rename_file to_german (fun s => s) field_file.
Definition german_timed : slist stmt := {| sl_trailing := false; sl_items :=
  SDimension [] "Time"%string None :: SUnit [UBase "Time"%string; USymbol "s"%string] "second"%string None None :: sl_items german_renamed |}.
Lemma german_timed_wf : wf_file german_timed.
Proof.
  split; [discriminate|]. cbn [sl_items german_timed german_renamed rename_file field_file map rename_stmt rename_attr]. unfold wf_stmt, wf_ident.
  repeat (first [apply accept_name; reflexivity | apply Forall_nil | constructor | discriminate | reflexivity]).
Qed.
Example C97_applies : forall k, exists (a b c : version k) q q2 q3 t,
  good_platform env1 (-1023) /\ ones env1 /\ ve_file a = field_file /\ ve_file b = german_renamed /\ ve_file c = german_timed /\
  fields_of a = ["length"%string] /\ fields_of c = ["time"%string; "laenge"%string] /\
  step env1 a q b q2 /\ step env1 b q2 c q3 /\ history env1 a q c q3 /\
  small_integers (fields_of a) (snd q) /\
  serialize (ops k) env1 (CodegenLiteral.lit k) (show k) exact_format exact_format (ve_defs a) (fst q) (RF64 f64_one) = Some (Some t) /\
  t = str "10000000000000000000000000000000000000000000000000000e-52 m^2" /\
  deserialize (ops k) (fields_of c) (ve_units c) env1 (Float F64) (fst q3) (EStr t) = Ok (RF64 f64_one).
Proof.
  intros k. destruct C83_applies as (_ & _ & _ & _ & W & _). destruct C94_same_text_applies as (_ & _ & W2 & Fi & _).
  set (t := "10000000000000000000000000000000000000000000000000000e-52 m^2"%string).
  assert (P : forall f, (forall s, In s (sl_items f) -> stmt_exps s = []) -> positive_denominators f).
  { intros f H s n d z Hs Hin. rewrite (H s Hs) in Hin. destruct Hin. }
  destruct (file_ok k field_file ["length"]%string [("length"%string, of_int k 2)] t) as (T1 & o1 & us1 & E1 & H1 & F1 & S1).
  { exact W. }
  { apply P. cbn [sl_items field_file In]. intros s Hs. repeat (destruct Hs as [<-|Hs]; [reflexivity|]). destruct Hs. }
  { subst t. destruct k; vm_compute; reflexivity. }
  destruct (file_ok k german_renamed ["laenge"]%string [("laenge"%string, of_int k 2)] t) as (T2 & o2 & us2 & E2 & H2 & F2 & _).
  { exact W2. }
  { apply P. cbn [sl_items german_renamed rename_file field_file map In]. intros s Hs. repeat (destruct Hs as [<-|Hs]; [reflexivity|]). destruct Hs. }
  { subst t. destruct k; vm_compute; reflexivity. }
  destruct (file_ok k german_timed ["time"; "laenge"]%string [("time"%string, of_int k 0); ("laenge"%string, of_int k 2)] t) as (T3 & o3 & us3 & E3 & H3 & F3 & _).
  { exact german_timed_wf. }
  { apply P. cbn [sl_items german_timed german_renamed rename_file field_file map In]. intros s Hs. repeat (destruct Hs as [<-|Hs]; [reflexivity|]). destruct Hs. }
  { subst t. destruct k; vm_compute; reflexivity. }
  set (a := {| ve_file := field_file; ve_system := T1; ve_defs := o1; ve_units := us1 |}).
  set (b := {| ve_file := german_renamed; ve_system := T2; ve_defs := o2; ve_units := us2 |}).
  set (c := {| ve_file := german_timed; ve_system := T3; ve_defs := o3; ve_units := us3 |}).
  set (v := fun _ : string => ZQc 2).
  set (v3 := fun f => if String.eqb f "laenge"%string then ZQc 2 else ZQc 0).
  set (q := ([("length"%string, of_int k 2)] : dimval (ops k), v)). set (q2 := ([("laenge"%string, of_int k 2)] : dimval (ops k), v)).
  set (q3 := ([("time"%string, of_int k 0); ("laenge"%string, of_int k 2)] : dimval (ops k), v3)).
  assert (Wa : working env1 a) by (split; [exact W|split; [exact E1|exact H1]]).
  assert (Wb : working env1 b) by (split; [exact W2|split; [exact E2|exact H2]]).
  assert (Wc : working env1 c) by (split; [exact german_timed_wf|split; [exact E3|exact H3]]).
  assert (Ta : type_in a q). { unfold type_in, fields_of, a. cbn [ve_defs]. rewrite F1. split; [reflexivity|]. intros f e [E|[]]; injection E as <- <-. apply of_int_val. }
  assert (Tb : type_in b q2). { unfold type_in, fields_of, b. cbn [ve_defs]. rewrite F2. split; [reflexivity|]. intros f e [E|[]]; injection E as <- <-. apply of_int_val. }
  assert (Tc : type_in c q3). { unfold type_in, fields_of, c. cbn [ve_defs]. rewrite F3. split; [reflexivity|]. intros f e [E|[E|[]]]; injection E as <- <-; apply of_int_val. }
  assert (Sab : step env1 a q b q2). { apply (Renamed env1 a q b q2 to_german); [reflexivity|exact Fi|]. intros D _. reflexivity. }
  assert (Sbc : step env1 b q2 c q3).
  { apply Extended.
    - intros x Hx. now do 2 right.
    - intros f Hf. unfold fields_of, b in Hf. cbn [ve_defs] in Hf. rewrite F2 in Hf. destruct Hf as [<-|[]]. reflexivity.
    - intros f Hf Hn. unfold fields_of, b, c in Hf, Hn. cbn [ve_defs] in Hf, Hn. rewrite F2 in Hn. rewrite F3 in Hf.
      destruct Hf as [<-|[<-|[]]]; [reflexivity|]. destruct Hn. now left. }
  assert (Hi : history env1 a q c q3) by (eapply Next; [exact Wa|exact Ta|exact Sab|eapply Next; [exact Wb|exact Tb|exact Sbc|now apply Same]]).
  assert (Vs : small_integers (fields_of a) (snd q)).
  { unfold fields_of, a. cbn [ve_defs]. rewrite F1. intros f [<-|[]]. exists 2. split; [lia|reflexivity]. }
  assert (On : ones env1) by now apply ones_rt.
  exists a, b, c, q, q2, q3, (str t).
  split; [exact good1|]. split; [exact On|]. do 3 (split; [reflexivity|]). split; [exact F1|]. split; [exact F3|].
  split; [exact Sab|]. split; [exact Sbc|]. split; [exact Hi|]. split; [exact Vs|]. split; [exact S1|]. split; [reflexivity|].
  apply (C97_written k env1 (-1023) exact_format exact_format a q c q3); auto.
  - exact good1.
  - exact exact_format32.
  - exact exact_format64.
  - reflexivity.
Qed.
