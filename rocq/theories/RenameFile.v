(** * Facts for C93: files under other names *)
From Coq Require Import String List Bool ZArith Lia.
From Verif Require Import MachineInt Ratio F64 Magnitude Exponent ExponentFacts SMap Snake Expression DimensionMath DimensionMathFacts Types PrefixSpec ExpansionSpec
  Resolve ResolveLoop ResolveChecks SystemSpec ResolveFacts ResolveEquations ResolveAccept Expansion Setting SystemFacts Parse Grammar ParseFacts ParsedSystems
  Accuracy AccuracyFacts ExactFacts IndependenceFacts RemovalFacts PropertiesSystem LocalSpec LocalFacts RenameSpec RenameFacts RenameAccept.
Import ListNotations.
Local Open Scope list_scope.

Section F.
Context (k : mode) (new sy : ident -> ident).
Notation X := (ops k).

Definition ren_template (t : unit_template X) : unit_template X :=
  {| ut_name := new (ut_name t); ut_symbol := option_map sy (ut_symbol t); ut_aliases := map new (ut_aliases t); ut_prefixes := ut_prefixes t;
     ut_annotation := option_map new (ut_annotation t); ut_definition := ren_definition X new new (ut_definition t) |}.
Definition ren_entry (e : entry k) : entry k :=
  match e with
  | EntQuantityType _ i => EntQuantityType k (new i)
  | EntDimensionType _ i => EntDimensionType k (new i)
  | EntDimension _ d => EntDimension k (ren_dimension X new d)
  | EntUnit _ u => EntUnit k (ren_template u)
  | EntConstant _ c => EntConstant k (ren_constant X new c)
  end.
Definition ren_system (T : template k) : template k :=
  {| u_dimension_types := map new (u_dimension_types T); u_quantity_types := map new (u_quantity_types T);
     u_dimensions := map (ren_dimension X new) (u_dimensions T); u_units := map ren_template (u_units T);
     u_constants := map (ren_constant X new) (u_constants T) |}.

Lemma flat_map_map {A B C} (f : B -> list C) (g : A -> B) l : flat_map f (map g l) = flat_map (fun x => f (g x)) l.
Proof. induction l as [|x l IH]; cbn [map flat_map]; [reflexivity|]. now rewrite IH. Qed.
Lemma map_flat_map {A B C} (f : B -> C) (g : A -> list B) l : map f (flat_map g l) = flat_map (fun x => map f (g x)) l.
Proof. induction l as [|x l IH]; cbn [map flat_map]; [reflexivity|]. now rewrite map_app, IH. Qed.

Lemma bases_ren l : bases_of (map (rename_attr new sy) l) = map new (bases_of l).
Proof. unfold bases_of. rewrite flat_map_map, map_flat_map. apply flat_map_ext. now intros []. Qed.
Lemma symbols_ren l : symbols_of (map (rename_attr new sy) l) = map sy (symbols_of l).
Proof. unfold symbols_of. rewrite flat_map_map, map_flat_map. apply flat_map_ext. now intros []. Qed.
Lemma one_ren (l : list ident) : at_most_one (map sy l) = option_map (option_map sy) (at_most_one l).
Proof. now destruct l as [|x [|y l]]. Qed.
Lemma metrics_ren l : metrics_of (map (rename_attr new sy) l) = metrics_of l.
Proof. unfold metrics_of. rewrite flat_map_map. apply flat_map_ext. now intros []. Qed.
Lemma explicit_ren l : explicit_prefixes (map (rename_attr new sy) l) = explicit_prefixes l.
Proof. unfold explicit_prefixes. rewrite flat_map_map. apply flat_map_ext. now intros []. Qed.
Lemma aliases_ren l : alias_names (map (rename_attr new sy) l) = map new (alias_names l).
Proof. unfold alias_names. rewrite flat_map_map, map_flat_map. apply flat_map_ext. now intros []. Qed.
Lemma prefixes_ren l : prefixes_of (map (rename_attr new sy) l) = prefixes_of l.
Proof. unfold prefixes_of. now rewrite metrics_ren, explicit_ren. Qed.

Lemma unit_rhs_ren x : mean_unit_rhs k (rename_x new x) = option_map (expr_map (ren new)) (mean_unit_rhs k x).
Proof. exact (proj1 (rename_mean k new mean_unit_atom (unit_atom_renamed new)) x). Qed.
Lemma dimension_rhs_ren x : mean_dimension_rhs k (rename_x new x) = option_map (expr_map (ren new)) (mean_dimension_rhs k x).
Proof. exact (proj1 (rename_mean k new mean_dimension_atom (dimension_atom_renamed new)) x). Qed.

Lemma mean_unit_ren l i ann rhs :
  mean_unit k (map (rename_attr new sy) l) (new i) (option_map new ann) (option_map (rename_x new) rhs) = option_map ren_template (mean_unit k l i ann rhs).
Proof.
  unfold mean_unit. rewrite bases_ren, symbols_ren, metrics_ren, explicit_ren, aliases_ren, one_ren.
  assert (D : mean_unit_definition k (map new (bases_of l)) (option_map (rename_x new) rhs) =
     option_map (ren_definition X new new) (mean_unit_definition k (bases_of l) rhs)).
  { destruct (bases_of l) as [|b [|b' bs]], rhs as [x|]; try reflexivity. cbn [map option_map mean_unit_definition]. rewrite unit_rhs_ren.
    now destruct (mean_unit_rhs k x). }
  rewrite D. destruct (mean_unit_definition k (bases_of l) rhs) as [d|]; [|reflexivity]. cbn [option_map].
  destruct (at_most_one (symbols_of l)) as [s|]; [|reflexivity]. now destruct (at_most_one (metrics_of l)) as [m|].
Qed.
Lemma mean_stmt_ren s : mean_stmt k (rename_stmt new sy s) = option_map ren_entry (mean_stmt k s).
Proof.
  destruct s as [l i|l i|l i rhs|l i ann rhs|l i ann x]; try reflexivity.
  - destruct rhs as [x|]; [|reflexivity]. cbn [rename_stmt option_map mean_stmt]. rewrite dimension_rhs_ren.
    now destruct (mean_dimension_rhs k x).
  - cbn [rename_stmt mean_stmt]. rewrite mean_unit_ren. now destruct (mean_unit k l i ann rhs).
  - cbn [rename_stmt mean_stmt]. rewrite unit_rhs_ren. now destruct (mean_unit_rhs k x).
Qed.
Lemma collect_ren l : collect (mean_stmt k) (map (rename_stmt new sy) l) = option_map (map ren_entry) (collect (mean_stmt k) l).
Proof.
  induction l as [|s l IH]; [reflexivity|]. cbn [map collect]. rewrite mean_stmt_ren, IH.
  destruct (mean_stmt k s); [|reflexivity]. cbn [option_map]. now destruct (collect (mean_stmt k) l).
Qed.
Lemma mean_file_ren f T : mean_file k f = Some T -> mean_file k (rename_file new sy f) = Some (ren_system T).
Proof.
  unfold mean_file. cbn [rename_file sl_items]. rewrite collect_ren. destruct (collect (mean_stmt k) (sl_items f)) as [es|]; [|discriminate].
  cbn [option_map]. intros E. assert (ET : T = {| u_dimension_types := flat_map (fun e => match e with EntDimensionType _ i => [i] | _ => [] end) es;
          u_quantity_types := flat_map (fun e => match e with EntQuantityType _ i => [i] | _ => [] end) es;
          u_dimensions := flat_map (fun e => match e with EntDimension _ d => [d] | _ => [] end) es;
          u_units := flat_map (fun e => match e with EntUnit _ u => [u] | _ => [] end) es;
          u_constants := flat_map (fun e => match e with EntConstant _ c => [c] | _ => [] end) es |}) by congruence.
  rewrite ET. unfold ren_system. cbn [u_dimension_types u_quantity_types u_dimensions u_units u_constants].
  rewrite !flat_map_map, !map_flat_map. f_equal. f_equal; apply flat_map_ext; now intros [].
Qed.

(** Units and base dimensions come from statements. *)
Lemma unit_statement f T t : mean_file k f = Some T -> In t (u_units T) ->
  exists l i ann rhs, In (SUnit l i ann rhs) (sl_items f) /\ ut_name t = i /\ ut_aliases t = alias_names l /\ ut_prefixes t = prefixes_of l /\
    forall s, ut_symbol t = Some s -> In s (symbols_of l).
Proof.
  unfold mean_file. destruct (collect (mean_stmt k) (sl_items f)) as [es|] eqn:Co; [|discriminate]. intros E Ht.
  assert (Eu : u_units T = flat_map (fun e => match e with EntUnit _ u => [u] | _ => [] end) es) by (injection E as <-; reflexivity).
  rewrite Eu in Ht. apply in_flat_map in Ht as (en & Hen & Ht). destruct en as [| | |u|]; try easy. destruct Ht as [->|[]].
  destruct (collect_in _ _ _ _ Co Hen) as (s & Hs & Ms).
  destruct s as [| |? ? [x|]|l i ann rhs|? ? ? x]; cbn [mean_stmt] in Ms; try discriminate Ms.
  - destruct (mean_dimension_rhs k x); discriminate Ms.
  - destruct (mean_unit k l i ann rhs) as [u|] eqn:Mu; [|discriminate Ms]. assert (u = t) by congruence. subst u.
    exists l, i, ann, rhs. split; [exact Hs|]. unfold mean_unit in Mu.
    destruct (mean_unit_definition k (bases_of l) rhs) as [def|] eqn:D; [|discriminate Mu].
    destruct (at_most_one (symbols_of l)) as [sm|] eqn:Sm; [|discriminate Mu].
    destruct (at_most_one (metrics_of l)) as [me|] eqn:Me; [|discriminate Mu].
    assert (Et : ut_name t = i /\ ut_aliases t = alias_names l /\
       ut_prefixes t = match me with Some skip => si_without skip | None => [] end ++ explicit_prefixes l /\
       ut_symbol t = sm)
      by (injection Mu as <-; auto).
    destruct Et as (En & Ea & Ep & Es). split; [exact En|]. split; [exact Ea|]. split.
    2:{ intros s0 H0. rewrite Es in H0. subst sm. destruct (symbols_of l) as [|s1 [|]]; cbn [at_most_one] in Sm; try discriminate Sm; [congruence|]. cbn [In]. left. congruence. }
    rewrite Ep. unfold prefixes_of. f_equal. destruct (metrics_of l) as [|m1 [|]]; cbn [at_most_one] in Me;
        try discriminate Me; injection Me as <-; cbn [flat_map]; rewrite ?app_nil_r; reflexivity.
  - destruct (mean_unit_rhs k x); discriminate Ms.
Qed.
Lemma symbol_statement f T u s : mean_file k f = Some T -> In u (u_units (declared T)) -> ue_symbol u = Some s -> symbols_in f s.
Proof.
  intros M Hu Q. cbn [declared u_units] in Hu. apply in_flat_map in Hu as (t & Ht & Hu). apply in_flat_map in Hu as (p & Hp & Hu).
  apply in_map_iff in Hu as (a & <- & Ha). destruct (unit_statement f T t M Ht) as (l & i & ann & rhs & Hs & _ & _ & Ep & Esy).
  cbn [variant ue_symbol] in Q. unfold variant_symbol in Q. destruct a as [a|]; [destruct p; discriminate Q|].
  destruct p as [p|], (ut_symbol t) as [s0|] eqn:E0; try discriminate Q;
    exists l, i, ann, rhs, s0; (split; [exact Hs|]); (split; [now apply Esy|]).
  - right. exists p. split; [|congruence]. rewrite <- Ep. unfold options in Hp. apply in_app_iff in Hp as [Hp|[Hp|[]]]; [|discriminate Hp].
    apply in_map_iff in Hp as (q & E & Hq). congruence.
  - left. congruence.
Qed.
Lemma base_statement f T d : mean_file k f = Some T -> In d (u_dimensions T) -> de_rhs d = DefBase tt -> In (de_name d, BaseDimension) (says f).
Proof.
  unfold mean_file. destruct (collect (mean_stmt k) (sl_items f)) as [es|] eqn:Co; [|discriminate]. intros E Ht B.
  assert (Ed : u_dimensions T = flat_map (fun e => match e with EntDimension _ u => [u] | _ => [] end) es) by (injection E as <-; reflexivity).
  rewrite Ed in Ht. apply in_flat_map in Ht as (en & Hen & Ht). destruct en as [| |u| |]; try easy. destruct Ht as [->|[]].
  destruct (collect_in _ _ _ _ Co Hen) as (s & Hs & Ms).
  destruct s as [| |? i [x|]|l i ann rhs|? ? ? x]; cbn [mean_stmt] in Ms; try discriminate Ms.
  - destruct (mean_dimension_rhs k x); [|discriminate Ms]. exfalso. assert (K : de_rhs d = DefExpr e) by (injection Ms as <-; reflexivity).
    rewrite B in K. discriminate K.
  - assert (K : de_name d = i) by (injection Ms as <-; reflexivity). unfold says. apply in_flat_map. eexists. split; [exact Hs|].
    cbn [says_stmt]. left. now rewrite K.
  - destruct (mean_unit k l i ann rhs); discriminate Ms.
  - destruct (mean_unit_rhs k x); discriminate Ms.
Qed.

Lemma variant_ren t p a : (forall p' a', In p' (ut_prefixes t) -> a' = ut_name t \/ In a' (ut_aliases t) -> new (si_name p' ++ a')%string = (si_name p' ++ new a')%string) ->
  (forall p' s', In p' (ut_prefixes t) -> ut_symbol t = Some s' -> sy (si_symbol p' ++ s')%string = (si_symbol p' ++ sy s')%string) ->
  chosen (ut_prefixes t) p -> chosen (ut_aliases t) a ->
  variant (ren_template t) p (option_map new a) = ren_unit X new sy (variant t p a).
Proof.
  intros H Hsy Hp Ha. unfold variant, ren_unit. cbn [ue_name ue_symbol ue_annotation ue_definition ue_autogenerated_from].
  assert (En : variant_name (ren_template t) p (option_map new a) = new (variant_name t p a)).
  { unfold variant_name. cbn [ut_name ren_template]. destruct p as [p|], a as [a|]; cbn [option_map chosen] in *; try reflexivity;
      symmetry; apply H; auto. }
  assert (Es : variant_symbol (ren_template t) p (option_map new a) = option_map sy (variant_symbol t p a)).
  { unfold variant_symbol. cbn [ut_symbol ren_template]. destruct a as [a|], p as [p|]; cbn [option_map chosen] in *;
      destruct (ut_symbol t) as [s|] eqn:Q; cbn [option_map]; try reflexivity. f_equal. symmetry. now apply Hsy. }
  rewrite En, Es. unfold variant_definition. cbn [ren_template ut_symbol ut_annotation ut_definition ut_name].
  destruct p as [p|], a as [a|]; reflexivity.
Qed.
Lemma declared_ren f T : mean_file k f = Some T -> keeps_prefixes new f -> keeps_prefixed_symbols sy f -> renames X new sy (declared T) (declared (ren_system T)).
Proof.
  intros M Kp Ks. unfold renames. cbn [declared ren_system u_quantity_types u_dimension_types u_dimensions u_units u_constants].
  rewrite !map_length. do 3 (split; [reflexivity|]). split; [|reflexivity].
  rewrite flat_map_map, map_flat_map.
  assert (G : forall l, (forall t, In t l -> In t (u_units T)) ->
    flat_map (fun t => flat_map (fun p => map (variant (ren_template t) p) (options (ut_aliases (ren_template t)))) (options (ut_prefixes (ren_template t)))) l =
    flat_map (fun t => map (ren_unit X new sy) (flat_map (fun p => map (variant t p) (options (ut_aliases t))) (options (ut_prefixes t)))) l).
  { induction l as [|t l IH]; intros Hl; [reflexivity|]. cbn [flat_map]. rewrite IH by (intros t' Ht; apply Hl; now right). f_equal.
    destruct (unit_statement f T t M (Hl t (or_introl eq_refl))) as (at_ & i & ann & rhs & Hs & En & Ea & Ep & Esy).
    assert (H : forall p' a', In p' (ut_prefixes t) -> a' = ut_name t \/ In a' (ut_aliases t) -> new (si_name p' ++ a')%string = (si_name p' ++ new a')%string).
    { intros p' a' Hp Ha. rewrite Ep in Hp. rewrite En, Ea in Ha. exact (Kp at_ i ann rhs Hs p' a' Hp Ha). }
    assert (Hsy : forall p' s', In p' (ut_prefixes t) -> ut_symbol t = Some s' -> sy (si_symbol p' ++ s')%string = (si_symbol p' ++ sy s')%string).
    { intros p' s' Hp Hs'. rewrite Ep in Hp. exact (Ks at_ i ann rhs Hs p' s' Hp (Esy s' Hs')). }
    cbn [ren_template ut_prefixes ut_aliases]. rewrite map_flat_map.
    assert (Op : forall A (l : list A) x, In x (options l) -> chosen l x).
    { intros A l' x. unfold options. rewrite in_app_iff, in_map_iff. destruct x as [x|]; cbn [chosen In].
      - intros [(y & [= ->] & Hy)|[Hy|[]]]; [exact Hy|discriminate].
      - auto. }
    assert (Om : options (map new (ut_aliases t)) = map (option_map new) (options (ut_aliases t))).
    { unfold options. rewrite map_app, !map_map. reflexivity. }
    rewrite Om. clear Om. pose proof (Op _ (ut_prefixes t)) as Opp. generalize dependent (options (ut_prefixes t)). intros ps Opp.
    induction ps as [|p ps IHp]; [reflexivity|]. cbn [flat_map]. rewrite IHp by (intros x Hx; apply Opp; now right). f_equal.
    rewrite !map_map. apply map_ext_in. intros a Ha. apply variant_ren; [exact H|exact Hsy|apply Opp; now left|now apply Op]. }
  apply G. auto.
Qed.

Lemma says_ren f : keeps_prefixes new f -> forall n d, In (n, d) (says f) -> In (new n, renamed new d) (says (rename_file new sy f)).
Proof.
  intros Kp n d H. unfold says in *. cbn [rename_file sl_items]. apply in_flat_map in H as (s & Hs & H).
  apply in_flat_map. exists (rename_stmt new sy s). split; [now apply in_map|].
  destruct s as [l i|l i|l i rhs|l i ann rhs|l i ann x]; cbn [rename_stmt says_stmt] in *; try easy.
  - destruct rhs as [x|]; cbn [option_map]; destruct H as [H|[]]; left; injection H as <- <-; reflexivity.
  - rewrite !in_app_iff in *. rewrite bases_ren, aliases_ren, prefixes_ren. destruct H as [H|[H|H]].
    + left. destruct rhs as [x|]; cbn [option_map].
      * destruct H as [H|[]]. left. injection H as <- <-. reflexivity.
      * apply in_map_iff in H as (b & H & Hb). injection H as <- <-. apply in_map_iff. exists (new b). split; [reflexivity|now apply in_map].
    + right. left. apply in_map_iff in H as (a & H & Ha). injection H as <- <-. apply in_map_iff. exists (new a). split; [reflexivity|now apply in_map].
    + right. right. apply in_flat_map in H as (p & Hp & H). apply in_map_iff in H as (a & H & Ha).
      assert (En : n = (si_name p ++ a)%string) by congruence. assert (Ed : d = PowerOfTen (si_power p) i) by congruence. rewrite En, Ed.
      apply in_flat_map. exists p. split; [exact Hp|]. apply in_map_iff. exists (new a). split.
      * rewrite (Kp l i ann rhs Hs p a Hp); [reflexivity|]. destruct Ha as [->|Ha]; auto.
      * destruct Ha as [->|Ha]; [now left|right; now apply in_map].
  - destruct H as [H|[]]. left. injection H as <- <-. reflexivity.
Qed.

Lemma says_ren_back f : keeps_prefixes new f -> forall n2 d2, In (n2, d2) (says (rename_file new sy f)) -> exists n d, n2 = new n /\ In (n, d) (says f).
Proof.
  intros Kp n2 d2 H. unfold says in *. cbn [rename_file sl_items] in H. apply in_flat_map in H as (s2 & Hs2 & H).
  apply in_map_iff in Hs2 as (s & <- & Hs).
  assert (IN : forall n d, In (n, d) (says_stmt s) -> n2 = new n -> exists n d, n2 = new n /\ In (n, d) (flat_map says_stmt (sl_items f))).
  { intros n d Hn E. exists n, d. split; [exact E|]. apply in_flat_map. eauto. }
  destruct s as [l i|l i|l i rhs|l i ann rhs|l i ann x]; cbn [rename_stmt says_stmt] in *; try easy.
  - destruct rhs as [x|]; cbn [option_map] in H; destruct H as [H|[]]; (eapply IN; [left; reflexivity|congruence]).
  - rewrite !in_app_iff in H. rewrite bases_ren, aliases_ren, prefixes_ren in H. destruct H as [H|[H|H]].
    + destruct rhs as [x|]; cbn [option_map] in H.
      * destruct H as [H|[]]. apply (IN i (ValueIs x)); [|congruence]. apply in_app_iff. left. now left.
      * apply in_map_iff in H as (b2 & H & Hb). apply in_map_iff in Hb as (b & <- & Hb). apply (IN i (BaseUnitOf b)); [|congruence].
        apply in_app_iff. left. apply in_map_iff. eauto.
    + apply in_map_iff in H as (a2 & H & Ha). apply in_map_iff in Ha as (a & <- & Ha). apply (IN a (PowerOfTen 0 i)); [|congruence].
      rewrite !in_app_iff. right. left. apply in_map_iff. eauto.
    + apply in_flat_map in H as (p & Hp & H). apply in_map_iff in H as (a2 & H & Ha).
      assert (A : exists a, a2 = new a /\ (a = i \/ In a (alias_names l))).
      { destruct Ha as [<-|Ha]; [eauto|]. apply in_map_iff in Ha as (a & <- & Ha). eauto. }
      destruct A as (a & -> & Ha'). apply (IN (si_name p ++ a)%string (PowerOfTen (si_power p) i)).
      * rewrite !in_app_iff. right. right. apply in_flat_map. exists p. split; [exact Hp|]. apply in_map_iff. exists a. split; [reflexivity|].
        destruct Ha' as [->|Ha']; [now left|now right].
      * rewrite (Kp l i ann rhs Hs p a Hp Ha'). congruence.
  - destruct H as [H|[]]. eapply IN; [left; reflexivity|congruence].
Qed.

Lemma says_base_back f D2 : In (D2, BaseDimension) (says (rename_file new sy f)) -> exists D, D2 = new D /\ In (D, BaseDimension) (says f).
Proof.
  intros H. unfold says in *. cbn [rename_file sl_items] in H. apply in_flat_map in H as (s2 & Hs2 & H).
  apply in_map_iff in Hs2 as (s & <- & Hs).
  destruct s as [l i|l i|l i rhs|l i ann rhs|l i ann x]; cbn [rename_stmt says_stmt] in *; try easy.
  - destruct rhs as [x|]; cbn [option_map] in H; destruct H as [H|[]]; [discriminate H|].
    exists i. split; [congruence|]. apply in_flat_map. eexists. split; [exact Hs|]. now left.
  - exfalso. rewrite !in_app_iff in H. destruct H as [H|[H|H]].
    + destruct rhs as [x|]; cbn [option_map] in H; [destruct H as [H|[]]; discriminate H|].
      apply in_map_iff in H as (b & H & _). discriminate H.
    + apply in_map_iff in H as (b & H & _). discriminate H.
    + apply in_flat_map in H as (p & _ & H). apply in_map_iff in H as (a & H & _). discriminate H.
  - destruct H as [H|[]]. discriminate H.
Qed.
Lemma keeps_prefixes_back f (old oldsy : ident -> ident) : keeps_prefixes new f -> rename_file old oldsy (rename_file new sy f) = f ->
  (forall n d, In (n, d) (says f) -> old (new n) = n) -> keeps_prefixes old (rename_file new sy f).
Proof.
  intros Kp Back Inv l2 i2 ann2 rhs2 H2 p a2 Hp Ha. cbn [rename_file sl_items] in H2. apply in_map_iff in H2 as (s & E & Hs).
  destruct s as [l i|l i|l i rhs|l i ann rhs|l i ann x]; try discriminate E. cbn [rename_stmt] in E.
  assert (El : l2 = map (rename_attr new sy) l) by congruence. assert (Ei : i2 = new i) by congruence. rewrite El in Hp, Ha. rewrite Ei in Ha.
  rewrite prefixes_ren in Hp. rewrite aliases_ren in Ha.
  assert (A : exists a, a2 = new a /\ (a = i \/ In a (alias_names l))).
  { destruct Ha as [->|Ha]; [eauto|]. apply in_map_iff in Ha as (a & <- & Ha). eauto. }
  destruct A as (a & -> & Ha'). rewrite <- (Kp l i ann rhs Hs p a Hp Ha').
  assert (S1 : exists d, In ((si_name p ++ a)%string, d) (says f)).
  { exists (PowerOfTen (si_power p) i). apply in_flat_map. exists (SUnit l i ann rhs). split; [exact Hs|]. cbn [says_stmt].
    rewrite !in_app_iff. right. right. apply in_flat_map. exists p. split; [exact Hp|]. apply in_map_iff. exists a. split; [reflexivity|].
    destruct Ha' as [->|Ha']; [now left|now right]. }
  destruct S1 as [d1 S1]. rewrite (Inv _ _ S1). f_equal. symmetry.
  destruct Ha' as [->|Ha'].
  - assert (Es : rename_stmt old oldsy (rename_stmt new sy (SUnit l i ann rhs)) = SUnit l i ann rhs).
    { apply (f_equal sl_items) in Back. cbn [rename_file sl_items] in Back. rewrite map_map in Back. revert Back Hs. clear.
      induction (sl_items f) as [|s0 r IH]; [easy|]. cbn [map]. intros E [->|H]; [congruence|]. apply IH; [congruence|exact H]. }
    cbn [rename_stmt] in Es. congruence.
  - apply (Inv a (PowerOfTen 0 i)). apply in_flat_map. exists (SUnit l i ann rhs). split; [exact Hs|]. cbn [says_stmt]. rewrite !in_app_iff.
    right. left. apply in_map_iff. eauto.
Qed.

Lemma symbols_ren_back f : keeps_prefixed_symbols sy f -> forall t, symbols_in (rename_file new sy f) t -> exists s, t = sy s /\ symbols_in f s.
Proof.
  intros Ks t (l2 & i2 & ann2 & rhs2 & s2 & H2 & Hs & Ht). cbn [rename_file sl_items] in H2. apply in_map_iff in H2 as (st & E & Hst).
  destruct st as [l i|l i|l i rhs|l i ann rhs|l i ann x]; try discriminate E. cbn [rename_stmt] in E.
  assert (El : l2 = map (rename_attr new sy) l) by congruence. rewrite El in Hs, Ht. rewrite symbols_ren in Hs. rewrite prefixes_ren in Ht.
  apply in_map_iff in Hs as (s & <- & Hs). destruct Ht as [->|(p & Hp & ->)].
  - exists s. split; [reflexivity|]. exists l, i, ann, rhs, s. auto.
  - exists (si_symbol p ++ s)%string. split; [symmetry; exact (Ks l i ann rhs Hst p s Hp Hs)|].
    exists l, i, ann, rhs, s. split; [exact Hst|]. split; [exact Hs|]. right. eauto.
Qed.
Lemma keeps_symbols_back f (oldsy : ident -> ident) : keeps_prefixed_symbols sy f -> (forall s, symbols_in f s -> oldsy (sy s) = s) ->
  keeps_prefixed_symbols oldsy (rename_file new sy f).
Proof.
  intros Ks Inv l2 i2 ann2 rhs2 H2 p s2 Hp Hs. cbn [rename_file sl_items] in H2. apply in_map_iff in H2 as (st & E & Hst).
  destruct st as [l i|l i|l i rhs|l i ann rhs|l i ann x]; try discriminate E. cbn [rename_stmt] in E.
  assert (El : l2 = map (rename_attr new sy) l) by congruence. rewrite El in Hp, Hs. rewrite symbols_ren in Hs. rewrite prefixes_ren in Hp.
  apply in_map_iff in Hs as (s & <- & Hs). rewrite <- (Ks l i ann rhs Hst p s Hp Hs).
  rewrite !Inv; [reflexivity| |]; exists l, i, ann, rhs, s; (split; [exact Hst|split; [exact Hs|]]); [now left|right; eauto].
Qed.

Lemma renamed_file_accepted env f T o : mean_file k f = Some T -> run_unit_system X env T = Some (o, []) -> keeps_prefixes new f ->
  (forall n d n' d', In (n, d) (says f) -> In (n', d') (says f) -> new n = new n' -> n = n') ->
  (forall D D', In (D, BaseDimension) (says f) -> In (D', BaseDimension) (says f) ->
     (base_dimension_of D = base_dimension_of D' <-> base_dimension_of (new D) = base_dimension_of (new D'))) ->
  keeps_prefixed_symbols sy f -> (forall s t, symbols_in f s -> symbols_in f t -> sy s = sy t -> s = t) ->
  exists o2, run_unit_system X env (ren_system T) = Some (o2, []).
Proof.
  intros M R Kp Inj Fields Ks SymInj. unfold run_unit_system in *.
  pose proof (generated_ok_expand X T) as G1. pose proof (generated_ok_expand X (ren_system T)) as G2. rewrite declared_expand in *.
  apply (renamed_accepted X (laws k) env new sy (declared T) (declared (ren_system T)) o G1 G2 R (declared_ren f T M Kp Ks)).
  - intros x y Hx Hy E. destruct (decl_said k f T x M Hx) as (d & Hd). destruct (decl_said k f T y M Hy) as (d' & Hd'). exact (Inj _ d _ d' Hd Hd' E).
  - intros u v s t Hu Hv Qs Qt. apply SymInj; [exact (symbol_statement f T u s M Hu Qs)|exact (symbol_statement f T v t M Hv Qt)].
  - intros d d' Hd Hd' B B'. apply Fields; apply (base_statement f T); assumption.
Qed.
End F.
