(** * Serialization round trips: C48, C49

    [serialize X env lit show fmt32 fmt64 o D value = Some (Some t)]: serializing a quantity of
    dimension [D] with the stored value [value] gives the string [t]. *)
From Coq Require Import String Ascii List Bool ZArith QArith Qcanon Lia Reals Permutation.
From Flocq Require Import IEEE754.Binary IEEE754.Bits.
From Verif Require Import MachineInt Ratio RatioFacts F64 Magnitude MagnitudeFacts Exponent ExponentFacts SMap
  Expression DimensionMath DimensionMathFacts Types Snake Resolve SystemSpec ResolveFacts
  ResolveEquations Expansion CodegenDimension CodegenDimensionFacts CodegenLiteral Setting
  SystemFacts ExampleSystems PropertiesDimension Storage Raw Text TextFacts Debug TextSystem
  PropertiesDebug Serde SerdeFacts PropertiesSerde FloatOps NumberFormat RoundTripFacts.
Import ListNotations.
Local Close Scope R_scope.
Local Close Scope Q_scope.
Local Close Scope Qc_scope.
Local Open Scope list_scope.
Local Open Scope Z_scope.

(** ** Specification *)

(** Powers of one are one (core's [powi] and [powf] both say so). *)
Definition ones (env : fenv) : Prop :=
  (forall e, f_powi env f64_one e = f64_one) /\ (forall x, f_powf env f64_one x = f64_one).

(** A stored value of the storage type [s] without NaN. *)
Definition stored_value (s : storage) (value : raw) : Prop :=
  match s, value with
  | Float F32, RF32 x => is_nan 24 128 x = false
  | Float F64, RF64 x => is_nan 53 1024 x = false
  | Vector v, RVec32 xs => component v = F32 /\ length xs = num_dims v /\ Forall (fun x => is_nan 24 128 x = false) xs
  | Vector v, RVec64 xs => component v = F64 /\ length xs = num_dims v /\ Forall (fun x => is_nan 53 1024 x = false) xs
  | _, _ => False
  end.

(** The exponents are integers of 32 bits. *)
Definition small_integers (fields : list string) (v : string -> Qc) : Prop :=
  forall f, In f fields -> exists e, - 2 ^ 31 <= e < 2 ^ 31 /\ v f = ZQc e.

(** ** The units written by serialization *)

Lemma text_ZQc e : exponent_text (ZQc e) = show_int e.
Proof. unfold exponent_text. now rewrite this_ZQc. Qed.

Section Written.
Context (k : mode) (env : fenv) (lo : Z) (T : unresolved (ops k) (unit_template (ops k))) (o : defs (ops k))
  (us : list (runtime_unit (ops k))).
Hypothesis G : good_platform env lo.
Hypothesis One : ones env.
Hypothesis H : readable_system k env T o us.
Notation X := (ops k).
Notation L := (laws k).
Notation fields := (df_base_dimensions o).

Lemma power_of_one e : unit_power k env f64_one e = f64_one.
Proof.
  destruct One as [O1 O2]. unfold unit_power, stored. destruct G as [Hlo Hp].
  destruct k; [rewrite O1|rewrite O2]; apply (roundtrip_stable env lo); auto; try lia; apply one_stable; lia.
Qed.

Lemma product_one terms : (forall ue, In ue terms -> into_f64 env (un_mag (fst ue)) = f64_one) ->
  product k env terms = f64_one.
Proof.
  unfold product. intros Ho. induction terms as [|ue terms IH]; [reflexivity|]. cbn [fold_left].
  rewrite (Ho ue) by now left. rewrite power_of_one. rewrite f64_one_mul by reflexivity.
  apply IH. intros x Hx. apply Ho. now right.
Qed.

(** One symbol: reading cannot panic. *)
Lemma one_symbol_reads {M} (one : M) mul power w u : unit_word k o w (u, 1) ->
  read_unit_str X fields us one mul power [w] <> Panic.
Proof.
  destruct H as (C & Hid & Us). intros Hw.
  pose proof (nodup_fields k env T o C) as N. unfold read_unit_str.
  rewrite (dim_none_eq X fields N). set (none := map (fun f => (f, e_zero X)) fields). cbn [or_panic andthen read_units].
  destruct (single_word k env T o C Hid us Us power w u 1 Hw) as (d0 & Sd & I & ->).
  assert (Em : exists d, dim_mul X fields d0 1 = Some d).
  { unfold dim_mul. rewrite method1_eq by exact N. apply (entries1_defined X fields N _ d0 (proj1 Sd)).
    intros f x Hx. exists x. apply mul_by_one; [|eapply I; eauto]. destruct Sd as [_ Sd]. apply (Sd f x Hx). }
  destruct Em as [d Em]. rewrite Em. cbn [or_panic andthen fst snd].
  assert (d = d0).
  { pose proof (dim_mul_spec X fields N L d0 1 d _ Em Sd) as S1.
    apply (C08_identity k fields d d0 _ _ N S1 Sd). intros f _. replace (ZQc 1) with 1%Qc by now apply Qc_is_canon. ring. }
  subst d.
  assert (Ea : exists t1, dim_add X fields none d0 = Some t1).
  { unfold dim_add. rewrite method2_eq by exact N.
    apply (entries2_defined X fields N _ _ d0).
    - unfold shaped, none. now rewrite map_map, map_id.
    - exact (proj1 Sd).
    - intros f x y Hx Hy. apply in_map_iff in Hx as (g & Eg & _). injection Eg as <- <-.
      exists y. apply zero_add; [|eapply I; eauto]. destruct Sd as [_ Sd]. apply (Sd g y Hy). }
  destruct Ea as [t1 Ea].
  match goal with |- context [or_panic ?e] => change e with (dim_add X fields none d0) end. rewrite Ea. cbn [or_panic andthen]. discriminate.
Qed.

Lemma symbol_chars u name c : In u (df_units o) -> un_symbol u = Some name -> In c (str name) -> ~ In c (str "()[],").
Proof.
  destruct H as (C & Hid & Us). intros Hu En Hc I. destruct (Hid u name Hu En) as [_ Hn].
  apply (Hn c Hc). simpl in I |- *. tauto.
Qed.

Lemma int_chars e c : In c (show_int e) -> ~ In c (str "()[],").
Proof.
  rewrite <- text_ZQc. intros Hc I. apply exponent_text_chars in Hc as [->|[->|(d & Hd & ->)]].
  - simpl in I. intuition discriminate.
  - simpl in I. intuition discriminate.
  - assert (B : In (byte (chr d)) [40; 41; 91; 93; 44]%N).
    { simpl in I. destruct I as [<-|[<-|[<-|[<-|[<-|[]]]]]]; vm_compute; tauto. }
    clear I. assert (Hn : d = 0 \/ d = 1 \/ d = 2 \/ d = 3 \/ d = 4 \/ d = 5 \/ d = 6 \/ d = 7 \/ d = 8 \/ d = 9) by lia.
    repeat (destruct Hn as [->|Hn]; [vm_compute in B; intuition discriminate|]). subst d. vm_compute in B. intuition discriminate.
Qed.

Lemma serialized_units D v value t :
  denotes k fields D v -> ((exists s, coherent_symbol k env o s v) \/ small_integers fields v) ->
  debug X env (lit k) (show k) o D value = Some (Some t) ->
  exists ws terms, t = value ++ unwords ws /\ Forall word ws /\
    (forall x c, In x ws -> In c x -> ~ In c (str "()[],")) /\
    text_terms k o ws terms /\ (forall b, In b fields -> total_exponent k terms b = v b) /\
    product k env terms = f64_one /\
    ((exists w u, ws = [w] /\ unit_word k o w (u, 1)) \/
     exists zu, (forall u b, exponent_in k u b = 0%Qc -> zu u b = 0) /\
      (forall ue b, In ue terms -> In b fields -> exponent_in k (fst ue) b = ZQc (zu (fst ue) b)) /\
      forall b, In b fields -> weight k zu terms b < 2 ^ 63).
Proof.
  intros HD Hv E. destruct H as (C & Hid & Us).
  destruct (C46_text k env T o D v value t C HD E) as [(s & (u & name & Hu & En & -> & Ho & Hd) & ->)|(Hns & sym & Hsym & ->)].
  - exists [str name], [(u, 1)]. split; [cbn [unwords flat_map]; now rewrite app_nil_r|].
    assert (Hw : unit_word k o (str name) (u, 1)). { split; [exact Hu|]. exists name. auto. }
    split; [constructor; [apply (Hid u name Hu En)|constructor]|].
    split; [intros x c [<-|[]]; now apply (symbol_chars u)|].
    split; [constructor; [exact Hw|constructor]|].
    split; [|split].
    + intros b Hb. unfold total_exponent. cbn [map total fold_right fst snd]. rewrite (Hd b Hb).
      replace (ZQc 1) with 1%Qc by now apply Qc_is_canon. ring.
    + apply product_one. intros ue [<-|[]]. exact Ho.
    + left. exists (str name), u. auto.
  - destruct Hv as [(s & Hs)|Hint]; [exfalso; exact (Hns s Hs)|].
    set (fs := filter (fun f => if Qc_eq_dec (v f) (ZQc 0) then false else true) fields).
    destruct (words_of_powers sym v fields) as (ws & Ew & Hw). fold fs in Hw.
    assert (Hfs : forall f, In f fs -> In f fields /\ v f <> ZQc 0).
    { intros f Hf. apply filter_In in Hf as [Hf Hn]. destruct (Qc_eq_dec (v f) (ZQc 0)); [discriminate|auto]. }
    set (z := fun f => Qnum (this (v f))).
    assert (Hz : forall f, In f fields -> v f = ZQc (z f) /\ - 2 ^ 31 <= z f < 2 ^ 31).
    { intros f Hf. destruct (Hint f Hf) as (e & He & Ev). unfold z. rewrite Ev, num_ZQc. auto. }
    set (zu := fun (u : unit_def X) b => Qnum (this (exponent_in k u b))).
    assert (Hterms : NoDup fs -> exists terms, text_terms k o ws terms /\
              (forall b, In b fields -> total_exponent k terms b = fold_right (fun g s => (v g * basis g b + s)%Qc) 0%Qc fs) /\
              (forall ue, In ue terms -> into_f64 env (un_mag (fst ue)) = f64_one) /\
              (forall x c, In x ws -> In c x -> ~ In c (str "()[],")) /\
              (forall ue b, In ue terms -> In b fields -> exponent_in k (fst ue) b = ZQc (zu (fst ue) b)) /\
              Forall word ws /\
              forall b, In b fields -> weight k zu terms b <= (if in_dec string_dec b fs then 2 ^ 31 else 0)).
    { clear Ew. revert ws Hw Hfs. generalize fs as gs. induction gs as [|g gs IH]; intros ws Hw Hfs Nd.
      - inversion Hw; subst. exists []. split; [constructor|]. split; [reflexivity|]. split; [intros ue []|].
        split; [intros x c []|]. split; [intros ue b []|]. split; [constructor|]. intros b _. cbn. lia.
      - inversion Hw as [|w fq ws' l' [_ Hg] Hr]; subst. inversion Nd as [|? ? Ng Nd']; subst.
        destruct (IH ws') as (terms & Ht & Hs & Ho & Hc & Hb & Hwd & Hwt); auto. { intros f Hf. apply Hfs. now right. }
        destruct (Hfs g (or_introl eq_refl)) as [Hgf Hgn].
        destruct (Hsym g Hgf Hgn) as (u & name & Hu & En & Es & Hone & Hd).
        destruct (Hz g Hgf) as [Ez Rz]. cbn [fst snd] in Hg.
        assert (Hword : unit_word k o w (u, z g)).
        { split; [exact Hu|]. exists name. split; [exact En|]. cbn [fst snd]. rewrite <- Es. destruct Hg as [[H1 ->]|H2].
          - left. split; auto. rewrite H1 in Ez. apply ZQc_inj in Ez. auto.
          - right. exists (show_int (z g)). split; [rewrite H2, Ez, text_ZQc; reflexivity|]. now apply parse_show_i32. }
        exists ((u, z g) :: terms). split; [constructor; auto|].
        split; [|split; [|split; [|split; [|split]]]].
        + intros f Hf. unfold total_exponent in Hs |- *. cbn [map total fold_right fst snd].
          rewrite (Hd f Hf), <- Ez. f_equal. now apply Hs.
        + intros ue [<-|Hue]; auto.
        + intros x c [<-|Hx] Hcx; [|now apply (Hc x)].
          destruct Hg as [[_ ->]| ->].
          * rewrite Es in Hcx. now apply (symbol_chars u name).
          * apply in_app_iff in Hcx as [Hcx|[<-|Hcx]].
            -- rewrite Es in Hcx. now apply (symbol_chars u name).
            -- simpl. intuition discriminate.
            -- rewrite Ez, text_ZQc in Hcx. now apply (int_chars (z g)).
        + intros ue b [<-|Hue] Hbf; [|auto]. cbn [fst]. unfold zu. rewrite (Hd b Hbf). unfold basis.
          destruct (String.eqb b g); now rewrite num_ZQc.
        + constructor; auto. destruct (Hid u name Hu En) as [[Hne Hso] _]. destruct Hg as [[_ ->]| ->].
          * rewrite Es. split; auto.
          * rewrite Es. split; [destruct (str name); discriminate|]. apply solid_app; auto. apply graphic_solid. constructor.
            { unfold graphic. change (byte "^") with 94%N. lia. }
            apply Forall_forall. intros c Hcx. apply exponent_text_chars in Hcx as [->|[->|(d & Hdd & ->)]].
            { unfold graphic. change (byte "-") with 45%N. lia. }
            { unfold graphic. change (byte "/") with 47%N. lia. }
            now apply chr_graphic.
        + intros b Hbf. cbn [weight fold_right fst snd]. fold (weight k zu terms b). specialize (Hwt b Hbf).
          assert (Eu : zu u b = if String.eqb b g then 1 else 0).
          { unfold zu. rewrite (Hd b Hbf). unfold basis. destruct (String.eqb b g); now rewrite num_ZQc. }
          rewrite Eu. destruct (String.eqb_spec b g) as [->|Ne].
          * destruct (in_dec string_dec g gs) as [I|I]; [contradiction|].
            destruct (in_dec string_dec g (g :: gs)) as [_|I']; [lia|exfalso; apply I'; now left].
          * rewrite Z.mul_0_r. destruct (in_dec string_dec b gs) as [I|I]; destruct (in_dec string_dec b (g :: gs)) as [I'|I'].
            -- lia.
            -- exfalso. apply I'. now right.
            -- destruct I' as [I'|I']; [exfalso; congruence|contradiction].
            -- lia. }
    pose proof (nodup_fields k env T o C) as N.
    destruct (Hterms (NoDup_filter _ N)) as (terms & Ht & Hs & Ho & Hc & Hb & Hwd & Hwt).
    exists ws, terms. split; [now rewrite Ew|]. split; [exact Hwd|]. split; [exact Hc|]. split; [exact Ht|].
    split; [|split].
    + intros b Hbf. rewrite Hs by auto. rewrite sum_basis.
      * destruct (in_dec string_dec b fs) as [I|I]; auto.
        destruct (Qc_eq_dec (v b) (ZQc 0)) as [Z0|Nz]; [rewrite Z0; now apply Qc_is_canon|].
        exfalso. apply I. apply filter_In. split; auto. now destruct (Qc_eq_dec (v b) (ZQc 0)).
      * now apply NoDup_filter.
      * intros g Hg E0. apply Hfs in Hg as [_ Hg]. apply Hg. rewrite E0. now apply Qc_is_canon.
    + now apply product_one.
    + right. exists zu. split; [intros u b E0; unfold zu; now rewrite E0|]. split; [exact Hb|].
      intros f Hf. specialize (Hwt f Hf). destruct (in_dec string_dec f fs); lia.
Qed.
Lemma serialized_reads ws terms : text_terms k o ws terms ->
  (exists w u, ws = [w] /\ unit_word k o w (u, 1)) \/
  (exists zu, (forall ue b, In ue terms -> In b fields -> exponent_in k (fst ue) b = ZQc (zu (fst ue) b)) /\
     forall b, In b fields -> weight k zu terms b < 2 ^ 63) ->
  code_read_unit_str X fields us env ws <> Panic.
Proof.
  intros Ht [(w & u & -> & Hw)|(zu & Hz & Hb)].
  - now apply (one_symbol_reads f64_one f64_mul (code_power X env) w u).
  - destruct H as (C & Hid & Us). exact (read_fit k env T o C Hid us Us f64_one f64_mul (code_power X env) zu ws terms Ht Hz Hb).
Qed.
End Written.

(** ** The text of the stored value *)

Section Value.
Context (fmt32 : f32 -> text) (fmt64 : f64 -> text).
Hypothesis F32_ok : number_format parse_f32 (is_nan 24 128) fmt32.
Hypothesis F64_ok : number_format parse_f64 (is_nan 53 1024) fmt64.

Lemma format_word {F} parse isnan (fmt : F -> text) x : number_format parse isnan fmt -> word (fmt x).
Proof.
  intros N. split; [apply (nf_nonempty _ _ _ N)|]. apply graphic_solid. apply Forall_forall.
  intros c Hc. apply (nf_chars _ _ _ N x c Hc).
Qed.

Lemma num_dims_pos v : exists n, num_dims v = S n.
Proof. destruct v; simpl; eauto. Qed.

(** The string for a vector: its components between round brackets, then the units. *)
Lemma vector_string {F} parse isnan (fmt : F -> text) xs us : number_format parse isnan fmt -> xs <> [] ->
  (forall x c, In x us -> In c x -> ~ In c (str "()[],")) ->
  exists body, ~ In ")"%char body /\ split_ws body = map fmt xs /\
    replace "," [] (replace "]" [")"%char] (replace "[" ["("%char]
      (("["%char :: commas (map fmt xs) ++ ["]"%char]) ++ unwords us)))
    = "("%char :: body ++ ")"%char :: unwords us.
Proof.
  intros N Hx Hu. destruct xs as [|x xs]; [congruence|]. cbn [map].
  assert (Hn : forall w c, In w (fmt x :: map fmt xs) -> In c w -> ~ In c (str "()[],")).
  { intros w c Hw Hc. destruct Hw as [<-|Hw]; [apply (nf_chars _ _ _ N x c Hc)|].
    apply in_map_iff in Hw as (y & <- & _). apply (nf_chars _ _ _ N y c Hc). }
  assert (Hwd : Forall word (map fmt xs)).
  { apply Forall_forall. intros w Hw. apply in_map_iff in Hw as (y & <- & _). eapply format_word; eauto. }
  exists (fmt x ++ unwords (map fmt xs)). split; [|split].
  - intros I. apply in_app_iff in I as [I|I].
    + apply (Hn (fmt x) _ (or_introl eq_refl) I). simpl. tauto.
    + apply unwords_In in I as [I|(w & Hw & I)]; [discriminate I|]. apply (Hn w _ (or_intror Hw) I). simpl. tauto.
  - apply split_words; auto. eapply format_word; eauto.
  - now apply vector_text.
Qed.

Lemma map_id_In {A} (f : A -> A) l : (forall x, In x l -> f x = x) -> map f l = l.
Proof. intros H. induction l as [|a l IH]; [reflexivity|]. simpl. rewrite H by now left. f_equal. apply IH. intros x Hx. apply H. now right. Qed.

Lemma parse_formats {F} parse isnan (fmt : F -> text) xs : number_format parse isnan fmt ->
  Forall (fun x => isnan x = false) xs -> Forall2 (fun w x => parse w = Some x) (map fmt xs) xs.
Proof.
  intros N Hx. induction Hx as [|x xs Hx Hs IH]; [constructor|]. constructor; auto. now apply (nf_round_trip _ _ _ N).
Qed.
End Value.

Lemma units_split us : Forall word us -> split_ws (unwords us) = us.
Proof. apply split_unwords. Qed.

(** ** C48 *)

(** Deserializing what was serialized gives the same value, if the dimension has a unit of factor one
    of its own, or all exponents are integers of 32 bits.
    Missing: integer exponents outside that range ([C48_refuted]), NaN (not equal to itself), and
    quantities for which formatting panics (C47). *)
Theorem C48_partial : forall k env lo T o us fmt32 fmt64 s D v value t,
  good_platform env lo -> ones env -> readable_system k env T o us ->
  number_format parse_f32 (is_nan 24 128) fmt32 -> number_format parse_f64 (is_nan 53 1024) fmt64 ->
  denotes k (df_base_dimensions o) D v ->
  (exists sym, coherent_symbol k env o sym v) \/ small_integers (df_base_dimensions o) v ->
  stored_value s value ->
  serialize (ops k) env (lit k) (show k) fmt32 fmt64 o D value = Some (Some t) ->
  deserialize (ops k) (df_base_dimensions o) us env s D (EStr t) = Ok value.
Proof.
  intros k env lo T o us fmt32 fmt64 s D v value t G One H N32 N64 HD Hv Sv E.
  unfold serialize in E.
  destruct (debug (ops k) env (lit k) (show k) o D (display fmt32 fmt64 value)) as [[t0|]|] eqn:Ed; try discriminate E.
  2:{ destruct value; discriminate E. }
  destruct (serialized_units k env lo T o us G One H D v _ t0 HD Hv Ed) as (ws & terms & Et & Hw & Hc & Ht & Hs & Hp & Hx0).
  assert (Hnp : code_read_unit_str (ops k) (df_base_dimensions o) us env ws <> Panic).
  { apply (serialized_reads k env T o us H ws terms Ht). destruct Hx0 as [?|(zu & _ & Hz & Hb)]; [now left|right; eauto]. }
  subst t0.
  assert (K : forall f x number, word number -> parse_raw f number = Some x ->
            raw_mul x (f64_as f f64_one) = Some x ->
            deserialize (ops k) (df_base_dimensions o) us env (Float f) D (EStr (number ++ unwords ws)) = Ok x).
  { intros f x number Hn Ep Em.
    apply (C50_text k env lo T o us f D v _ x G H HD). split.
    - cbn [deserialize]. unfold visit_str_float. rewrite split_trim, split_words, Ep by auto. cbn [or_err andthen].
      destruct (code_read_unit_str (ops k) (df_base_dimensions o) us env ws) as [[d y]| |] eqn:Er; [|discriminate|congruence].
      cbn [andthen]. destruct (parse_raw_mul f number x y Ep) as [r ->]. cbn [or_panic andthen].
      unfold get_quantity_if_dimensions_match. destruct (dim_eqb (ops k) d D); discriminate.
    - exists number, ws, x, terms. split; [now apply split_words|]. split; [exact Ep|]. split; [exact Ht|].
      split; [exact Hs|]. rewrite Hp. exact Em. }
  assert (Kv : forall vt x body, ~ In ")"%char body -> length (split_ws body) = num_dims vt ->
            components_of (component vt) (split_ws body) x ->
            raw_mul (f64_as (component vt) f64_one) x = Some x ->
            deserialize (ops k) (df_base_dimensions o) us env (Vector vt) D
              (EStr ("("%char :: body ++ ")"%char :: unwords ws)) = Ok x).
  { intros vt x body Nb El Ec Em.
    assert (Etr : trim ("("%char :: body ++ ")"%char :: unwords ws) = "("%char :: body ++ ")"%char :: unwords ws).
    { apply trim_bracketed; auto; unfold graphic; vm_compute; split; discriminate. }
    apply (C52_partial k env lo T o us vt D v _ x G H HD). split.
    - cbn [deserialize]. unfold visit_str_vector. rewrite Etr.
      assert (E1 : cut ")" ("("%char :: body ++ ")"%char :: unwords ws) = Some ("("%char :: body, unwords ws)).
      { apply cut_iff. split; [reflexivity|]. intros [I|I]; [discriminate I|auto]. }
      assert (E2 : cut "(" ("("%char :: body) = Some ([], body)) by (apply cut_iff; split; [reflexivity|auto]).
      rewrite E1. cbn [or_err andthen]. rewrite E2. cbn [or_err andthen]. rewrite El, Nat.eqb_refl.
      rewrite (proj2 (components_iff _ _ _) Ec). cbn [or_err andthen]. rewrite units_split by auto.
      destruct (code_read_unit_str (ops k) (df_base_dimensions o) us env ws) as [[d y]| |] eqn:Er; [|discriminate|congruence].
      cbn [andthen]. destruct (components_mul _ _ x y Ec) as [r ->]. cbn [or_panic andthen].
      unfold get_quantity_if_dimensions_match. destruct (dim_eqb (ops k) d D); discriminate.
    - exists [], body, (unwords ws), x, terms. split; [rewrite Etr; reflexivity|].
      split; [intros []|]. split; [intros []|]. split; [exact Nb|]. split; [exact El|]. split; [exact Ec|].
      split; [rewrite units_split by auto; exact Ht|]. split; [exact Hs|]. rewrite Hp. exact Em. }
  destruct value as [x|x|xs|xs], s as [f|vt]; try (destruct Sv; fail); try (destruct f; destruct Sv; fail).
  - destruct f; [|destruct Sv]. cbn [stored_value] in Sv. assert (Et : t = fmt32 x ++ unwords ws) by (cbn [display] in E; congruence).
    rewrite Et. apply K.
    + eapply format_word; eauto.
    + cbn [parse_raw]. now rewrite (nf_round_trip _ _ _ N32 x Sv).
    + cbn [f64_as raw_mul]. do 2 f_equal. now apply mul_one_32.
  - destruct f; [destruct Sv|]. cbn [stored_value] in Sv. assert (Et : t = fmt64 x ++ unwords ws) by (cbn [display] in E; congruence).
    rewrite Et. apply K.
    + eapply format_word; eauto.
    + cbn [parse_raw]. now rewrite (nf_round_trip _ _ _ N64 x Sv).
    + cbn [f64_as raw_mul]. do 2 f_equal. now apply mul_one_64.
  - cbn [stored_value] in Sv. destruct Sv as (Ec & El & Hx).
    destruct (num_dims_pos vt) as [n En]. assert (Hne : xs <> []) by (intros ->; rewrite En in El; discriminate El).
    destruct (vector_string parse_f32 (is_nan 24 128) fmt32 xs ws N32 Hne Hc) as (body & Nb & Eb & Er).
    cbn [display option_map] in E. rewrite Er in E. assert (Et : t = "("%char :: body ++ ")"%char :: unwords ws) by congruence.
    rewrite Et. apply Kv; auto.
    + now rewrite Eb, map_length.
    + rewrite Ec, Eb. exists xs. split; auto. eapply parse_formats; eauto.
    + rewrite Ec. cbn [f64_as raw_mul]. do 2 f_equal. apply map_id_In. intros x Hin.
      rewrite Forall_forall in Hx. apply one_mul32. now apply Hx.
  - cbn [stored_value] in Sv. destruct Sv as (Ec & El & Hx).
    destruct (num_dims_pos vt) as [n En]. assert (Hne : xs <> []) by (intros ->; rewrite En in El; discriminate El).
    destruct (vector_string parse_f64 (is_nan 53 1024) fmt64 xs ws N64 Hne Hc) as (body & Nb & Eb & Er).
    cbn [display option_map] in E. rewrite Er in E. assert (Et : t = "("%char :: body ++ ")"%char :: unwords ws) by congruence.
    rewrite Et. apply Kv; auto.
    + now rewrite Eb, map_length.
    + rewrite Ec, Eb. exists xs. split; auto. eapply parse_formats; eauto.
    + rewrite Ec. cbn [f64_as raw_mul]. do 2 f_equal. apply map_id_In. intros x Hin.
      rewrite Forall_forall in Hx. apply f64_one_mul. now apply Hx.
Qed.
Print Assumptions C48_partial.

(** ** Exponents that cannot be read back *)

Lemma slash_i32 a b : parse_i32 (a ++ "/"%char :: b) = None.
Proof.
  unfold parse_i32. destruct (parse_int (a ++ "/"%char :: b)) as [z|] eqn:E; [|reflexivity].
  exfalso. destruct (parse_int_chars _ z E "/"%char) as [F|[F|F]]; try discriminate F.
  - apply in_or_app. right. now left.
  - apply F. reflexivity.
Qed.

(** Exponents other than 32-bit integers are not accepted after [^]. *)
Lemma unreadable_exponent q : ~ (exists e, - 2 ^ 31 <= e < 2 ^ 31 /\ q = ZQc e) -> parse_i32 (exponent_text q) = None.
Proof.
  intros N. unfold exponent_text. destruct (Z.eqb_spec (Zpos (Qden (this q))) 1) as [E|E].
  - unfold parse_i32. rewrite parse_show_int.
    destruct ((- 2 ^ 31 <=? Qnum (this q)) && (Qnum (this q) <? 2 ^ 31)) eqn:Eb; [|reflexivity].
    exfalso. apply N. exists (Qnum (this q)). apply andb_true_iff in Eb. rewrite Z.leb_le, Z.ltb_lt in Eb. split; [lia|].
    apply Qc_is_canon. rewrite this_ZQc. destruct (this q) as [n d]. cbn [Qnum Qden] in *.
    assert (d = 1%positive) by congruence. subst d. reflexivity.
  - apply slash_i32.
Qed.

Lemma exponent_text_no_bracket q c : In c (exponent_text q) -> ~ In c (str "()[],").
Proof.
  intros Hc. unfold exponent_text in Hc. destruct (_ =? 1); [now apply (int_chars (Qnum (this q)))|].
  apply in_app_iff in Hc as [Hc|[<-|Hc]]; [now apply (int_chars (Qnum (this q)))| |now apply (int_chars (Zpos (Qden (this q))))].
  simpl. intuition discriminate.
Qed.

Lemma unreadable k env lo T o us fmt32 fmt64 s D v value t f :
  good_platform env lo -> readable_system k env T o us ->
  number_format parse_f32 (is_nan 24 128) fmt32 -> number_format parse_f64 (is_nan 53 1024) fmt64 ->
  denotes k (df_base_dimensions o) D v -> (forall sym, ~ coherent_symbol k env o sym v) ->
  In f (df_base_dimensions o) -> ~ (exists e, - 2 ^ 31 <= e < 2 ^ 31 /\ v f = ZQc e) ->
  stored_value s value ->
  serialize (ops k) env (lit k) (show k) fmt32 fmt64 o D value = Some (Some t) ->
  forall r, deserialize (ops k) (df_base_dimensions o) us env s D (EStr t) <> Ok r.
Proof.
  intros G H N32 N64 HD Hns Hf Hv Sv E r Er. pose proof H as (C & Hid & Us). unfold serialize in E.
  destruct (debug (ops k) env (lit k) (show k) o D (display fmt32 fmt64 value)) as [[t0|]|] eqn:Ed; try discriminate E.
  2:{ destruct value; discriminate E. }
  destruct (C46_text k env T o D v _ t0 C HD Ed) as [(sy & Hsy & _)|(_ & sym & Hsym & Et0)]; [exact (Hns sy Hsy)|].
  destruct (words_of_powers sym v (df_base_dimensions o)) as (ws & Ew & Hw). rewrite Ew in Et0. subst t0.
  set (fs := filter (fun f => if Qc_eq_dec (v f) (ZQc 0) then false else true) (df_base_dimensions o)) in *.
  assert (Hfs : forall f, In f fs -> In f (df_base_dimensions o) /\ v f <> ZQc 0).
  { intros g Hg. apply filter_In in Hg as [Hg Hn]. destruct (Qc_eq_dec (v g) (ZQc 0)); [discriminate|auto]. }
  assert (Form : forall w, In w ws -> exists u name, In u (df_units o) /\ un_symbol u = Some name /\
            (w = str name \/ exists q, w = str name ++ "^"%char :: exponent_text q)).
  { clear Ew Ed E Er. revert Hfs Hw. generalize fs as gs. clear fs. intros gs. revert ws. induction gs as [|g gs IH]; intros ws Hfs Hw; inversion Hw as [|w fq ws' l' [_ Hg] Hr]; subst.
    - intros w [].
    - intros x [<-|Hx]; [|apply (IH ws'); auto; intros y Hy; apply Hfs; now right].
      destruct (Hfs g (or_introl eq_refl)) as [Hgf Hgn].
      destruct (Hsym g Hgf Hgn) as (u & name & Hu & En & Es & _). exists u, name. split; auto. split; auto.
      cbn [fst snd] in Hg. rewrite Es in Hg. destruct Hg as [[_ ->]| ->]; [now left|right; eauto]. }
  assert (Hwords : Forall word ws).
  { apply Forall_forall. intros w Hin. destruct (Form w Hin) as (u & name & Hu & En & Hq).
    destruct (Hid u name Hu En) as [[Hne Hso] _]. destruct Hq as [->|[q ->]]; [split; auto|].
    split; [destruct (str name); discriminate|]. apply solid_app; auto. apply graphic_solid. constructor.
    { unfold graphic. change (byte "^") with 94%N. lia. }
    apply Forall_forall. intros c Hcx. apply exponent_text_chars in Hcx as [->|[->|(d & Hdd & ->)]].
    { unfold graphic. change (byte "-") with 45%N. lia. }
    { unfold graphic. change (byte "/") with 47%N. lia. }
    now apply chr_graphic. }
  assert (Hchars : forall w c, In w ws -> In c w -> ~ In c (str "()[],")).
  { intros w c Hin Hc. destruct (Form w Hin) as (u & name & Hu & En & Hq).
    destruct Hq as [->|[q ->]].
    - eapply (symbol_chars k env T o us H u name); eauto.
    - apply in_app_iff in Hc as [Hc|[<-|Hc]].
      + eapply (symbol_chars k env T o us H u name); eauto.
      + simpl. intuition discriminate.
      + eapply exponent_text_no_bracket; eauto. }
  assert (Hbad : ~ exists terms, text_terms k o ws terms).
  { assert (Ib : exists w u name, In w ws /\ In u (df_units o) /\ un_symbol u = Some name /\
                w = str name ++ "^"%char :: exponent_text (v f)).
    { assert (Hf0 : v f <> ZQc 0) by (intros E0; apply Hv; exists 0; split; [lia|auto]).
      assert (Hf1 : v f <> ZQc 1) by (intros E0; apply Hv; exists 1; split; [lia|auto]).
      assert (I : In f fs). { apply filter_In. split; auto. now destruct (Qc_eq_dec (v f) (ZQc 0)). }
      destruct (Hsym f Hf Hf0) as (u & name & Hu & En & Es & _).
      assert (Iw : In (sym f ++ "^"%char :: exponent_text (v f)) ws).
      { clear -Hw I Hf1. revert ws Hw I. generalize fs as gs. clear fs. induction gs as [|g gs IH]; intros ws Hw I; [destruct I|].
        inversion Hw as [|w fq ws' l' [_ Hg] Hr]; subst. cbn [fst snd] in Hg. destruct I as [->|I].
        - left. destruct Hg as [[Hg _]|Hg]; [congruence|auto].
        - right. auto. }
      exists (sym f ++ "^"%char :: exponent_text (v f)), u, name. rewrite <- Es. auto. }
    destruct Ib as (w & u & name & Iw & Hu & En & Eq). intros (terms & Ht).
    assert (Hue : exists ue, unit_word k o w ue).
    { clear -Ht Iw. induction Ht as [|x ue ws terms Hx Ht IH]; [destruct Iw|]. destruct Iw as [->|Iw]; eauto. }
    destruct Hue as ([u' e'] & Hu' & n' & En' & Hq). cbn [fst snd] in *. destruct Hq as [[Hq _]|(x & Hq & Hx)].
    - apply (no_caret k o Hid u' n' Hu' En'). rewrite <- Hq, Eq. apply in_or_app. right. now left.
    - rewrite Eq in Hq. apply (f_equal (cut "^")) in Hq.
      rewrite (proj2 (cut_iff _ _ _ _) (conj eq_refl (no_caret k o Hid u name Hu En))) in Hq.
      rewrite (proj2 (cut_iff _ _ _ _) (conj eq_refl (no_caret k o Hid u' n' Hu' En'))) in Hq.
      injection Hq as _ Hq. rewrite <- Hq in Hx. rewrite unreadable_exponent in Hx by auto. discriminate Hx. }
  assert (Kf : forall ft number, word number -> t = number ++ unwords ws -> s <> Float ft).
  { intros ft number Hn Et Es. subst s t. apply (C50_text k env lo T o us ft D v _ r G H HD) in Er as (_ & n & ws' & x & terms & Esp & _ & Ht & _).
    rewrite split_words in Esp by auto. injection Esp as _ <-. apply Hbad. eauto. }
  assert (Kv : forall vt body, ~ In ")"%char body -> t = "("%char :: body ++ ")"%char :: unwords ws -> s <> Vector vt).
  { intros vt body Nb Et Es. subst s t. apply (C52_partial k env lo T o us vt D v _ r G H HD) in Er
      as (_ & ignored & numbers & units & x & terms & Etr & _ & N2 & N3 & _ & _ & Ht & _).
    rewrite trim_bracketed in Etr; auto; try (unfold graphic; vm_compute; split; discriminate).
    apply (f_equal (cut ")")) in Etr.
    assert (E1 : cut ")" ("("%char :: body ++ ")"%char :: unwords ws) = Some ("("%char :: body, unwords ws)).
    { apply cut_iff. split; [reflexivity|]. intros [I|I]; [discriminate I|auto]. }
    assert (E2 : cut ")" (ignored ++ "("%char :: numbers ++ ")"%char :: units) = Some (ignored ++ "("%char :: numbers, units)).
    { apply cut_iff. split; [now rewrite <- app_assoc|]. intros I. apply in_app_iff in I as [I|[I|I]]; auto. discriminate I. }
    rewrite E1, E2 in Etr. injection Etr as _ Eu. rewrite <- Eu, units_split in Ht by auto. apply Hbad. eauto. }
  destruct value as [x|x|xs|xs], s as [ft|vt]; try (destruct Sv; fail); try (destruct ft; destruct Sv; fail); cbn [display option_map] in E.
  - apply (Kf ft (fmt32 x)); [eapply format_word; eauto|congruence|reflexivity].
  - apply (Kf ft (fmt64 x)); [eapply format_word; eauto|congruence|reflexivity].
  - destruct Sv as (Ec & El & _). destruct (num_dims_pos vt) as [n En].
    assert (Hne : xs <> []) by (intros ->; rewrite En in El; discriminate El).
    destruct (vector_string parse_f32 (is_nan 24 128) fmt32 xs ws N32 Hne Hchars) as (body & Nb & Eb & Erp).
    rewrite Erp in E. apply (Kv vt body); [auto|congruence|reflexivity].
  - destruct Sv as (Ec & El & _). destruct (num_dims_pos vt) as [n En].
    assert (Hne : xs <> []) by (intros ->; rewrite En in El; discriminate El).
    destruct (vector_string parse_f64 (is_nan 53 1024) fmt64 xs ws N64 Hne Hchars) as (body & Nb & Eb & Erp).
    rewrite Erp in E. apply (Kv vt body); [auto|congruence|reflexivity].
Qed.

(** Exactly these quantities are read back. *)
Theorem C48_exactly : forall k env lo T o us fmt32 fmt64 s D v value t,
  good_platform env lo -> ones env -> readable_system k env T o us ->
  number_format parse_f32 (is_nan 24 128) fmt32 -> number_format parse_f64 (is_nan 53 1024) fmt64 ->
  denotes k (df_base_dimensions o) D v -> stored_value s value ->
  serialize (ops k) env (lit k) (show k) fmt32 fmt64 o D value = Some (Some t) ->
  (deserialize (ops k) (df_base_dimensions o) us env s D (EStr t) = Ok value <->
   (exists sym, coherent_symbol k env o sym v) \/ small_integers (df_base_dimensions o) v).
Proof.
  intros k env lo T o us fmt32 fmt64 s D v value t G One H N32 N64 HD Sv E. split.
  - intros Er. destruct (Classical_Prop.classic (exists sym, coherent_symbol k env o sym v)) as [Hs|Hs]; [now left|right].
    intros f Hf. destruct (Classical_Prop.classic (exists e, - 2 ^ 31 <= e < 2 ^ 31 /\ v f = ZQc e)) as [He|He]; auto.
    exfalso. refine (unreadable k env lo T o us fmt32 fmt64 s D v value t f G H N32 N64 HD _ Hf He Sv E value Er).
    intros sym Hc. apply Hs. eauto.
  - intros Hv. eapply C48_partial; eauto.
Qed.
Print Assumptions C48_exactly.

(** ** Examples *)

Lemma ones_rt powf : (forall x, powf f64_one x = f64_one) -> ones (env_rt powf).
Proof.
  intros Hp. split; [|exact Hp]. intros e.
  assert (M : f64_mul f64_one f64_one = f64_one) by (apply f64_one_mul; reflexivity).
  assert (K : forall p, powi_rt_pos f64_one f64_one p = f64_one).
  { induction p as [p IH|p IH|]; cbn [powi_rt_pos]; [rewrite M; exact IH|rewrite M; exact IH|exact M]. }
  change (powi_rt f64_one e = f64_one). destruct e as [|p|p]; cbn [powi_rt]; [reflexivity|apply K|].
  rewrite K. apply div_one. reflexivity.
Qed.

Definition half : ops RationalExponents := {| Ratio.num := 1; denom := 2 |}.

(** A large exponent in both builds, and one half: what is written, and that reading fails;
    a velocity and a vector in the storage types: what is written. *)
Definition fails {A} (r : outcome A) : bool := match r with Err => true | _ => false end.
Definition written_as k (o : defs (ops k)) D value t : bool :=
  match serialize (ops k) env1 (lit k) (show k) exact_format exact_format o D value with
  | Some (Some t') => text_eqb t' (str t)
  | _ => false
  end.
Definition two k (a b : Z) : dimval (ops k) := [("length"%string, of_int k a); ("time"%string, of_int k b)].
Definition example_check k (o : defs (ops k)) (us : list (runtime_unit (ops k))) : bool :=
  written_as k o (two k (2 ^ 31) 0) (RF64 (f64_of_Z 0)) "0 m^2147483648" &&
  fails (deserialize (ops k) ["length"%string; "time"%string] us env1 (Float F64) (two k (2 ^ 31) 0) (EStr (str "0 m^2147483648"))) &&
  written_as k o (two k 1 (-1)) (RF64 f64_one) "10000000000000000000000000000000000000000000000000000e-52 m s^-1" &&
  written_as k o (two k 2 0) (RVec32 [f32_one; f32_of_Z 0]) "(100000000000000000000000e-23 0) m^2".
Definition half_check k : defs (ops k) -> list (runtime_unit (ops k)) -> bool :=
  match k with
  | IntegerExponents => fun _ _ => true
  | RationalExponents => fun o us =>
      written_as RationalExponents o [("length"%string, half); ("time"%string, rint 0)] (RF64 (f64_of_Z 0)) "0 m^1/2" &&
      fails (deserialize (ops RationalExponents) ["length"%string; "time"%string] us env1 (Float F64)
               [("length"%string, half); ("time"%string, rint 0)] (EStr (str "0 m^1/2")))
  end.

Lemma example_written k : exists o us, readable_system k env1 (example k) o us /\
  df_base_dimensions o = ["length"; "time"]%string /\ example_check k o us = true /\ half_check k o us = true.
Proof.
  assert (E : match run_unit_system (ops k) env1 (example k) with
              | Some (o, []) =>
                  match serde_units (ops k) env1 (lit k) o with
                  | Some us =>
                      df_base_dimensions o = ["length"; "time"]%string /\
                      forallb symbol_ok (all_symbols k o) = true /\ example_check k o us = true /\ half_check k o us = true
                  | None => False end
              | _ => False end) by (destruct k; vm_compute; auto 6).
  destruct (run_unit_system (ops k) env1 (example k)) as [[o [|]]|] eqn:R; try contradiction.
  destruct (serde_units (ops k) env1 (lit k) o) as [us|] eqn:Eu; [|contradiction].
  destruct E as (Ef & Es & E1 & E2). exists o, us. split; [|auto].
  split; [|split; [now apply identifiers_check|exact Eu]].
  destruct (example_compiled k) as (o' & _ & Hl & Hi & _).
  split; [exact R|]. split; [exact Hl|]. split; [exact Hi|]. rewrite Ef. reflexivity.
Qed.

Lemma written_as_iff k o D value t : written_as k o D value t = true ->
  serialize (ops k) env1 (lit k) (show k) exact_format exact_format o D value = Some (Some (str t)).
Proof.
  unfold written_as. destruct (serialize _ _ _ _ _ _ _ _ _) as [[t'|]|]; try discriminate.
  intros E. apply text_eqb_eq in E. congruence.
Qed.
Lemma fails_Err {A} (r : outcome A) : fails r = true -> r = Err.
Proof. now destruct r. Qed.

(** [m^2147483648] is written, and not accepted on reading. *)
Theorem C48_refuted : forall k, exists o us D v value t,
  good_platform env1 (-1023) /\ ones env1 /\ readable_system k env1 (example k) o us /\
  denotes k (df_base_dimensions o) D v /\ (forall f, In f (df_base_dimensions o) -> exists e, v f = ZQc e) /\
  stored_value (Float F64) value /\
  serialize (ops k) env1 (lit k) (show k) exact_format exact_format o D value = Some (Some t) /\
  t = str "0 m^2147483648" /\
  deserialize (ops k) (df_base_dimensions o) us env1 (Float F64) D (EStr t) = Err.
Proof.
  intros k. destruct (example_written k) as (o & us & H & Ef & E & _).
  unfold example_check in E. rewrite !andb_true_iff in E. destruct E as [[[E1 E2] _] _].
  destruct (two_denotes k (2 ^ 31) 0) as (v & Hv & V1 & V2).
  exists o, us, (two k (2 ^ 31) 0), v, (RF64 (f64_of_Z 0)), (str "0 m^2147483648").
  split; [exact good1|]. split; [now apply ones_rt|]. split; [exact H|]. rewrite Ef. split; [exact Hv|].
  split; [intros f [<-|[<-|[]]]; eauto|]. split; [reflexivity|]. split; [now apply written_as_iff|].
  split; [reflexivity|]. now apply fails_Err.
Qed.
Print Assumptions C48_refuted.

Example C48_applies : forall k, exists o us D v t D' v' t',
  good_platform env1 (-1023) /\ ones env1 /\ readable_system k env1 (example k) o us /\
  number_format parse_f32 (is_nan 24 128) exact_format /\ number_format parse_f64 (is_nan 53 1024) exact_format /\
  denotes k (df_base_dimensions o) D v /\ small_integers (df_base_dimensions o) v /\
  stored_value (Float F64) (RF64 f64_one) /\
  serialize (ops k) env1 (lit k) (show k) exact_format exact_format o D (RF64 f64_one) = Some (Some t) /\
  t = str "10000000000000000000000000000000000000000000000000000e-52 m s^-1" /\
  denotes k (df_base_dimensions o) D' v' /\ small_integers (df_base_dimensions o) v' /\
  stored_value (Vector Vec2) (RVec32 [f32_one; f32_of_Z 0]) /\
  serialize (ops k) env1 (lit k) (show k) exact_format exact_format o D' (RVec32 [f32_one; f32_of_Z 0]) = Some (Some t') /\
  t' = str "(100000000000000000000000e-23 0) m^2".
Proof.
  intros k. destruct (example_written k) as (o & us & H & Ef & E & _).
  unfold example_check in E. rewrite !andb_true_iff in E. destruct E as [[[_ _] E1] E2].
  destruct (two_denotes k 1 (-1)) as (v & Hv & V1 & V2). destruct (two_denotes k 2 0) as (v' & Hv' & V1' & V2').
  exists o, us, (two k 1 (-1)), v, (str "10000000000000000000000000000000000000000000000000000e-52 m s^-1"), (two k 2 0), v', (str "(100000000000000000000000e-23 0) m^2").
  split; [exact good1|]. split; [now apply ones_rt|]. split; [exact H|]. split; [exact exact_format32|].
  split; [exact exact_format64|]. rewrite Ef. split; [exact Hv|].
  split; [intros f [<-|[<-|[]]]; [exists 1|exists (-1)]; split; auto; lia|]. split; [reflexivity|].
  split; [now apply written_as_iff|]. split; [reflexivity|]. split; [exact Hv'|].
  split; [intros f [<-|[<-|[]]]; [exists 2|exists 0]; split; auto; lia|].
  split; [split; [reflexivity|split; [reflexivity|repeat constructor]]|]. split; [now apply written_as_iff|reflexivity].
Qed.

(** ** C49 *)

(** In the rational build: fractional exponents are read back only if the dimension has a unit of
    factor one of its own; then every exponent works. *)
Theorem C49_partial : forall env lo T o us fmt32 fmt64 s D v value t,
  good_platform env lo -> ones env -> readable_system RationalExponents env T o us ->
  number_format parse_f32 (is_nan 24 128) fmt32 -> number_format parse_f64 (is_nan 53 1024) fmt64 ->
  denotes RationalExponents (df_base_dimensions o) D v -> stored_value s value ->
  serialize (ops RationalExponents) env (lit RationalExponents) (show RationalExponents) fmt32 fmt64 o D value = Some (Some t) ->
  (exists f, In f (df_base_dimensions o) /\ forall e, v f <> ZQc e) ->
  (deserialize (ops RationalExponents) (df_base_dimensions o) us env s D (EStr t) = Ok value <->
   exists sym, coherent_symbol RationalExponents env o sym v).
Proof.
  intros env lo T o us fmt32 fmt64 s D v value t G One H N32 N64 HD Sv E (f & Hf & Hn).
  rewrite (C48_exactly RationalExponents env lo T o us fmt32 fmt64 s D v value t); auto.
  split; [|now left]. intros [Hs|Hi]; auto. exfalso. destruct (Hi f Hf) as (e & _ & Ee). exact (Hn e Ee).
Qed.
Print Assumptions C49_partial.

Theorem C49_refuted : exists o us D v value t,
  good_platform env1 (-1023) /\ ones env1 /\ readable_system RationalExponents env1 (example RationalExponents) o us /\
  denotes RationalExponents (df_base_dimensions o) D v /\
  (exists f, In f (df_base_dimensions o) /\ forall e, v f <> ZQc e) /\
  stored_value (Float F64) value /\
  serialize (ops RationalExponents) env1 (lit RationalExponents) (show RationalExponents) exact_format exact_format o D value
    = Some (Some t) /\
  t = str "0 m^1/2" /\
  deserialize (ops RationalExponents) (df_base_dimensions o) us env1 (Float F64) D (EStr t) = Err.
Proof.
  destruct (example_written RationalExponents) as (o & us & H & Ef & _ & E).
  cbn [half_check] in E. apply andb_true_iff in E as [E1 E2].
  exists o, us, [("length"%string, half); ("time"%string, rint 0)],
    (fun f => if String.eqb f "length" then rval half else ZQc 0), (RF64 (f64_of_Z 0)), (str "0 m^1/2").
  split; [exact good1|]. split; [now apply ones_rt|]. split; [exact H|]. rewrite Ef.
  assert (Ch : canonical half) by (split; reflexivity).
  split; [|split; [|split; [reflexivity|split; [now apply written_as_iff|split; [reflexivity|now apply fails_Err]]]]].
  - split; [reflexivity|]. intros f e [Eq|[Eq|[]]]; injection Eq as <- <-.
    + split; [exact Ch|reflexivity].
    + apply rint_rval.
  - exists "length"%string. split; [now left|]. intros e Eq. cbn [String.eqb Ascii.eqb Bool.eqb] in Eq.
    apply (f_equal this) in Eq. rewrite this_ZQc in Eq. rewrite (this_rval half Ch) in Eq. discriminate Eq.
Qed.
Print Assumptions C49_refuted.
