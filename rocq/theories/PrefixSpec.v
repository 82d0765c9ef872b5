(** * Specification: the metric prefixes of the International System of Units

    Written from the SI brochure (table 7, the prefixes up to [10^18]), not from the code: for each
    prefix its name (also the keyword the user writes in attributes), its symbol and its power of ten.
    The symbol of micro is the Greek letter mu (UTF-8 bytes CE BC). *)
From Coq Require Import String Ascii List Bool ZArith.
From Verif Require Import F64 Types.
Import ListNotations.
Local Open Scope string_scope.
Local Open Scope list_scope.

Definition si_prefix (p : prefix) : string * string * Z :=
  match p with
  | Deca => ("deca", "da", 1) | Hecto => ("hecto", "h", 2) | Kilo => ("kilo", "k", 3)
  | Mega => ("mega", "M", 6) | Giga => ("giga", "G", 9) | Tera => ("tera", "T", 12)
  | Peta => ("peta", "P", 15) | Exa => ("exa", "E", 18)
  | Deci => ("deci", "d", -1) | Centi => ("centi", "c", -2) | Milli => ("milli", "m", -3)
  | Micro => ("micro", String (ascii_of_nat 206) (String (ascii_of_nat 188) ""), -6)
  | Nano => ("nano", "n", -9) | Pico => ("pico", "p", -12)
  | Femto => ("femto", "f", -15) | Atto => ("atto", "a", -18)
  end%Z.
Definition si_name (p : prefix) : string := fst (fst (si_prefix p)).
Definition si_symbol (p : prefix) : string := snd (fst (si_prefix p)).
Definition si_power (p : prefix) : Z := snd (si_prefix p).

Definition prefix_dec (p q : prefix) : {p = q} + {p <> q}.
Proof. decide equality. Defined.

(** All prefixes, largest first, without those in [skip]. *)
Definition si_without (skip : list prefix) : list prefix :=
  filter (fun p => if in_dec prefix_dec p skip then false else true)
    [Exa; Peta; Tera; Giga; Mega; Kilo; Hecto; Deca;
     Deci; Centi; Milli; Micro; Nano; Pico; Femto; Atto].

(** ** The model's tables agree *)
Lemma prefix_keyword_si p : prefix_keyword p = si_name p.
Proof. destruct p; reflexivity. Qed.
Lemma prefix_name_si p : prefix_name p = si_name p.
Proof. destruct p; reflexivity. Qed.
Lemma prefix_short_si p : prefix_short p = si_symbol p.
Proof. destruct p; reflexivity. Qed.
Lemma prefix_decimal_si p : prefix_decimal p = si_power p.
Proof. destruct p; reflexivity. Qed.
Lemma prefix_eqb_iff p q : prefix_eqb p q = true <-> p = q.
Proof. split; [destruct p, q; easy|intros ->; destruct q; reflexivity]. Qed.
Lemma metric_prefixes_si skip : metric_prefixes skip = si_without skip.
Proof.
  unfold metric_prefixes, si_without, all_prefixes. apply filter_ext. intros p.
  destruct (in_dec prefix_dec p skip) as [H|H].
  - apply negb_false_iff, existsb_exists. exists p. split; auto. now apply prefix_eqb_iff.
  - apply negb_true_iff. destruct (existsb _ skip) eqn:E; auto.
    apply existsb_exists in E as (q & Hq & E). apply prefix_eqb_iff in E as ->. contradiction.
Qed.
