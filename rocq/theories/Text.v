(** * Text: the parts of Rust's [str] and number parsing that the generated code uses

    Not part of /repo: semantics of core's [str::trim], [split_whitespace], [split], [find],
    [replace] (of one character), [<i32 as FromStr>], [<f32/f64 as FromStr>] and integer [Display].
    A text is the list of its UTF-8 bytes (names in the model are UTF-8 byte strings). *)
From Coq Require Import String Ascii List Bool ZArith NArith Lia.
From Flocq Require Import IEEE754.Binary IEEE754.Bits.
From Flocq Require IEEE754.BinarySingleNaN.
From Verif Require Import MachineInt F64.
Import ListNotations.
Local Open Scope list_scope.
Local Open Scope Z_scope.

Definition text := list ascii.
Definition str (s : string) : text := list_ascii_of_string s.
Definition byte (c : ascii) : N := N_of_ascii c.
Definition isc (c d : ascii) : bool := Ascii.eqb c d.

Fixpoint text_eqb (a b : text) : bool :=
  match a, b with
  | [], [] => true
  | x :: a', y :: b' => isc x y && text_eqb a' b'
  | _, _ => false
  end.

(** ** White space *)

Definition b_in (lo hi : N) (c : ascii) : bool := (N.leb lo (byte c) && N.leb (byte c) hi)%bool.
Definition b_is (n : N) (c : ascii) : bool := N.eqb (byte c) n.

(** [char::is_whitespace] (Unicode White_Space): the number of bytes of the white space character
    at the head of the text, 0 if there is none.  U+0009-000D, 0020 | 0085, 00A0 | 1680,
    2000-200A, 2028, 2029, 202F, 205F, 3000. *)
Definition ws_len (s : text) : nat :=
  match s with
  | [] => 0
  | a :: s1 =>
      if b_in 9 13 a || b_is 32 a then 1
      else match s1 with
      | [] => 0
      | b :: s2 =>
          if b_is 194 a && (b_is 133 b || b_is 160 b) then 2
          else match s2 with
          | [] => 0
          | c :: _ =>
              if (b_is 225 a && b_is 154 b && b_is 128 c) ||
                 (b_is 226 a && b_is 128 b &&
                    (b_in 128 138 c || b_is 168 c || b_is 169 c || b_is 175 c)) ||
                 (b_is 226 a && b_is 129 b && b_is 159 c) ||
                 (b_is 227 a && b_is 128 b && b_is 128 c)
              then 3 else 0
          end
      end
  end%nat.

Definition flush (cur : text) : list text := match cur with [] => [] | _ => [cur] end.

(** [skip]: bytes left of a white space character; [cur]: the word read so far. *)
Fixpoint words_aux (skip : nat) (cur : text) (s : text) : list text :=
  match s with
  | [] => flush cur
  | c :: s' =>
      match skip with
      | S k => words_aux k cur s'
      | O => match ws_len s with
             | O => words_aux 0 (cur ++ [c]) s'
             | S k => flush cur ++ words_aux k [] s'
             end
      end
  end.
(** [str::split_whitespace]. *)
Definition split_ws (s : text) : list text := words_aux 0 [] s.
Definition blank (s : text) : bool := match split_ws s with [] => true | _ => false end.

(** [str::trim_start], [str::trim_end], [str::trim]. *)
Fixpoint trim_start_aux (skip : nat) (s : text) : text :=
  match s with
  | [] => []
  | c :: s' =>
      match skip with
      | S k => trim_start_aux k s'
      | O => match ws_len s with O => s | S k => trim_start_aux k s' end
      end
  end.
Definition trim_start (s : text) : text := trim_start_aux 0 s.
Fixpoint trim_end (s : text) : text :=
  match s with
  | [] => []
  | c :: s' => if blank s then [] else c :: trim_end s'
  end.
Definition trim (s : text) : text := trim_end (trim_start s).

(** [str::split(c)]: the pieces between the occurrences of [c]. *)
Fixpoint split_on (c : ascii) (s : text) : list text :=
  match s with
  | [] => [[]]
  | x :: s' =>
      if isc x c then [] :: split_on c s'
      else match split_on c s' with
           | [] => [[x]]
           | p :: ps => (x :: p) :: ps
           end
  end.

(** [str::find(c)] followed by splitting there: the text before the first [c] and after it. *)
Fixpoint cut (c : ascii) (s : text) : option (text * text) :=
  match s with
  | [] => None
  | x :: s' => if isc x c then Some ([], s')
               else match cut c s' with Some (a, b) => Some (x :: a, b) | None => None end
  end.

(** [str::replace] of one character by a string. *)
Definition replace (c : ascii) (by_ : text) (s : text) : text :=
  flat_map (fun x => if isc x c then by_ else [x]) s.

(** ** Numbers *)

Definition digit (c : ascii) : option Z :=
  if b_in 48 57 c then Some (Z.of_N (byte c) - 48) else None.

(** The longest prefix of digits, and the rest. *)
Fixpoint span_digits (s : text) : list Z * text :=
  match s with
  | [] => ([], [])
  | c :: s' => match digit c with
               | Some d => let (ds, r) := span_digits s' in (d :: ds, r)
               | None => ([], s)
               end
  end.
Definition value_of_digits (ds : list Z) : Z := fold_left (fun a d => 10 * a + d) ds 0.

(** An optional sign. *)
Definition sign (s : text) : bool * text :=
  match s with
  | c :: s' => if isc c "-" then (true, s') else if isc c "+" then (false, s') else (false, s)
  | [] => (false, s)
  end.

(** A (possibly signed) nonempty run of digits and nothing else. *)
Definition parse_int (s : text) : option Z :=
  let (neg, r) := sign s in
  match span_digits r with
  | (d :: ds, []) => let v := value_of_digits (d :: ds) in Some (if neg then - v else v)
  | _ => None
  end.

(** [<i32 as FromStr>::from_str]. *)
Definition parse_i32 (s : text) : option Z :=
  match parse_int s with
  | Some z => if (- 2 ^ 31 <=? z) && (z <? 2 ^ 31) then Some z else None
  | None => None
  end.

(** [Display] of an integer. *)
Fixpoint show_nat_aux (fuel : nat) (z : Z) (acc : text) : text :=
  match fuel with
  | O => acc
  | S f => let acc := ascii_of_N (Z.to_N (48 + z mod 10)) :: acc in
           if z / 10 =? 0 then acc else show_nat_aux f (z / 10) acc
  end.
Definition show_nonneg (z : Z) : text := show_nat_aux (S (Z.to_nat (Z.log2 z))) z [].
Definition show_int (z : Z) : text := if z <? 0 then "-"%char :: show_nonneg (- z) else show_nonneg z.

(** Float literals: the grammar documented at [f64::from_str],
    [Sign? ( 'inf' | 'infinity' | 'nan' | (Digit+ | Digit+ '.' Digit* | Digit* '.' Digit+) Exp? )]
    with [Exp ::= 'e' Sign? Digit+], letters in either case. *)
Inductive float_literal := LNum (neg : bool) (d k : Z) | LInf (neg : bool) | LNan (neg : bool).

Definition lower (c : ascii) : ascii := if b_in 65 90 c then ascii_of_N (byte c + 32) else c.
Definition same_word (s : text) (w : string) : bool := text_eqb (map lower s) (str w).

Definition parse_exponent (s : text) : option Z :=
  match s with
  | [] => Some 0
  | c :: s' => if isc (lower c) "e" then parse_int s' else None
  end.

Definition parse_number (neg : bool) (s : text) : option float_literal :=
  let (int, r) := span_digits s in
  let (frac, r) := match r with
                   | c :: r' => if isc c "." then span_digits r' else ([], r)
                   | [] => ([], r)
                   end in
  match int ++ frac with
  | [] => None
  | ds => match parse_exponent r with
          | Some e => Some (LNum neg (value_of_digits ds) (e - Z.of_nat (length frac)))
          | None => None
          end
  end.

Definition parse_literal (s : text) : option float_literal :=
  let (neg, r) := sign s in
  if same_word r "inf" || same_word r "infinity" then Some (LInf neg)
  else if same_word r "nan" then Some (LNan neg)
  else parse_number neg r.

(** The value of a literal: correctly rounded. *)
Definition f32_of_Z (z : Z) : f32 := binary_normalize 24 128 eq_refl eq_refl mode_NE z 0 false.
Definition f32_of_decimal (d k : Z) : f32 :=
  match d with
  | Zpos p =>
      match k with
      | Z0 => f32_of_Z d
      | Zpos _ => f32_of_Z (d * 10 ^ k)
      | Zneg q =>
          match 10 ^ (Zpos q) with
          | Zpos t =>
              BSN2B 24 128 (exist _ (B754_nan 24 128 false 1 eq_refl) eq_refl)
                (BinarySingleNaN.SF2B _
                   (proj1 (BinarySingleNaN.Bdiv_correct_aux 24 128 eq_refl eq_refl
                             mode_NE false p 0 false t 0)))
          | _ => f32_of_Z 0
          end
      end
  | _ => f32_of_Z 0
  end.

Definition signed {prec emax} (neg : bool) (x : binary_float prec emax) : binary_float prec emax :=
  if neg then
    match x with
    | B754_zero _ _ s => B754_zero _ _ (negb s)
    | B754_infinity _ _ s => B754_infinity _ _ (negb s)
    | B754_nan _ _ s pl H => B754_nan _ _ (negb s) pl H
    | B754_finite _ _ s m e H => B754_finite _ _ (negb s) m e H
    end
  else x.

(** [<f64 as FromStr>::from_str], [<f32 as FromStr>::from_str]. *)
Definition parse_f64 (s : text) : option f64 :=
  match parse_literal s with
  | Some (LNum n d k) => Some (signed n (f64_of_decimal d k))
  | Some (LInf n) => Some (B754_infinity 53 1024 n)
  | Some (LNan n) => Some (B754_nan 53 1024 n 2251799813685248 eq_refl)
  | None => None
  end.
Definition parse_f32 (s : text) : option f32 :=
  match parse_literal s with
  | Some (LNum n d k) => Some (signed n (f32_of_decimal d k))
  | Some (LInf n) => Some (B754_infinity 24 128 n)
  | Some (LNan n) => Some (B754_nan 24 128 n 4194304 eq_refl)
  | None => None
  end.
