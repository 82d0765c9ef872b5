(** * Model of diman_unit_system/src/types/base_dimension.rs *)
From Coq Require Import String Ascii List Bool NArith.
Import ListNotations.
Local Open Scope char_scope.

(** [char::is_uppercase] / [str::to_lowercase] on ASCII identifiers.  Simplification: bytes of
    non-ASCII characters are left alone, as if caseless (base_dimension.rs itself is
    Unicode-aware). *)
Definition is_upper (c : ascii) : bool :=
  (N.leb 65 (N_of_ascii c) && N.leb (N_of_ascii c) 90)%bool.
Definition to_lower (c : ascii) : ascii :=
  if is_upper c then ascii_of_N (N_of_ascii c + 32) else c.

(** [str::split_inclusive(p)]: each piece ends with (and includes) the character that satisfies
    [p]; the rest, if non-empty, is the last piece. *)
Fixpoint split_inclusive (p : ascii -> bool) (l : list ascii) : list (list ascii) :=
  match l with
  | [] => []
  | c :: l' =>
      if p c then [c] :: split_inclusive p l'
      else match split_inclusive p l' with
           | [] => [[c]]
           | w :: ws => (c :: w) :: ws
           end
  end.

(** [[T]::join("_")]. *)
Fixpoint join (sep : list ascii) (l : list (list ascii)) : list ascii :=
  match l with
  | [] => []
  | [w] => w
  | w :: ws => w ++ sep ++ join sep ws
  end.

(** base_dimension.rs:12-20. *)
Definition str_to_snakecase (s : string) : string :=
  let r := rev (list_ascii_of_string s) in
  let words := split_inclusive is_upper r in
  string_of_list_ascii (join ["_"%char] (rev (map (fun w => map to_lower (rev w)) words))).

(** base_dimension.rs:7-9, 22-25. *)
Definition base_dimension_of (name : string) : string := str_to_snakecase name.
