(** Notations of bytes in other programs: prefixes, suffixes, separators and labels around the hex digits. *)

From Coq Require Import NArith String List Bool.
From Verif Require Import Base ModelUtil SpecUtil SpecDisplay.
Import ListNotations.
Local Open Scope N_scope.

(* What stands before and behind everything, before and behind each byte, and between two bytes. *)
Record bytes_notation : Type := mkNotation { n_open : str; n_before : str; n_after : str; n_between : str; n_close : str }.
Fixpoint items (f : bytes_notation) (d : list N) : str :=
  match d with
  | [] => []
  | [b] => n_before f ++ byte_text b ++ n_after f
  | b :: t => n_before f ++ byte_text b ++ n_after f ++ n_between f ++ items f t
  end.
Definition written (f : bytes_notation) (d : list N) : str := n_open f ++ items f d ++ n_close f.

(* No hex digit. *)
Definition digitless (s : str) : Prop := forall c, In c s -> ~ is_hex_digit c.
(* At most one hex digit. *)
Definition nearly_digitless (s : str) : Prop := digitless s \/ exists a c b, s = a ++ c :: b /\ digitless a /\ digitless b.
(* Exactly one hex digit, [c]. *)
Definition one_digit (s : str) (c : N) : Prop := exists a b, s = a ++ c :: b /\ is_hex_digit c /\ digitless a /\ digitless b.

(* Arrays as in C: 0x95, 0x05. *)
Definition c_array : bytes_notation := mkNotation (lit "{") (lit "0x") [] (lit ", ") (lit "}").
(* Strings with escapes: \x95\x05. *)
Definition escaped : bytes_notation := mkNotation (lit """") (lit "\x") [] [] (lit """").
Definition colons : bytes_notation := mkNotation [] [] [] (lit ":") [].
