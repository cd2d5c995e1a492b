(** Specification of TLV data put together from parts. *)

From Coq Require Import NArith String List Bool.
From Verif Require Import Base ModelUtil ModelTlv ModelProcess ModelDisplay SpecUtil SpecTlv SpecIngenico SpecDisplay ModelMain SpecMain SpecPictures.
Import ListNotations.
Local Open Scope N_scope.

(* Data that more data can be appended to: whole BER-TLV objects written with an even number
   of hex digits, or Ingenico fields each followed by a separator. *)
Inductive part (masks : list N) : operation -> str -> list raw_node -> Prop :=
| part_ber a ns : Nat.even (List.length (filter is_hex_digitb a)) = true -> ber_block masks a ns -> part masks OpBer a ns
| part_ingenico a es ns : ascii_text a -> ing_prefix masks a es -> ing_nodes masks es ns -> part masks OpIngenico a ns.

(* Two screens, one below the other with a blank line between them. *)
Definition below (a b : list line) : list line :=
  match a, b with
  | [], _ => b
  | _, [] => a
  | _, _ => a ++ blank :: b
  end.

(* No tag occurs at the top of both. *)
Definition no_common_tag (x y : list raw_node) : Prop :=
  forall n n', In n x -> In n' y -> node_tag_bytes n <> node_tag_bytes n'.
