(** How many columns and characters lines take. *)

From Coq Require Import NArith List Bool.
From Verif Require Import Base ModelTlv ModelMain SpecUtil SpecTlv SpecProcess SpecDisplay SpecMain.
Import ListNotations.
Local Open Scope N_scope.

(* The columns of a line right of its tabs. *)
Definition width (l : line) : N := len (flat_map snd (l_spans l)).
(* The tags of an argument that can be shown. *)
Inductive shows_tag (masks : list N) : operation -> str -> list N -> Prop :=
| shows_identify s : shows_tag masks OpIdentify s (hex_bytes s)
| shows_in_block op s f ns t : tlv_block masks op s f ns -> In t (flat_map preorder ns) -> shows_tag masks op s (rt_tag t).

(* The characters of lines, each with its end. *)
Definition characters (ls : list line) : N := len (flat_map (fun l => line_text l ++ [10]) ls).
