(** Specification of arguments put together without a break, and of arguments given twice over. *)

From Coq Require Import NArith String List Bool.
From Verif Require Import Base ModelUtil ModelTlv SpecUtil SpecTlv SpecIngenico SpecProcess SpecDisplay ModelMain SpecMain SpecPictures SpecJoin.
Import ListNotations.
Local Open Scope N_scope.

(* Ingenico fields of which the last has no separator behind it, and the objects they stand for. *)
Inductive unclosed (masks : list N) : str -> list raw_node -> Prop :=
| unclosed_intro front es f e ns : ascii_text (front ++ f) -> ing_prefix masks front es -> ing_field masks f e -> ing_nodes masks (es ++ [e]) ns ->
    unclosed masks (front ++ f) ns.
(* Everything twice in a row. *)
Definition doubled {A : Type} (l : list A) : list A := flat_map (fun x => [x; x]) l.
(* A list of rules is shown with its amounts if there are any or a rule asks for them. *)
Definition amounts_shown (x y : N) (rules : list N) : list line :=
  if (x =? 0) && (y =? 0) && negb (mentions_amount rules) then [] else amounts_picture x y 0.
