(** Specification of copying from the screen. *)

From Coq Require Import NArith List.
From Verif Require Import Base SpecUtil SpecDisplay.
Import ListNotations.
Local Open Scope N_scope.

(* The first [w] columns of lines after their tabs, as a block selected on the screen. *)
Definition columns (w : nat) (ls : list line) : str :=
  flat_map (fun l => repeat 9 (N.to_nat (l_tabs l mod 256)) ++ firstn w (flat_map snd (l_spans l)) ++ [10]) ls.
(* Whole lines. *)
Definition whole_lines (ls : list line) : str := flat_map (fun l => line_text l ++ [10]) ls.
