(** Which masking characters can matter for an argument. *)

From Coq Require Import NArith List Bool.
From Verif Require Import Base ModelMain SpecUtil SpecMain.
Import ListNotations.
Local Open Scope N_scope.

(* The character stands twice in a row: among the bytes, in the text itself, or among the bytes the text
   spells with four hex digits in a row. *)
Inductive repeated (c : N) : operation -> str -> Prop :=
| repeated_bytes op s a b : op = OpBer \/ op = OpAuto -> hex_bytes s = a ++ c :: c :: b -> repeated c op s
| repeated_text op s a b : op = OpIngenico \/ op = OpAuto -> s = a ++ c :: c :: b -> repeated c op s
| repeated_digits op s a x y x' y' b : op = OpIngenico \/ op = OpAuto -> s = a ++ [x; y; x'; y'] ++ b ->
    Forall is_hex_digit [x; y; x'; y'] -> 16 * hex_value x + hex_value y = c -> 16 * hex_value x' + hex_value y' = c -> repeated c op s.

(* The two lists of masking characters contain the same ones of those. *)
Definition agree_on (masks masks' : list N) (op : operation) (s : str) : Prop :=
  forall c, repeated c op s -> (In c masks <-> In c masks').
