(** Specification of line breaks and other blanks in pasted data. *)

From Coq Require Import NArith List.
From Verif Require Import Base SpecUtil SpecIngenico ModelMain SpecMain.
Import ListNotations.
Local Open Scope N_scope.

(* Tabs, line feeds, carriage returns and spaces. *)
Definition blank (c : N) : Prop := In c [9; 10; 13; 32].
(* The second text is the first one with a blank put in somewhere. *)
Definition broken (s s' : str) : Prop := exists a x b, s = a ++ b /\ s' = a ++ x :: b /\ blank x.
(* A field whose value is written in hex digits. *)
Inductive hex_field : str -> Prop :=
| hex_field_intro ty td tag ld n txt : tag_digits td tag -> length_digits ld n -> len txt = 2 * n -> Forall is_hex_digit txt ->
    hex_field (ty :: td ++ colon :: ld ++ colon :: letter_h :: txt).
(* The operations that read hex digits. *)
Definition hex_operations : list operation := [OpTvr; OpIad; OpCvr; OpTsi; OpCvmResults; OpCvmList; OpIdentify; OpBer].
