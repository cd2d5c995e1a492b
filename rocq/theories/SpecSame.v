(** The same value is shown in the same way wherever it occurs. *)

From Coq Require Import NArith List String Bool.
From Verif Require Import Base ModelUtil ModelEnums ModelTlv SpecUtil SpecTlv SpecDisplay SpecPictures ModelMain SpecMain.
Import ListNotations.
Local Open Scope N_scope.

(* A line moved [k] tabs to the right; blank lines stay blank. *)
Definition moved (k : N) (l : line) : line :=
  match l_spans l with [] => l | _ :: _ => mkLine (l_tabs l + k) (l_spans l) (l_end l) end.

(* The operations that show what is also the value of a tag. *)
Definition value_of_tag : list (operation * list N) :=
  [(OpTvr, [0x95]); (OpIad, [0x9F; 0x10]); (OpTsi, [0x9B]); (OpCvmResults, [0x9F; 0x34]); (OpCvmList, [0x8E])].

(* The lines of an object itself, without what its value means. *)
Definition object_lines (i : N) (t : raw_tag) : list line := tag_row i t (tag_title t) :: data_lines i t.

(* Three decimal digits as the two bytes of tag 5F30. *)
Definition service_bytes (n : N) : list N := [n / 100; 16 * (n / 10 mod 10) + n mod 10].
