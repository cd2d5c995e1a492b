(** What the explanations on a screen say by themselves, without the bits and bytes beside them. *)

From Coq Require Import NArith List String Bool.
From Verif Require Import Base ModelUtil SpecUtil SpecCodes SpecValues SpecDisplay SpecPictures ModelMain SpecMain SpecMatch.
Import ListNotations.
Local Open Scope N_scope.

(* Values made of bits: TVR, TSI, CVR, terminal capabilities and additional terminal capabilities, with the bits that have a meaning. *)
Definition worded : list (list N * (list N -> option picture)) := [
  ([0xFC; 0xF8; 0xFC; 0xF8; 0xF0], bits_picture 5 tvr_bits tvr_used);
  ([0xFC; 0x00], bits_picture 2 tsi_bits tsi_used);
  ([0xFF; 0xFF; 0xFF; 0xFF; 0x00], bits_picture 5 cvr_bits cvr_used);
  ([0xE0; 0xF8; 0xE8], bits_picture 3 termcap_bits termcap_used);
  ([0xFF; 0x80; 0xF0; 0xF3; 0xFF], bits_picture 5 addtermcap_bits addtermcap_used)].
(* Two screens with the same explanations. *)
Definition same_words (ls ls' : list line) : Prop := forall w, tells ls w <-> tells ls' w.
(* At most one explanation is on the first screen and not on the second. *)
Definition at_most_one_more (ls ls' : list line) : Prop :=
  forall w w', tells ls w -> ~ tells ls' w -> tells ls w' -> ~ tells ls' w' -> w = w'.
(* Bit [j], counted from 0, of byte [k] the other way round. *)
Definition flipped (k : nat) (j : N) (d : list N) : list N := firstn k d ++ N.lxor (nth k d 0) (2 ^ j) :: skipn (k + 1) d.
(* The same code, or two codes that are both not in the table. *)
Definition same_code {A : Type} (table : list (N * A * string)) (c c' : N) : Prop :=
  c = c' \/ ~ In c (map (fun r => fst (fst r)) table) /\ ~ In c' (map (fun r => fst (fst r)) table).
(* The tags and the options with such values. *)
Definition worded_tags : list (list N * list N) := [
  ([0x95], [0xFC; 0xF8; 0xFC; 0xF8; 0xF0]); ([0x9B], [0xFC; 0x00]); ([0x9F; 0x33], [0xE0; 0xF8; 0xE8]); ([0x9F; 0x40], [0xFF; 0x80; 0xF0; 0xF3; 0xFF])].
Definition worded_options : list (operation * list N) := [
  (OpTvr, [0xFC; 0xF8; 0xFC; 0xF8; 0xF0]); (OpTsi, [0xFC; 0x00]); (OpCvr, [0xFF; 0xFF; 0xFF; 0xFF; 0x00])].
