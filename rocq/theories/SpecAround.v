(** What stands in front of, between and behind Ingenico fields. *)

From Coq Require Import NArith List String Bool.
From Verif Require Import Base ModelUtil SpecUtil SpecTlv SpecIngenico ModelMain SpecMain SpecBreaks.
Import ListNotations.
Local Open Scope N_scope.

(* Text with at most one colon. *)
Definition few_colons (x : str) : Prop := forall u v w, x <> u ++ colon :: v ++ colon :: w.
(* Fields that each end in a carriage return and a line feed. *)
Definition windows_text (fs : list str) : str := flat_map (fun f => f ++ [13; 10]) fs.
(* The second text is the first one with anything but hex digits put in or left out. *)
Definition dressed (s s' : str) : Prop := filter is_hex_digitb s' = filter is_hex_digitb s.
(* Objects with values shorter than 128 bytes. *)
Definition short_objects (os : list (list N * list N)) : Prop := forall o, In o os -> bytes_ok (fst o) /\ ber_tag (fst o) /\ bytes_ok (snd o) /\ len (snd o) < 128.
(* Text that is not Ingenico text at all, which is said. *)
Definition turned_away (masks : list N) (s : str) : Prop := refused masks OpIngenico s NonCompliant /\ forall ns, ~ ingenico_block masks s ns.
