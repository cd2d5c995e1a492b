(** The names of tags: what the name of a tag tells about it. *)

From Coq Require Import NArith List String Bool.
From Verif Require Import Base ModelUtil SpecUtil SpecDisplay.
Import ListNotations.
Local Open Scope N_scope.

(* What is shown for a tag to identify. *)
Definition named (ls : list line) (x : str) : Prop := In (titled 0 heading (lit "Name:") (lit "             " ++ x)) ls.
Definition of_class (ls : list line) (x : str) : Prop := In (titled 0 heading (lit "Class:") (lit "            " ++ x)) ls.
Definition of_type (ls : list line) (x : str) : Prop := In (titled 0 heading (lit "Data Object Type:") (lit " " ++ x)) ls.
Definition unknown : str := lit "<Unknown>".
(* The templates of the EMV books (Book 3, Annex A). *)
Definition templates : list (list N) := [[0x61]; [0x6F]; [0x70]; [0x71]; [0x72]; [0x73]; [0x77]; [0xA5]; [0xBF; 0x0C]].
(* The line of an object with this tag and this title. *)
Definition object_titled (ls : list line) (t : list N) (title : str) : Prop :=
  exists i size, In (row i [(heading, lit "Tag:"); (None, lit " 0x"); (bold, flat_map byte_text t); (None, lit " - " ++ size ++ lit " - " ++ title)]) ls.
