(** Specification of what the settings may change. *)

From Coq Require Import NArith String List.
From Verif Require Import Base ModelUtil ModelTlv ModelMain SpecUtil SpecTlv SpecDisplay SpecMain SpecPictures.
Import ListNotations.
Local Open Scope N_scope.

(* The same operations are asked for, with the same arguments. *)
Definition same_operations (m m' : matches) : Prop := forall op, given m op = given m' op.

(* The lines in place of a masked value. *)
Definition mask_row (l : line) : Prop :=
  exists i, l = heading_row i (lit "* Masked *") \/ exists t, rt_data t = Masked /\ l = tag_row i t (name_of (rt_tag t)).

(* What two runs that differ in the order only have in common. *)
Definition reordered (masks : list N) (op : operation) (s : str) (o o' : outcome) : Prop :=
  (exists e, complains o e /\ complains o' e)
  \/ exists ls ls', sheet masks true op s ls /\ sheet masks false op s ls' /\ Permutation.Permutation ls ls'
     /\ (displays o ls /\ displays o' ls' \/ o_panic o = true /\ o_panic o' = true).
