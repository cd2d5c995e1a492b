(** What can be said about a device, and what a terminal shows of the bytes it has received. *)

From Coq Require Import NArith List String Bool.
From Verif Require Import Base ModelUtil ModelDisplay ModelStdout SpecDisplay SpecTerminal.
Import ListNotations.
Local Open Scope N_scope.

(* An answer that takes nothing. *)
Definition refuses (a : answer) : Prop := a = Fails \/ a = Takes 0.
(* A device that takes something at every call: a terminal, a file on a disk with room. *)
Definition dependable (dev : device) : Prop := forall n, exists k, dev n = Takes k /\ 0 < k.
(* A device that, having refused once, refuses forever: a pipe whose reader has gone, a disk
   that is full. *)
Definition for_good (dev : device) : Prop := forall n m, (n <= m)%nat -> refuses (dev n) -> refuses (dev m).

(* The characters on the terminal, whatever they look like. *)
Definition characters (bs : list N) : list N := map snd (t_cells (receives fresh bs)).
