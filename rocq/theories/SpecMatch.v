(** Reading a TVR against action codes: which explanations two screens have in common. *)

From Coq Require Import NArith List String Bool.
From Verif Require Import Base SpecDisplay.
Import ListNotations.
Local Open Scope N_scope.

(* The words behind the elbow of a line of a diagram. *)
Definition tells (ls : list line) (w : str) : Prop := exists l arms, In l ls /\ line_text l = arms ++ 0x2514 :: 32 :: w.

(* The TVR, and the action codes default, denial and online. *)
Definition verification_tags : list (list N) := [[0x95]; [0x9F; 0x0D]; [0x9F; 0x0E]; [0x9F; 0x0F]].
(* The bits that have a meaning (EMV Book 3, Annex C5). *)
Definition meaningful : list N := [0xFC; 0xF8; 0xFC; 0xF8; 0xF0].

(* Some meaningful bit is set in both: what a terminal checks. *)
Definition matching (d d' : list N) : Prop :=
  exists k, N.land (nth k meaningful 0) (N.land (nth k d 0) (nth k d' 0)) <> 0.
(* Every meaningful bit of the first is set in the second. *)
Definition covered (d d' : list N) : Prop :=
  forall k, N.land (nth k meaningful 0) (N.ldiff (nth k d 0) (nth k d' 0)) = 0.
(* Two values byte by byte. *)
Definition merged (f : N -> N -> N) (d d' : list N) : list N := map (fun x => f (fst x) (snd x)) (combine d d').
