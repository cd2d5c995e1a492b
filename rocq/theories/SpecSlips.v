(** Specification: slips of the keyboard in hex digits. *)

From Coq Require Import NArith List.
From Verif Require Import Base SpecUtil ModelMain SpecMain.
Import ListNotations.
Local Open Scope N_scope.

(* A digit is left out, or something that is no digit (a letter O, a space) stands in its place.  A superfluous digit is the
   same the other way round. *)
Definition loses (s s' : str) : Prop :=
  exists a c b x, s = a ++ c :: b /\ s' = a ++ x ++ b /\ is_hex_digit c /\ Forall (fun y => ~ is_hex_digit y) x.
(* Digits stand where other digits should: one wrong digit, two exchanged ones, or more. *)
Definition mistypes (s s' : str) : Prop :=
  exists a x y b, s = a ++ x ++ b /\ s' = a ++ y ++ b /\ List.length x = List.length y /\ Forall is_hex_digit x /\ Forall is_hex_digit y.
(* Every digit has a partner. *)
Definition paired (s : str) : Prop := Nat.even (List.length (filter is_hex_digitb s)) = true.

(* The operations on values of a certain size, and those of them for which every content is meaningful. *)
Definition sized : list operation := [OpTvr; OpIad; OpCvr; OpTsi; OpCvmResults; OpCvmList].
Definition lenient : list operation := [OpTvr; OpCvr; OpTsi].
