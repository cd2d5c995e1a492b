(** Specification of masking: what hiding a value does to a tree. *)

From Coq Require Import NArith List.
From Verif Require Import Base ModelEnums ModelTlv SpecTlv.
Import ListNotations.
Local Open Scope N_scope.

(* The second node is the first one with the values in [hide] replaced by [Masked] and their
   children dropped, and those in [keep] left alone, at every level. *)
Inductive hides (hide keep : list N -> Prop) : raw_node -> raw_node -> Prop :=
| hides_value t c ty v below : hide v ->
    hides hide keep (RawNode (mkRawTag t c ty (Normal v)) below) (RawNode (mkRawTag t c ty Masked) [])
| hides_already t c ty : hides hide keep (RawNode (mkRawTag t c ty Masked) []) (RawNode (mkRawTag t c ty Masked) [])
| hides_shown t c ty v below below' : keep v -> hides_all hide keep below below' ->
    hides hide keep (RawNode (mkRawTag t c ty (Normal v)) below) (RawNode (mkRawTag t c ty (Normal v)) below')
with hides_all (hide keep : list N -> Prop) : list raw_node -> list raw_node -> Prop :=
| hides_nil : hides_all hide keep [] []
| hides_cons n n' l l' : hides hide keep n n' -> hides_all hide keep l l' -> hides_all hide keep (n :: l) (n' :: l').

(* Exactly the values consisting of a masking character are hidden. *)
Definition hides_masked (masks : list N) : list raw_node -> list raw_node -> Prop :=
  hides_all (masked masks) (fun v => ~ masked masks v).
(* Some values are hidden, all others unchanged. *)
Definition hides_some : list raw_node -> list raw_node -> Prop := hides_all (fun _ => True) (fun _ => True).

(* The same objects up to masked values. *)
Definition alike (masks : list N) (o o' : list N * list N) : Prop :=
  fst o = fst o' /\ (snd o = snd o' \/ masked masks (snd o) /\ masked masks (snd o')).
