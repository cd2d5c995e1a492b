(** 32-bit builds without overflow checks: the highest bit of the length of a field in hex digits gets lost. *)

From Coq Require Import NArith List Bool Relations.
From Verif Require Import Base ModelTlv SpecUtil SpecTlv SpecIngenico SpecBuilds.
Import ListNotations.
Local Open Scope N_scope.

(* Twice a 32-bit number wraps around silently. *)
Definition wrapping (p : platform) : Prop := usize_bits p = 32 /\ overflow_checks p = false.

(* The first length digit of one field in hex digits, in a text whose fields before it are in order, is 8 less: 0 instead of 8, 1
   instead of 9, 2 instead of a, and so on.  The length has eight digits, or nine of which the last is dropped. *)
Inductive one_less (masks : list N) : list N -> list N -> Prop :=
| one_less_here ty td t d d' ld rest : tag_digits td t -> Forall is_hex_digit (d :: d' :: ld) -> List.length ld = 7%nat \/ List.length ld = 8%nat ->
    hex_value d = 8 + hex_value d' ->
    one_less masks (ty :: td ++ colon :: (d :: ld) ++ colon :: letter_h :: rest) (ty :: td ++ colon :: (d' :: ld) ++ colon :: letter_h :: rest)
| one_less_after f e sep rest rest' : ing_field masks f e -> one_less masks rest rest' ->
    one_less masks (f ++ sep :: rest) (f ++ sep :: rest').

(* Corrected as often as possible. *)
Definition taken_as (masks s s' : list N) : Prop :=
  clos_refl_trans_1n _ (one_less masks) s s' /\ ~ exists s'', one_less masks s' s''.
