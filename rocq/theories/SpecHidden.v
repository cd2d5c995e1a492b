(** Specification of objects whose value is masked. *)

From Coq Require Import NArith List Bool PeanoNat.
From Verif Require Import Base ModelMain SpecUtil SpecTlv SpecIngenico SpecMain.
Import ListNotations.
Local Open Scope N_scope.

(* The text [x] writes one object with a masked value: the hex digits of a BER-TLV object
   tagged [t], or an Ingenico field of type [ty] and tag [t]. *)
Inductive hidden (masks : list N) : operation -> N -> list N -> str -> Prop :=
| hidden_ber x ty t l v : Nat.even (List.length (filter is_hex_digitb x)) = true -> hex_bytes x = t ++ l ++ v ->
    ber_tag t -> ber_len l (len v) -> masked masks v -> hidden masks OpBer ty t x
| hidden_field ty td t ld n fmt v : ascii_text (ty :: td ++ colon :: ld ++ colon :: fmt :: v) ->
    tag_digits td t -> length_digits ld n -> fmt = letter_a /\ len v = n \/ fmt = letter_h /\ len v = 2 * n -> masked masks v ->
    hidden masks OpIngenico ty t (ty :: td ++ colon :: ld ++ colon :: fmt :: v).
