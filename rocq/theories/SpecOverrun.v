(** Data that announces a value reaching beyond what the build can count. *)

From Coq Require Import NArith List Bool.
From Verif Require Import Base ModelTlv ModelMain SpecUtil SpecTlv SpecIngenico SpecMain.
Import ListNotations.
Local Open Scope N_scope.

(* Somewhere in BER-TLV data there is a tag with a length such that the end of the value, counted from the
   start of the data or of the template it is in, is [limit] or more.  What comes before it is in order, and the
   templates around it are unmasked.  [off] bytes precede [bytes]. *)
Inductive overruns (limit : N) (masks : list N) : N -> list N -> Prop :=
| overruns_here off t l n rest : ber_tag t -> ber_len l n -> (long_form l -> rest <> []) ->
    limit <= off + len t + len l + n -> overruns limit masks off (t ++ l ++ rest)
| overruns_inside off bytes t v rest : ber_object bytes t v rest -> type_of (first_byte t) = Constructed -> ~ masked masks v ->
    overruns limit masks 0 v -> overruns limit masks off bytes
| overruns_after off bytes t v rest : ber_object bytes t v rest ->
    overruns limit masks (off + (len bytes - len rest)) rest -> overruns limit masks off bytes.

(* The same for Ingenico text, where the end of the value is counted in characters. *)
Inductive text_overruns (limit : N) (masks : list N) : N -> list N -> Prop :=
| text_overruns_here off ty td t ld n fmt k rest : tag_digits td t -> length_digits ld n -> fmt = letter_a /\ k = n \/ fmt = letter_h /\ k = 2 * n ->
    limit <= off + len (ty :: td ++ colon :: ld ++ [colon; fmt]) + k -> text_overruns limit masks off (ty :: td ++ colon :: ld ++ colon :: fmt :: rest)
| text_overruns_inside off f t v rest : ing_field masks f (mkEntry letter_T t (Normal v)) -> type_of (first_byte t) = Constructed ->
    overruns limit masks 0 v -> text_overruns limit masks off (f ++ rest)
| text_overruns_after off f e sep rest : ing_field masks f e -> text_overruns limit masks (off + len f + 1) rest -> text_overruns limit masks off (f ++ sep :: rest).

(* The argument of an operation. *)
Inductive argument_overruns (limit : N) (masks : list N) : operation -> str -> Prop :=
| overruns_ber s : overruns limit masks 0 (hex_bytes s) -> argument_overruns limit masks OpBer s
| overruns_ingenico s : ascii_text s -> text_overruns limit masks 0 s -> argument_overruns limit masks OpIngenico s
| overruns_auto_ingenico s : ascii_text s -> text_overruns limit masks 0 s -> argument_overruns limit masks OpAuto s
| overruns_auto_ber s : s <> [] -> (forall ns, ~ ingenico_block masks s ns) -> overruns limit masks 0 (hex_bytes s) -> argument_overruns limit masks OpAuto s.
