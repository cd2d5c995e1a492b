(** How deeply templates are nested in data. *)

From Coq Require Import NArith List Bool.
From Verif Require Import Base ModelTlv ModelMain SpecUtil SpecTlv SpecIngenico SpecMain.
Import ListNotations.
Local Open Scope N_scope.

(* BER-TLV data with [k] templates inside one another: each of them unmasked, and what comes before it in order.  Whether
   what comes after it is in order does not matter. *)
Inductive nest (masks : list N) : nat -> list N -> Prop :=
| nest_none bytes : nest masks 0 bytes
| nest_inside k bytes t v rest : ber_object bytes t v rest -> type_of (first_byte t) = Constructed -> ~ masked masks v ->
    nest masks k v -> nest masks (S k) bytes
| nest_after k bytes t v rest : ber_object bytes t v rest -> nest masks (S k) rest -> nest masks (S k) bytes.

(* The same for Ingenico text, where only values of type T are looked into. *)
Inductive text_nest (masks : list N) : nat -> list N -> Prop :=
| text_nest_none s : text_nest masks 0 s
| text_nest_inside k f t v rest : ing_field masks f (mkEntry letter_T t (Normal v)) -> type_of (first_byte t) = Constructed ->
    nest masks k v -> text_nest masks (S k) (f ++ rest)
| text_nest_after k f e sep rest : ing_field masks f e -> text_nest masks (S k) rest -> text_nest masks (S k) (f ++ sep :: rest).

(* The argument of an operation. *)
Inductive argument_nest (masks : list N) (k : nat) : operation -> str -> Prop :=
| nest_ber s : nest masks k (hex_bytes s) -> argument_nest masks k OpBer s
| nest_ingenico s : ascii_text s -> text_nest masks k s -> argument_nest masks k OpIngenico s
| nest_auto_ingenico s : ascii_text s -> text_nest masks k s -> argument_nest masks k OpAuto s
| nest_auto_ber s : s <> [] -> (forall ns, ~ ingenico_block masks s ns) -> nest masks k (hex_bytes s) -> argument_nest masks k OpAuto s.
