(** Specification of data inside templates. *)

From Coq Require Import NArith String List Bool.
From Verif Require Import Base ModelUtil ModelEnums ModelTlv SpecUtil SpecTlv SpecIngenico SpecDisplay ModelMain SpecMain SpecPictures SpecSame SpecJoin.
Import ListNotations.
Local Open Scope N_scope.

(* A text that holds one constructed object of tag [t] and unmasked value [v] and nothing else. *)
Inductive template_text (masks : list N) : operation -> str -> list N -> list N -> Prop :=
| template_ber s t l v : hex_bytes s = t ++ l ++ v -> ber_tag t -> type_of (first_byte t) = Constructed -> ber_len l (len v) ->
    ~ masked masks v -> template_text masks OpBer s t v
| template_ingenico s t v : ascii_text s -> ing_text masks s [mkEntry letter_T t (Normal v)] -> type_of (first_byte t) = Constructed ->
    template_text masks OpIngenico s t v.

(* The lines of the object itself. *)
Definition own_lines (i : N) (t v : list N) : list line :=
  tag_row i (mkRawTag t (class_of (first_byte t)) Constructed (Normal v)) (name_of t) :: heading_row i (lit "Raw:") :: wide_dump (i + 1) v.
(* A template around lines. *)
Definition template_lines (t v : list N) (ls : list line) : list line :=
  own_lines 0 t v ++ heading_row 0 (lit "Constructed Data Object's Child Tags:") :: map (moved 1) ls.

(* [w] and [w'] are BER-TLV data that differ only in having [x] or [x'] somewhere inside the
   templates of tags [ts] (outermost first): the same data before and after at each level. *)
Inductive around (masks : list N) (x x' : str) (lx lx' : list line) : list (list N) -> str -> str -> list line -> list line -> Prop :=
| around_here : around masks x x' lx lx' [] x x' lx lx'
| around_template ts s s' ls ls' pre post lpre lpost t l l' w w' :
    around masks x x' lx lx' ts s s' ls ls' -> sheet masks false OpBer pre lpre -> sheet masks false OpBer post lpost ->
    ber_tag t -> type_of (first_byte t) = Constructed ->
    ber_len l (len (hex_bytes s)) -> ber_len l' (len (hex_bytes s')) -> hex_bytes s <> [] -> hex_bytes s' <> [] ->
    ~ masked masks (hex_bytes s) -> ~ masked masks (hex_bytes s') ->
    hex_bytes w = hex_bytes pre ++ t ++ l ++ hex_bytes s ++ hex_bytes post ->
    hex_bytes w' = hex_bytes pre ++ t ++ l' ++ hex_bytes s' ++ hex_bytes post ->
    around masks x x' lx lx' (t :: ts) w w' (below lpre (below (template_lines t (hex_bytes s) ls) lpost))
      (below lpre (below (template_lines t (hex_bytes s') ls') lpost)).

(* The same lines up to the own lines of objects of the tags [ts]. *)
Inductive matching : list (list N) -> list line -> list line -> Prop :=
| matching_nil : matching [] [] []
| matching_line ts l a b : matching ts a b -> matching ts (l :: a) (l :: b)
| matching_own ts i t v v' a b : matching ts a b -> matching (t :: ts) (own_lines i t v ++ a) (own_lines i t v' ++ b).
