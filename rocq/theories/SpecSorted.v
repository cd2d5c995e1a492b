(** Specification of where an object stands on a sorted screen. *)

From Coq Require Import NArith String List Bool.
From Verif Require Import Base ModelUtil ModelEnums ModelTlv SpecUtil SpecTlv SpecIngenico SpecProcess SpecDisplay ModelMain SpecMain SpecPictures SpecSame SpecJoin SpecWrap.
Import ListNotations.
Local Open Scope N_scope.

(* The place of an object of tag [t] that follows the objects [earlier] in the data: the lines
   above it are those of objects of smaller tags and of the objects of the same tag among
   [earlier], the lines below it those of the other objects. *)
Definition stands (t : list N) (earlier : list raw_node) (above under : list line) : Prop :=
  exists u v, above = forest_lines u 0 true /\ under = forest_lines v 0 true
  /\ (forall n, In n u -> dict_lt (node_tag_bytes n) t \/ node_tag_bytes n = t)
  /\ (forall n, In n v -> dict_lt t (node_tag_bytes n) \/ node_tag_bytes n = t)
  /\ List.length (tagged t u) = List.length (tagged t earlier).

(* BER-TLV data that holds exactly one object, of tag [t]. *)
Definition one_of (masks : list N) (t : list N) (x : str) : Prop := exists n, ber_block masks x [n] /\ node_tag_bytes n = t.

(* [w] and [w'] are BER-TLV data that differ only in having [x] or [x'] somewhere inside the
   templates of tags [ts] (outermost first): the same data before and after at each level. *)
Inductive within (masks : list N) (x x' : str) : list (list N) -> str -> str -> Prop :=
| within_here pre post npre npost w w' : ber_block masks pre npre -> ber_block masks post npost ->
    hex_bytes w = hex_bytes pre ++ hex_bytes x ++ hex_bytes post ->
    hex_bytes w' = hex_bytes pre ++ hex_bytes x' ++ hex_bytes post -> within masks x x' [] w w'
| within_template ts s s' pre post npre npost t l l' w w' :
    within masks x x' ts s s' -> ber_block masks pre npre -> ber_block masks post npost ->
    ber_tag t -> type_of (first_byte t) = Constructed ->
    ber_len l (len (hex_bytes s)) -> ber_len l' (len (hex_bytes s')) ->
    ~ masked masks (hex_bytes s) -> ~ masked masks (hex_bytes s') ->
    hex_bytes w = hex_bytes pre ++ t ++ l ++ hex_bytes s ++ hex_bytes post ->
    hex_bytes w' = hex_bytes pre ++ t ++ l' ++ hex_bytes s' ++ hex_bytes post ->
    within masks x x' (t :: ts) w w'.
