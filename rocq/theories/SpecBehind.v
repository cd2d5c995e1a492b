(** Specification of what may stand behind BER-TLV objects: status words and padding. *)

From Coq Require Import NArith String List Bool.
From Verif Require Import Base ModelUtil ModelEnums ModelTlv SpecUtil SpecTlv SpecIngenico SpecProcess SpecDisplay ModelMain SpecMain SpecPictures SpecSame SpecJoin.
Import ListNotations.
Local Open Scope N_scope.

(* An object without a value, and its only line. *)
Definition empty_tag (t : list N) : raw_tag := mkRawTag t (class_of (first_byte t)) (type_of (first_byte t)) (Normal []).
Definition empty_object (t : list N) : raw_node := RawNode (empty_tag t) [].
Definition empty_line (t : list N) : line := tag_row 0 (empty_tag t) (name_of t).

(* Two bytes that read as such an object: a tag of one byte and the length 0. *)
Definition reads_empty (a b : N) : Prop := a mod 32 <> 31 /\ b = 0.
(* The tags of one byte whose value is explained, and how many bytes are missing then. *)
Definition explained_bytes : list (N * parse_error) :=
  [(0x8A, ByteCountIncorrect Eq 2 0); (0x8E, ByteCountIncorrect Gt 8 0); (0x95, ByteCountIncorrect Eq 5 0);
   (0x9B, ByteCountIncorrect Eq 2 0); (0x9C, ByteCountIncorrect Eq 1 0)].
