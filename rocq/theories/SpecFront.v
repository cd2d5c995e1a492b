(** Specification of data that lost its beginning. *)

From Coq Require Import NArith String List Bool.
From Verif Require Import Base ModelUtil ModelEnums ModelTlv SpecUtil SpecTlv SpecIngenico SpecProcess SpecDisplay ModelMain SpecMain SpecPictures SpecJoin SpecBreaks.
Import ListNotations.
Local Open Scope N_scope.

(* A separator that cannot be mistaken for a part of a field's head. *)
Definition divides (c : N) : Prop := ~ is_hex_digit c /\ c <> colon /\ c <> letter_T.
(* Fields with values in hex digits, and the text made of them; the last separator may be missing. *)
Inductive fields : list str -> str -> Prop :=
| fields_none : fields [] []
| fields_last f : hex_field f -> fields [f] f
| fields_more f sep fs s : hex_field f -> divides sep -> fields fs s -> fields (f :: fs) (f ++ sep :: s).
(* The same with all separators. *)
Inductive closed : list str -> str -> Prop :=
| closed_none : closed [] []
| closed_more f sep fs s : hex_field f -> divides sep -> closed fs s -> closed (f :: fs) (f ++ sep :: s).
(* Something alone, or in front of more. *)
Inductive followed (f : str) : str -> str -> Prop :=
| followed_end : followed f f []
| followed_more sep rest : divides sep -> followed f (f ++ sep :: rest) rest.
(* What is left of a field still looks like a field if at least three digits of the tag are left: the first one is taken
   for the letter in front of the tag. *)
Definition looks_whole (f : str) : Prop :=
  exists c d x, f = c :: d ++ colon :: x /\ Forall is_hex_digit (c :: d) /\ (2 <= List.length d)%nat /\ In colon x.
(* Two arguments that the program does the same for. *)
Definition same_screen (masks : list N) (op : operation) (s s' : str) : Prop :=
  (forall sort ls, sheet masks sort op s ls <-> sheet masks sort op s' ls) /\ (forall e, refused masks op s e <-> refused masks op s' e).

(* The hex digits in a text. *)
Definition digits_in (s : str) : str := filter is_hex_digitb s.
(* A primitive tag of one byte that is also the second and last byte of tags of two bytes. *)
Definition second_byte (b : N) : Prop := b < 128 /\ b mod 32 <> 31 /\ type_of b = Primitive.
Definition plain_object (t : list N) (d : emv_data) : raw_tag := mkRawTag t (class_of (first_byte t)) (type_of (first_byte t)) d.
(* What must be left of an argument for the operations whose values may have any size. *)
Definition enough (op : operation) (b : str) : Prop :=
  match op with
  | OpIdentify => hex_bytes b <> []
  | OpCvmList => 8 <= len (hex_bytes b) /\ N.even (len (hex_bytes b)) = true
  | OpServiceCode => exists c, In c b /\ is_dec_digit c
  | _ => False
  end.
