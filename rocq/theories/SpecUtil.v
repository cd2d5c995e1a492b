(** Specifications for the utility functions, independent of the model's helpers. *)

From Coq Require Import NArith List String Ascii Bool.
Import ListNotations.
Local Open Scope N_scope.

(* An ASCII hex digit with its value. *)
Definition is_hex_digit (c : N) : Prop :=
  (48 <= c /\ c <= 57) \/ (65 <= c /\ c <= 70) \/ (97 <= c /\ c <= 102).
Definition is_hex_digitb (c : N) : bool :=
  ((48 <=? c) && (c <=? 57)) || ((65 <=? c) && (c <=? 70)) || ((97 <=? c) && (c <=? 102)).
Definition hex_value (c : N) : N :=
  if c <=? 57 then c - 48 else if c <=? 70 then c - 55 else c - 87.

(* Upper-case hex digit of a value below 16, from the digit string. *)
Definition digit_chars : list N := map N_of_ascii (list_ascii_of_string "0123456789ABCDEF").
Definition hex_char (v : N) : N := nth (N.to_nat v) digit_chars 0.
(* Two upper-case digits per byte. *)
Definition hex_text (l : list N) : list N := flat_map (fun b => [hex_char (b / 16); hex_char (b mod 16)]) l.

(* The bytes denoted by a sequence of digits: one per complete pair. *)
Fixpoint bytes_of_digits (ds : list N) : list N :=
  match ds with
  | a :: b :: t => 16 * hex_value a + hex_value b :: bytes_of_digits t
  | _ => []
  end.

(* ASCII upper case of hex letters. *)
Definition upper_hex (c : N) : N := if (97 <=? c) && (c <=? 102) then c - 32 else c.

(* Big-endian value. *)
Fixpoint be_value (l : list N) : N :=
  match l with
  | [] => 0
  | b :: t => b * 256 ^ N.of_nat (List.length t) + be_value t
  end.

(* Decimal digits and their value. *)
Definition is_dec_digit (c : N) : Prop := 48 <= c /\ c <= 57.
Fixpoint dec_value (l : list N) : N :=
  match l with
  | [] => 0
  | c :: t => (c - 48) * 10 ^ N.of_nat (List.length t) + dec_value t
  end.

(* Unicode White_Space. *)
Definition white_space_chars : list N :=
  [0x09; 0x0A; 0x0B; 0x0C; 0x0D; 0x20; 0x85; 0xA0; 0x1680; 0x2000; 0x2001; 0x2002; 0x2003; 0x2004;
   0x2005; 0x2006; 0x2007; 0x2008; 0x2009; 0x200A; 0x2028; 0x2029; 0x202F; 0x205F; 0x3000].
Definition is_white_space (c : N) : Prop := In c white_space_chars.

(* The texts that denote the number [v]: white space, optional plus, digits, white space. *)
Definition denotes_number (s : list N) (v : N) : Prop :=
  exists ws1 sign digits ws2,
    s = ws1 ++ sign ++ digits ++ ws2
    /\ Forall is_white_space ws1 /\ Forall is_white_space ws2
    /\ (sign = [] \/ sign = [43])
    /\ digits <> [] /\ Forall is_dec_digit digits
    /\ v = dec_value digits.
