(** What a refusal may say. *)

From Coq Require Import NArith List String Bool.
From Verif Require Import Base ModelUtil ModelTlv ModelMain SpecUtil SpecTlv SpecIngenico SpecProcess SpecMain SpecPictures.
Import ListNotations.
Local Open Scope N_scope.

(* About the argument of an operation as a whole; [n] is its number of bytes. *)
Definition argument_faults (op : operation) (n : N) : list parse_error :=
  match op with
  | OpTvr | OpCvr => [ByteCountIncorrect Eq 5 n]
  | OpTsi => [ByteCountIncorrect Eq 2 n]
  | OpIad => [NonCcdCompliant]
  | OpCvmResults => [ByteCountIncorrect Eq 3 n; NonCompliant]
  | OpCvmList => [ByteCountIncorrect Gt 8 n; ByteCountNotDivisibleIntoComponents]
  | OpIdentify => [ByteCountIncorrect Gt 1 0]
  | OpServiceCode => [InvalidNumber]
  | OpBer | OpIngenico => [Unsupported; NonCompliant]
  | OpAuto => [Unrecognised]
  end.
(* About one tag; [n] is the number of bytes of its value. *)
Definition tag_faults (t : list N) (n : N) : list parse_error :=
  match t with
  | [0x5F; 0x30] | [0x8A] => [ByteCountIncorrect Eq 2 n; InvalidNumber]
  | [0x8E] => [ByteCountIncorrect Gt 8 n; ByteCountNotDivisibleIntoComponents]
  | [0x95] | [0x9F; 0x0D] | [0x9F; 0x0E] | [0x9F; 0x0F] | [0x9F; 0x40] => [ByteCountIncorrect Eq 5 n]
  | [0x9B] => [ByteCountIncorrect Eq 2 n]
  | [0x9C] => [ByteCountIncorrect Eq 1 n]
  | [0x9F; 0x33] => [ByteCountIncorrect Eq 3 n]
  | [0x9F; 0x34] => [ByteCountIncorrect Eq 3 n; NonCompliant]
  | [0x9F; 0x35] | [0x9F; 0x39] => [ByteCountIncorrect Eq 1 n; Unrecognised]
  | _ => []
  end.

(* Everything that can be on stderr for arguments of up to [k] characters. *)
Definition stderr_line (e : parse_error) : str := message e ++ [10].
Definition stderr_lines (k : nat) : list str :=
  map stderr_line [ByteCountNotDivisibleIntoComponents; InvalidNumber; NonCompliant; NonCcdCompliant; Unsupported; Unrecognised; ByteCountIncorrect Gt 1 0]
  ++ flat_map (fun i => map stderr_line [ByteCountIncorrect Eq 1 (N.of_nat i); ByteCountIncorrect Eq 2 (N.of_nat i); ByteCountIncorrect Eq 3 (N.of_nat i);
                                         ByteCountIncorrect Eq 5 (N.of_nat i); ByteCountIncorrect Gt 8 (N.of_nat i)]) (seq 0 (S k)).

(* The text [x] writes one object without parts whose tag is one of those that are only
   named, not explained: the hex digits of a BER-TLV object tagged [t], or an Ingenico field of
   type [ty] and tag [t].  Card numbers, names, track data and cryptograms are such objects. *)
Inductive opaque (masks : list N) : operation -> N -> list N -> str -> Prop :=
| opaque_ber x ty t l v : Nat.even (List.length (filter is_hex_digitb x)) = true -> hex_bytes x = t ++ l ++ v ->
    ber_tag t -> ber_len l (len v) -> v <> [] -> type_of (first_byte t) = Primitive -> ~ In t interpreted_tags -> opaque masks OpBer ty t x
| opaque_field x ty t d : ascii_text x -> ing_field masks x (mkEntry ty t d) ->
    type_of (first_byte t) = Primitive -> ~ In t interpreted_tags -> opaque masks OpIngenico ty t x.
