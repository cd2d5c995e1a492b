(** Data without huge announced lengths, for builds with 32-bit pointers. *)

From Coq Require Import NArith List Bool.
From Verif Require Import Base ModelMain ModelCli SpecUtil SpecMain.
Import ListNotations.
Local Open Scope N_scope.

(* Bytes: where a length of four bytes could begin (84), the next byte is below 80, so that it is below 2^31. *)
Definition small_lengths (bytes : list N) : Prop := forall a b c, bytes = a ++ 0x84 :: b :: c -> b < 0x80.
(* Text: the hex digits never read 8, 4 and a digit of 8 or more. *)
Definition small_ber (s : str) : Prop := forall a x c, filter is_hex_digitb s = a ++ [56; 52; x] ++ c -> hex_value x < 8.
(* Text: between two colons there are never eight or more hex digits of which the first is 4 or more. *)
Definition small_ingenico (s : str) : Prop := forall a x ds c, s = a ++ 58 :: x :: ds ++ 58 :: c ->
  Forall is_hex_digit (x :: ds) -> (7 <= List.length ds)%nat -> hex_value x < 4.
Definition small (op : operation) (s : str) : Prop :=
  match op with
  | OpBer => small_ber s
  | OpIngenico | OpAuto => small_ber s /\ small_ingenico s
  | _ => True
  end.
(* The build with 64-bit pointers that checks for overflow where [p] does. *)
Definition widened (p : platform) : platform := {| usize_bits := 64; overflow_checks := overflow_checks p |}.
