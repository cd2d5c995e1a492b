(** CCD issuer application data part by part, and its card verification results in words (EMV Book 3, Annex C7). *)

From Coq Require Import NArith List String Bool.
From Verif Require Import Base ModelUtil SpecUtil SpecDisplay.
Import ListNotations.
Local Open Scope N_scope.

(* A length, the identifier of the format, the index of the key, the card verification results, counters, a length, the data of the issuer. *)
Definition issuer_data (cci dki : N) (cvr counters rest : list N) : list N := 0x0F :: cci :: dki :: cvr ++ counters ++ 0x0F :: rest.
Definition ccd_parts (cci : N) (cvr counters rest : list N) : Prop := (cci = 0xA5 \/ cci = 0xA6) /\ len cvr = 5 /\ len counters = 8 /\ len rest = 15.

(* Two hexadecimal digits per byte, one blank between bytes. *)
Definition bytes_row (i : N) (d : list N) : line := row i [(None, spaced (map byte_text d))].
(* What follows the card verification results. *)
Definition issuer_rest (i : N) (counters rest : list N) : list line := [
  heading_row i (lit "Counters: (Payment System-Specific)"); bytes_row (i + 1) counters;
  heading_row i (lit "Issuer-Discretionary Data"); bytes_row (i + 1) rest].
Definition key_line (i dki : N) : line := titled i heading (lit "Derivation Key Index:") (lit " 0x" ++ byte_text dki).

(* Bits of the card verification results: byte, counted from 0, and value of the bit. *)
Definition results_flags : list (nat * N * string) := [
  (0%nat, 0x08, "CDA (Combined Data Authentication) performed");
  (0%nat, 0x04, "Offline DDA (Dynamic Data Authentication) performed");
  (0%nat, 0x02, "Issuer authentication not performed");
  (0%nat, 0x01, "Issuer authentication failed");
  (1%nat, 0x08, "Offline PIN verification performed");
  (1%nat, 0x04, "Offline PIN verification performed and PIN not successfully verified");
  (1%nat, 0x02, "PIN try limit exceeded");
  (1%nat, 0x01, "Last online transaction not completed");
  (2%nat, 0x80, "Lower offline transaction count limit exceeded");
  (2%nat, 0x40, "Upper offline transaction count limit exceeded");
  (2%nat, 0x20, "Lower cumulative offline amount limit exceeded");
  (2%nat, 0x10, "Upper cumulative offline amount limit exceeded");
  (2%nat, 0x08, "Issuer-discretionary bit 1");
  (2%nat, 0x04, "Issuer-discretionary bit 2");
  (2%nat, 0x02, "Issuer-discretionary bit 3");
  (2%nat, 0x01, "Issuer-discretionary bit 4");
  (3%nat, 0x08, "Issuer script processing failed");
  (3%nat, 0x04, "Offline data authentication failed on previous transaction");
  (3%nat, 0x02, "Go online on next transaction");
  (3%nat, 0x01, "Unable to go online")]%string.
(* Numbers in the upper half of a byte. *)
Definition results_counts : list (nat * string) := [
  (1%nat, "PIN try count: "); (3%nat, "Number of successfully processed issuer script commands containing secure messaging: ")]%string.
(* What the card returned when it was asked for a cryptogram the second time, and the first time: two bits each. *)
Definition second_cryptograms : list string := ["AAC (Application Authentication Cryptogram)"; "TC (Transaction Certificate)"; "Second GENERATE AC not requested"; "RFU (Reserved For Use)"]%string.
Definition first_cryptograms : list string := ["AAC (Application Authentication Cryptogram)"; "TC (Transaction Certificate)"; "ARQC (Authorization Request Cryptogram)"; "RFU (Reserved For Use)"]%string.
(* The explanations of card verification results. *)
Inductive results_say (d : list N) : str -> Prop :=
| say_flag k v w : In (k, v, w) results_flags -> N.land (nth k d 0) v = v -> results_say d (lit w)
| say_count k w : In (k, w) results_counts -> results_say d (lit w ++ dec (nth k d 0 / 16))
| say_second w : nth_error second_cryptograms (N.to_nat (nth 0 d 0 / 64)) = Some w ->
    results_say d (lit "Application cryptogram type returned in 2nd GENERATE AC: " ++ lit w)
| say_first w : nth_error first_cryptograms (N.to_nat (nth 0 d 0 / 16 mod 4)) = Some w ->
    results_say d (lit "Application cryptogram type returned in 1st GENERATE AC: " ++ lit w).
(* The explanations of the identifier of the format. *)
Inductive identifier_says (cci : N) : str -> Prop :=
| say_format : identifier_says cci (lit "IAD Format Code: Format A")
| say_triple_des : cci = 0xA5 -> identifier_says cci (lit "Cryptogram Version: Triple DES (3DES)")
| say_aes : cci = 0xA6 -> identifier_says cci (lit "Cryptogram Version: AES").
(* The whole: what is under the first heading and under the third is left open. *)
Definition issuer_lines (i dki : N) (top results : list line) (counters rest : list N) : list line :=
  heading_row i (lit "Common Core Identifier:") :: top ++ key_line i dki
  :: heading_row i (lit "Card Verification Results:") :: results ++ issuer_rest i counters rest.
