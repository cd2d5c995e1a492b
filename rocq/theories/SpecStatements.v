(** Values made of bits in words: which statement, in which colour, stands for which bit. *)

From Coq Require Import NArith List String Bool.
From Verif Require Import Base ModelUtil ModelDisplay ModelCli ModelMain SpecUtil SpecDisplay SpecMain.
Import ListNotations.
Local Open Scope N_scope.

(* The byte, counted from 0, the value of the bit in it, the colour and the words. *)
Definition statement : Type := nat * N * option color * string.
(* Terminal verification results, transaction status information, terminal capabilities and additional terminal capabilities (EMV Book 3, Annex C5 and C6, Book 4, Annex A2 and A3). *)
Definition tvr_statements : list statement := [
  (0%nat, 0x80, None, "Offline data authentication was not performed");
  (0%nat, 0x40, Some Red, "SDA (Static Data Authentication) failed");
  (0%nat, 0x20, Some Red, "ICC data missing");
  (0%nat, 0x10, Some Red, "Card appears on terminal exception file");
  (0%nat, 0x08, Some Red, "DDA (Dynamic Data Authentication) failed");
  (0%nat, 0x04, Some Red, "CDA (Combined Data Authentication) failed");
  (1%nat, 0x80, Some Yellow, "ICC and terminal have different application versions");
  (1%nat, 0x40, Some Red, "Expired application");
  (1%nat, 0x20, Some Red, "Application not yet effective");
  (1%nat, 0x10, Some Red, "Requested service not allowed for card product");
  (1%nat, 0x08, Some Yellow, "New card");
  (2%nat, 0x80, Some Yellow, "Cardholder verification was not successful");
  (2%nat, 0x40, Some Yellow, "Unrecognised CVM (Cardholder Verification Method)");
  (2%nat, 0x20, Some Red, "PIN try limit exceeded");
  (2%nat, 0x10, Some Red, "PIN entry required and PIN pad not present or not working");
  (2%nat, 0x08, Some Yellow, "PIN entry required, PIN pad present, but PIN was not entered (PIN bypass)");
  (2%nat, 0x04, None, "Online PIN entered");
  (3%nat, 0x80, None, "Transaction exceeds floor limit");
  (3%nat, 0x40, None, "Lower consecutive offline limit exceeded");
  (3%nat, 0x20, None, "Upper consecutive offline limit exceeded");
  (3%nat, 0x10, None, "Transaction selected randomly for online processing");
  (3%nat, 0x08, None, "Merchant forced transaction online");
  (4%nat, 0x80, None, "Default TDOL (Transaction Certificate Data Object List) used");
  (4%nat, 0x40, Some Red, "Issuer authentication failed");
  (4%nat, 0x20, Some Red, "Script processing failed before final GENERATE AC");
  (4%nat, 0x10, Some Red, "Script processing failed after final GENERATE AC")]%string.
Definition tsi_statements : list statement := [
  (0%nat, 0x80, None, "Offline data authentication was performed");
  (0%nat, 0x40, None, "Cardholder verification was performed");
  (0%nat, 0x20, None, "Card risk management was performed");
  (0%nat, 0x10, None, "Issuer authentication was performed");
  (0%nat, 0x08, None, "Terminal risk management was performed");
  (0%nat, 0x04, None, "Script processing was performed")]%string.
Definition capabilities_statements : list statement := [
  (0%nat, 0x80, None, "Manual key entry");
  (0%nat, 0x40, None, "Magnetic stripe (MSR)");
  (0%nat, 0x20, None, "IC with contacts (ICC)");
  (1%nat, 0x80, None, "Plaintext PIN for ICC verification");
  (1%nat, 0x40, None, "Enciphered PIN for online verification");
  (1%nat, 0x20, None, "Signature (paper)");
  (1%nat, 0x10, None, "Enciphered PIN for offline verification");
  (1%nat, 0x08, None, "No CVM Required");
  (2%nat, 0x80, None, "SDA (Static Data Authentication)");
  (2%nat, 0x40, None, "DDA (Dynamic Data Authentication)");
  (2%nat, 0x20, None, "Card capture (ATM retaining the card)");
  (2%nat, 0x08, None, "CDA (Combined Data Authentication)")]%string.
Definition additional_statements : list statement := [
  (0%nat, 0x80, None, "Cash");
  (0%nat, 0x40, None, "Goods");
  (0%nat, 0x20, None, "Services");
  (0%nat, 0x10, None, "Cashback");
  (0%nat, 0x08, None, "Inquiry (request for information about one of the cardholder's accounts)");
  (0%nat, 0x04, None, "Transfer (between cardholder accounts at the same financial institution)");
  (0%nat, 0x02, None, "Payment (from a cardholder account to another party)");
  (0%nat, 0x01, None, "Administrative");
  (1%nat, 0x80, None, "Cash Deposit (into a bank account related to an application on the card used)");
  (2%nat, 0x80, None, "Numeric keys");
  (2%nat, 0x40, None, "Alphabetic and special characters keys");
  (2%nat, 0x20, None, "Command keys");
  (2%nat, 0x10, None, "Function keys");
  (3%nat, 0x80, None, "Print, attendant");
  (3%nat, 0x40, None, "Print, cardholder");
  (3%nat, 0x20, None, "Display, attendant");
  (3%nat, 0x10, None, "Display, cardholder");
  (3%nat, 0x02, None, "ISO/IEC 8859 Code Table 10");
  (3%nat, 0x01, None, "ISO/IEC 8859 Code Table 9");
  (4%nat, 0x80, None, "ISO/IEC 8859 Code Table 8");
  (4%nat, 0x40, None, "ISO/IEC 8859 Code Table 7");
  (4%nat, 0x20, None, "ISO/IEC 8859 Code Table 6");
  (4%nat, 0x10, None, "ISO/IEC 8859 Code Table 5");
  (4%nat, 0x08, None, "ISO/IEC 8859 Code Table 4");
  (4%nat, 0x04, None, "ISO/IEC 8859 Code Table 3");
  (4%nat, 0x02, None, "ISO/IEC 8859 Code Table 2");
  (4%nat, 0x01, None, "ISO/IEC 8859 Code Table 1")]%string.
(* The action codes are made of the bits of the terminal verification results and are never coloured. *)
Definition uncoloured (l : list statement) : list statement := map (fun x => match x with (k, v, _, w) => (k, v, None, w) end) l.
Definition statement_tags : list (list N * N * list statement) := [
  ([0x95], 5, tvr_statements); ([0x9B], 2, tsi_statements); ([0x9F; 0x33], 3, capabilities_statements); ([0x9F; 0x40], 5, additional_statements);
  ([0x9F; 0x0D], 5, uncoloured tvr_statements); ([0x9F; 0x0E], 5, uncoloured tvr_statements); ([0x9F; 0x0F], 5, uncoloured tvr_statements)].
Definition statement_options : list (operation * N * list statement) := [(OpTvr, 5, tvr_statements); (OpTsi, 2, tsi_statements)].
(* These words stand behind an elbow, in this colour. *)
Definition stated (ls : list line) (c : option color) (w : str) : Prop :=
  exists i arms, In (mkLine i [(None, arms ++ [0x2514; 32]); (Some (mkSpec false c), w)] (Some (mkSpec false c))) ls.
(* The statements for the bits that are set. *)
Definition holds (table : list statement) (d : list N) (c : option color) (w : str) : Prop :=
  exists k v x, In (k, v, c, x) table /\ N.land (nth k d 0) v = v /\ w = lit x.
