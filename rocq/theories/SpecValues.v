(** What the EMV values mean: bit tables in the notation of the EMV books (bytes numbered
    from 1, bits from 8 down to 1), and how a table decodes and displays raw bytes. *)

From Coq Require Import NArith List String Bool.
From Verif Require Import Base ModelUtil ModelEnums ModelBitflag ModelValues SpecUtil SpecCodes.
Import ListNotations.
Local Open Scope N_scope.

(* How the bits of a field are read. *)
Inductive kind : Type := Flag | Number | GenAc1 | GenAc2 | Format | Version | Method | Condition.

(* Bits [e_hi] to [e_lo] of byte [e_byte]. *)
Record bit_field : Type := mkBits {
  e_byte : N; e_hi : N; e_lo : N; e_kind : kind; e_name : string; e_sev : severity; e_label : string }.
Definition flag (byte bit : N) (name : string) (sev : severity) (label : string) : bit_field :=
  mkBits byte bit bit Flag name sev label.
Definition group (byte hi lo : N) (k : kind) (name : string) (sev : severity) (label : string) : bit_field :=
  mkBits byte hi lo k name sev label.

(* Bits hi..lo of a byte as a number. *)
Definition bits_of (b hi lo : N) : N := (b / 2 ^ (lo - 1)) mod 2 ^ (hi - lo + 1).
Definition field_bits (e : bit_field) (raw : list N) : N :=
  bits_of (nth (N.to_nat (e_byte e - 1)) raw 0) (e_hi e) (e_lo e).

(* Entry of a code table. *)
Fixpoint find_code {A : Type} (table : list (N * A * string)) (c : N) : option (A * string) :=
  match table with
  | [] => None
  | (k, a, s) :: t => if k =? c then Some (a, s) else find_code t c
  end.

(* Value of a field and the text shown for it; [None]: not an allowed code. *)
Definition coded {A : Type} (table : list (N * A * string)) (f : A -> fval) (c : N) : option (fval * str) :=
  match find_code table c with Some (a, s) => Some (f a, lit s) | None => None end.
Definition optional {A : Type} (table : list (N * A * string)) (f : option A -> fval) (unknown : string)
           (c : N) : option (fval * str) :=
  match find_code table c with Some (a, s) => Some (f (Some a), lit s) | None => Some (f None, lit unknown) end.
Definition decode (k : kind) (c : N) : option (fval * str) :=
  match k with
  | Flag => Some (VBool (c =? 1), [])
  | Number => Some (VU8 c, dec c)
  | GenAc1 => coded gen_ac1_codes VGenAc1 c
  | GenAc2 => coded gen_ac2_codes VGenAc2 c
  | Format => coded format_code_codes VFormatCode c
  | Version => coded cryptogram_version_codes VCryptogramVersion c
  | Method => optional cv_method_codes VCvMethod "Unknown (likely issuer or payment system-specific)" c
  | Condition => optional cvm_condition_codes VCvmCondition "Unknown (likely payment system-specific)" c
  end.

Definition field_value (e : bit_field) (raw : list N) : option fval :=
  option_map fst (decode (e_kind e) (field_bits e raw)).

(* All the fields of a table, if each holds an allowed code. *)
Fixpoint decode_all (t : list bit_field) (raw : list N) : option (list fval) :=
  match t with
  | [] => Some []
  | e :: t' => match field_value e raw, decode_all t' raw with
               | Some v, Some vs => Some (v :: vs)
               | _, _ => None
               end
  end.

(* What is shown for a field of an [n]-byte value: offset of the top bit counted from the
   right end of the value, width, severity, text.  A flag is shown only when set. *)
Definition field_shown (n : N) (e : bit_field) (raw : list N) : list bit_range :=
  let offset := 8 * (n - e_byte e) + (e_hi e - 1) in
  let width := e_hi e - e_lo e + 1 in
  match e_kind e with
  | Flag => if field_bits e raw =? 1 then [mkRange offset width (lit (e_label e)) (e_sev e)] else []
  | k => match decode k (field_bits e raw) with
         | Some (_, s) => [mkRange offset width (lit (e_label e) ++ s) (e_sev e)]
         | None => []
         end
  end.
Definition all_shown (n : N) (t : list bit_field) (raw : list N) : list bit_range :=
  flat_map (fun e => field_shown n e raw) t.

(* The bits of [raw] selected by [mask]. *)
Fixpoint keep_bits (raw mask : list N) : list N :=
  match raw, mask with
  | b :: bs, m :: ms => N.land b m :: keep_bits bs ms
  | _, _ => []
  end.

(* Ranges inside the low [limit] bits, from left to right, without overlap. *)
Fixpoint left_to_right (limit : N) (l : list bit_range) : Prop :=
  match l with
  | [] => True
  | r :: t => r_offset r < limit /\ 1 <= r_len r /\ r_len r <= r_offset r + 1
              /\ left_to_right (r_offset r + 1 - r_len r) t
  end.

(** * The tables *)

Local Open Scope string_scope.

(** Terminal Verification Results, tag 95 (EMV Book 3, Annex C5). *)
Definition tvr_bits : list bit_field := [
  flag 1 8 "offline_data_authentication_not_performed" SevNormal "Offline data authentication was not performed";
  flag 1 7 "sda_failed" SevError "SDA (Static Data Authentication) failed";
  flag 1 6 "icc_data_missing" SevError "ICC data missing";
  flag 1 5 "terminal_card_exception" SevError "Card appears on terminal exception file";
  flag 1 4 "dda_failed" SevError "DDA (Dynamic Data Authentication) failed";
  flag 1 3 "cda_failed" SevError "CDA (Combined Data Authentication) failed";
  flag 2 8 "icc_terminal_version_mismatch" SevWarning "ICC and terminal have different application versions";
  flag 2 7 "expired_application" SevError "Expired application";
  flag 2 6 "application_not_yet_effective" SevError "Application not yet effective";
  flag 2 5 "requested_service_not_allowed" SevError "Requested service not allowed for card product";
  flag 2 4 "new_card" SevWarning "New card";
  flag 3 8 "cardholder_verification_unsuccessful" SevWarning "Cardholder verification was not successful";
  flag 3 7 "unrecognized_cvm" SevWarning "Unrecognised CVM (Cardholder Verification Method)";
  flag 3 6 "pin_try_limit_exceeded" SevError "PIN try limit exceeded";
  flag 3 5 "pin_entry_required_but_no_pinpad" SevError "PIN entry required and PIN pad not present or not working";
  flag 3 4 "pin_entry_required_but_no_entry" SevWarning "PIN entry required, PIN pad present, but PIN was not entered (PIN bypass)";
  flag 3 3 "online_pin_entered" SevNormal "Online PIN entered";
  flag 4 8 "transaction_exceeds_floor_limit" SevNormal "Transaction exceeds floor limit";
  flag 4 7 "consecutive_offline_limit_lower_exceeded" SevNormal "Lower consecutive offline limit exceeded";
  flag 4 6 "consecutive_offline_limit_upper_exceeded" SevNormal "Upper consecutive offline limit exceeded";
  flag 4 5 "transaction_selected_for_online_processing" SevNormal "Transaction selected randomly for online processing";
  flag 4 4 "merchant_forced_transaction_online" SevNormal "Merchant forced transaction online";
  flag 5 8 "default_tdol_used" SevNormal "Default TDOL (Transaction Certificate Data Object List) used";
  flag 5 7 "issuer_authentication_failed" SevError "Issuer authentication failed";
  flag 5 6 "script_processing_failed_before_final_gen_ac" SevError "Script processing failed before final GENERATE AC";
  flag 5 5 "script_processing_failed_after_final_gen_ac" SevError "Script processing failed after final GENERATE AC"].

(** Transaction Status Information, tag 9B (EMV Book 3, Annex C6). *)
Definition tsi_bits : list bit_field := [
  flag 1 8 "offline_data_authentication_performed" SevNormal "Offline data authentication was performed";
  flag 1 7 "cardholder_verification_performed" SevNormal "Cardholder verification was performed";
  flag 1 6 "card_risk_management_performed" SevNormal "Card risk management was performed";
  flag 1 5 "issuer_authentication_performed" SevNormal "Issuer authentication was performed";
  flag 1 4 "terminal_risk_management_performed" SevNormal "Terminal risk management was performed";
  flag 1 3 "script_processing_performed" SevNormal "Script processing was performed"].

(** Terminal Capabilities, tag 9F33 (EMV Book 4, Annex A2). *)
Definition termcap_bits : list bit_field := [
  flag 1 8 "input_manual_key_entry" SevNormal "Manual key entry";
  flag 1 7 "input_magnetic_stripe" SevNormal "Magnetic stripe (MSR)";
  flag 1 6 "input_icc" SevNormal "IC with contacts (ICC)";
  flag 2 8 "cvm_plaintext_pin_for_icc_verification" SevNormal "Plaintext PIN for ICC verification";
  flag 2 7 "cvm_enciphered_pin_for_online_verification" SevNormal "Enciphered PIN for online verification";
  flag 2 6 "cvm_signature" SevNormal "Signature (paper)";
  flag 2 5 "cvm_enciphered_pin_for_offline_verification" SevNormal "Enciphered PIN for offline verification";
  flag 2 4 "cvm_no_cvm_required" SevNormal "No CVM Required";
  flag 3 8 "security_sda" SevNormal "SDA (Static Data Authentication)";
  flag 3 7 "security_dda" SevNormal "DDA (Dynamic Data Authentication)";
  flag 3 6 "security_card_capture" SevNormal "Card capture (ATM retaining the card)";
  flag 3 4 "security_cda" SevNormal "CDA (Combined Data Authentication)"].

(** Additional Terminal Capabilities, tag 9F40 (EMV Book 4, Annex A3). *)
Definition addtermcap_bits : list bit_field := [
  flag 1 8 "txn_cash" SevNormal "Cash";
  flag 1 7 "txn_goods" SevNormal "Goods";
  flag 1 6 "txn_services" SevNormal "Services";
  flag 1 5 "txn_cashback" SevNormal "Cashback";
  flag 1 4 "txn_inquiry" SevNormal "Inquiry (request for information about one of the cardholder's accounts)";
  flag 1 3 "txn_transfer" SevNormal "Transfer (between cardholder accounts at the same financial institution)";
  flag 1 2 "txn_payment" SevNormal "Payment (from a cardholder account to another party)";
  flag 1 1 "txn_administrative" SevNormal "Administrative";
  flag 2 8 "txn_cash_deposit" SevNormal "Cash Deposit (into a bank account related to an application on the card used)";
  flag 3 8 "input_numeric_keys" SevNormal "Numeric keys";
  flag 3 7 "input_alphabetic_and_special_keys" SevNormal "Alphabetic and special characters keys";
  flag 3 6 "input_command_keys" SevNormal "Command keys";
  flag 3 5 "input_function_keys" SevNormal "Function keys";
  flag 4 8 "output_print_attendant" SevNormal "Print, attendant";
  flag 4 7 "output_print_cardholder" SevNormal "Print, cardholder";
  flag 4 6 "output_display_attendant" SevNormal "Display, attendant";
  flag 4 5 "output_display_cardholder" SevNormal "Display, cardholder";
  flag 4 2 "output_code_table_10" SevNormal "ISO/IEC 8859 Code Table 10";
  flag 4 1 "output_code_table_9" SevNormal "ISO/IEC 8859 Code Table 9";
  flag 5 8 "output_code_table_8" SevNormal "ISO/IEC 8859 Code Table 8";
  flag 5 7 "output_code_table_7" SevNormal "ISO/IEC 8859 Code Table 7";
  flag 5 6 "output_code_table_6" SevNormal "ISO/IEC 8859 Code Table 6";
  flag 5 5 "output_code_table_5" SevNormal "ISO/IEC 8859 Code Table 5";
  flag 5 4 "output_code_table_4" SevNormal "ISO/IEC 8859 Code Table 4";
  flag 5 3 "output_code_table_3" SevNormal "ISO/IEC 8859 Code Table 3";
  flag 5 2 "output_code_table_2" SevNormal "ISO/IEC 8859 Code Table 2";
  flag 5 1 "output_code_table_1" SevNormal "ISO/IEC 8859 Code Table 1"].

(** Card Verification Results of a CCD card (EMV Book 3, Annex C9.3). *)
Definition cvr_bits : list bit_field := [
  group 1 8 7 GenAc2 "gen_ac_2_application_cryptogram_type" SevNormal "Application cryptogram type returned in 2nd GENERATE AC: ";
  group 1 6 5 GenAc1 "gen_ac_1_application_cryptogram_type" SevNormal "Application cryptogram type returned in 1st GENERATE AC: ";
  flag 1 4 "cda_performed" SevNormal "CDA (Combined Data Authentication) performed";
  flag 1 3 "offline_dda_performed" SevNormal "Offline DDA (Dynamic Data Authentication) performed";
  flag 1 2 "issuer_authentication_not_performed" SevWarning "Issuer authentication not performed";
  flag 1 1 "issuer_authentication_failed" SevError "Issuer authentication failed";
  group 2 8 5 Number "pin_try_count" SevNormal "PIN try count: ";
  flag 2 4 "offline_pin_verification_performed" SevNormal "Offline PIN verification performed";
  flag 2 3 "offline_pin_verification_failed" SevError "Offline PIN verification performed and PIN not successfully verified";
  flag 2 2 "pin_try_limit_exceeded" SevError "PIN try limit exceeded";
  flag 2 1 "last_online_transaction_not_completed" SevWarning "Last online transaction not completed";
  flag 3 8 "offline_transaction_count_limit_lower_exceeded" SevNormal "Lower offline transaction count limit exceeded";
  flag 3 7 "offline_transaction_count_limit_upper_exceeded" SevNormal "Upper offline transaction count limit exceeded";
  flag 3 6 "offline_cumulative_amount_limit_lower_exceeded" SevNormal "Lower cumulative offline amount limit exceeded";
  flag 3 5 "offline_cumulative_amount_limit_upper_exceeded" SevNormal "Upper cumulative offline amount limit exceeded";
  flag 3 4 "issuer_discretionary_bit_1" SevNormal "Issuer-discretionary bit 1";
  flag 3 3 "issuer_discretionary_bit_2" SevNormal "Issuer-discretionary bit 2";
  flag 3 2 "issuer_discretionary_bit_3" SevNormal "Issuer-discretionary bit 3";
  flag 3 1 "issuer_discretionary_bit_4" SevNormal "Issuer-discretionary bit 4";
  group 4 8 5 Number "successful_issuer_script_commands_with_secure_messaging" SevNormal "Number of successfully processed issuer script commands containing secure messaging: ";
  flag 4 4 "issuer_script_processing_failed" SevError "Issuer script processing failed";
  flag 4 3 "offline_data_authentication_failed_on_previous_transaction" SevWarning "Offline data authentication failed on previous transaction";
  flag 4 2 "go_online_on_next_transaction" SevNormal "Go online on next transaction";
  flag 4 1 "unable_to_go_online" SevWarning "Unable to go online"].

(** Common Core Identifier (EMV Book 3, Annex C9.1). *)
Definition cci_bits : list bit_field := [
  group 1 8 5 Format "iad_format_code" SevNormal "IAD Format Code: ";
  group 1 4 1 Version "cryptogram_version" SevNormal "Cryptogram Version: "].

(** CV rule of a CVM list (EMV Book 3, Annex C3). *)
Definition cv_rule_bits : list bit_field := [
  flag 1 7 "continue_if_unsuccessful" SevNormal "Apply succeeding CV Rule if this CVM is unsuccessful";
  group 1 6 1 Method "method" SevNormal "Method: ";
  group 2 8 1 Condition "condition" SevNormal "Condition: "].

(** The bits that carry information; all others are RFU. *)
Definition tvr_used : list N := [0xFC; 0xF8; 0xFC; 0xF8; 0xF0].
Definition tsi_used : list N := [0xFC; 0x00].
Definition termcap_used : list N := [0xE0; 0xF8; 0xE8].
Definition addtermcap_used : list N := [0xFF; 0x80; 0xF0; 0xF3; 0xFF].
Definition cvr_used : list N := [0xFF; 0xFF; 0xFF; 0xFF; 0x00].
Definition cci_used : list N := [0xFF].
Definition cv_rule_used : list N := [0x7F; 0xFF].
