(** GENERATED by tools/gen.py from the [bitflag_value!] invocations of /repo.

    One [schema] per struct: the declared byte count and, per byte block, the byte
    number and the field declarations (name, type, mask, shift, severity, text). *)

From Coq Require Import NArith List String Bool.
From Verif Require Import Base ModelBitflag.
Import ListNotations.
Local Open Scope N_scope.
Local Open Scope string_scope.

(* src/emv/tvr.rs:13-77 ([TerminalVerificationResults]) *)
Definition tvr_schema : schema :=
  mkSchema 5 [
    (0, [
      mkField "offline_data_authentication_not_performed" TBool 128 None SevNormal
        "Offline data authentication was not performed";
      mkField "sda_failed" TBool 64 None SevError
        "SDA (Static Data Authentication) failed";
      mkField "icc_data_missing" TBool 32 None SevError
        "ICC data missing";
      mkField "terminal_card_exception" TBool 16 None SevError
        "Card appears on terminal exception file";
      mkField "dda_failed" TBool 8 None SevError
        "DDA (Dynamic Data Authentication) failed";
      mkField "cda_failed" TBool 4 None SevError
        "CDA (Combined Data Authentication) failed"]);
    (1, [
      mkField "icc_terminal_version_mismatch" TBool 128 None SevWarning
        "ICC and terminal have different application versions";
      mkField "expired_application" TBool 64 None SevError
        "Expired application";
      mkField "application_not_yet_effective" TBool 32 None SevError
        "Application not yet effective";
      mkField "requested_service_not_allowed" TBool 16 None SevError
        "Requested service not allowed for card product";
      mkField "new_card" TBool 8 None SevWarning
        "New card"]);
    (2, [
      mkField "cardholder_verification_unsuccessful" TBool 128 None SevWarning
        "Cardholder verification was not successful";
      mkField "unrecognized_cvm" TBool 64 None SevWarning
        "Unrecognised CVM (Cardholder Verification Method)";
      mkField "pin_try_limit_exceeded" TBool 32 None SevError
        "PIN try limit exceeded";
      mkField "pin_entry_required_but_no_pinpad" TBool 16 None SevError
        "PIN entry required and PIN pad not present or not working";
      mkField "pin_entry_required_but_no_entry" TBool 8 None SevWarning
        "PIN entry required, PIN pad present, but PIN was not entered (PIN bypass)";
      mkField "online_pin_entered" TBool 4 None SevNormal
        "Online PIN entered"]);
    (3, [
      mkField "transaction_exceeds_floor_limit" TBool 128 None SevNormal
        "Transaction exceeds floor limit";
      mkField "consecutive_offline_limit_lower_exceeded" TBool 64 None SevNormal
        "Lower consecutive offline limit exceeded";
      mkField "consecutive_offline_limit_upper_exceeded" TBool 32 None SevNormal
        "Upper consecutive offline limit exceeded";
      mkField "transaction_selected_for_online_processing" TBool 16 None SevNormal
        "Transaction selected randomly for online processing";
      mkField "merchant_forced_transaction_online" TBool 8 None SevNormal
        "Merchant forced transaction online"]);
    (4, [
      mkField "default_tdol_used" TBool 128 None SevNormal
        "Default TDOL (Transaction Certificate Data Object List) used";
      mkField "issuer_authentication_failed" TBool 64 None SevError
        "Issuer authentication failed";
      mkField "script_processing_failed_before_final_gen_ac" TBool 32 None SevError
        "Script processing failed before final GENERATE AC";
      mkField "script_processing_failed_after_final_gen_ac" TBool 16 None SevError
        "Script processing failed after final GENERATE AC"])
  ].

(* src/emv/tsi.rs:13-23 ([TransactionStatusInformation]) *)
Definition tsi_schema : schema :=
  mkSchema 2 [
    (0, [
      mkField "offline_data_authentication_performed" TBool 128 None SevNormal
        "Offline data authentication was performed";
      mkField "cardholder_verification_performed" TBool 64 None SevNormal
        "Cardholder verification was performed";
      mkField "card_risk_management_performed" TBool 32 None SevNormal
        "Card risk management was performed";
      mkField "issuer_authentication_performed" TBool 16 None SevNormal
        "Issuer authentication was performed";
      mkField "terminal_risk_management_performed" TBool 8 None SevNormal
        "Terminal risk management was performed";
      mkField "script_processing_performed" TBool 4 None SevNormal
        "Script processing was performed"]);
    (1, [])
  ].

(* src/emv/terminal_capabilities.rs:13-40 ([TerminalCapabilities]) *)
Definition termcap_schema : schema :=
  mkSchema 3 [
    (0, [
      mkField "input_manual_key_entry" TBool 128 None SevNormal
        "Manual key entry";
      mkField "input_magnetic_stripe" TBool 64 None SevNormal
        "Magnetic stripe (MSR)";
      mkField "input_icc" TBool 32 None SevNormal
        "IC with contacts (ICC)"]);
    (1, [
      mkField "cvm_plaintext_pin_for_icc_verification" TBool 128 None SevNormal
        "Plaintext PIN for ICC verification";
      mkField "cvm_enciphered_pin_for_online_verification" TBool 64 None SevNormal
        "Enciphered PIN for online verification";
      mkField "cvm_signature" TBool 32 None SevNormal
        "Signature (paper)";
      mkField "cvm_enciphered_pin_for_offline_verification" TBool 16 None SevNormal
        "Enciphered PIN for offline verification";
      mkField "cvm_no_cvm_required" TBool 8 None SevNormal
        "No CVM Required"]);
    (2, [
      mkField "security_sda" TBool 128 None SevNormal
        "SDA (Static Data Authentication)";
      mkField "security_dda" TBool 64 None SevNormal
        "DDA (Dynamic Data Authentication)";
      mkField "security_card_capture" TBool 32 None SevNormal
        "Card capture (ATM retaining the card)";
      mkField "security_cda" TBool 8 None SevNormal
        "CDA (Combined Data Authentication)"])
  ].

(* src/emv/additional_terminal_capabilities.rs:13-61 ([AdditionalTerminalCapabilities]) *)
Definition addtermcap_schema : schema :=
  mkSchema 5 [
    (0, [
      mkField "txn_cash" TBool 128 None SevNormal
        "Cash";
      mkField "txn_goods" TBool 64 None SevNormal
        "Goods";
      mkField "txn_services" TBool 32 None SevNormal
        "Services";
      mkField "txn_cashback" TBool 16 None SevNormal
        "Cashback";
      mkField "txn_inquiry" TBool 8 None SevNormal
        "Inquiry (request for information about one of the cardholder's accounts)";
      mkField "txn_transfer" TBool 4 None SevNormal
        "Transfer (between cardholder accounts at the same financial institution)";
      mkField "txn_payment" TBool 2 None SevNormal
        "Payment (from a cardholder account to another party)";
      mkField "txn_administrative" TBool 1 None SevNormal
        "Administrative"]);
    (1, [
      mkField "txn_cash_deposit" TBool 128 None SevNormal
        "Cash Deposit (into a bank account related to an application on the card used)"]);
    (2, [
      mkField "input_numeric_keys" TBool 128 None SevNormal
        "Numeric keys";
      mkField "input_alphabetic_and_special_keys" TBool 64 None SevNormal
        "Alphabetic and special characters keys";
      mkField "input_command_keys" TBool 32 None SevNormal
        "Command keys";
      mkField "input_function_keys" TBool 16 None SevNormal
        "Function keys"]);
    (3, [
      mkField "output_print_attendant" TBool 128 None SevNormal
        "Print, attendant";
      mkField "output_print_cardholder" TBool 64 None SevNormal
        "Print, cardholder";
      mkField "output_display_attendant" TBool 32 None SevNormal
        "Display, attendant";
      mkField "output_display_cardholder" TBool 16 None SevNormal
        "Display, cardholder";
      mkField "output_code_table_10" TBool 2 None SevNormal
        "ISO/IEC 8859 Code Table 10";
      mkField "output_code_table_9" TBool 1 None SevNormal
        "ISO/IEC 8859 Code Table 9"]);
    (4, [
      mkField "output_code_table_8" TBool 128 None SevNormal
        "ISO/IEC 8859 Code Table 8";
      mkField "output_code_table_7" TBool 64 None SevNormal
        "ISO/IEC 8859 Code Table 7";
      mkField "output_code_table_6" TBool 32 None SevNormal
        "ISO/IEC 8859 Code Table 6";
      mkField "output_code_table_5" TBool 16 None SevNormal
        "ISO/IEC 8859 Code Table 5";
      mkField "output_code_table_4" TBool 8 None SevNormal
        "ISO/IEC 8859 Code Table 4";
      mkField "output_code_table_3" TBool 4 None SevNormal
        "ISO/IEC 8859 Code Table 3";
      mkField "output_code_table_2" TBool 2 None SevNormal
        "ISO/IEC 8859 Code Table 2";
      mkField "output_code_table_1" TBool 1 None SevNormal
        "ISO/IEC 8859 Code Table 1"])
  ].

(* src/emv/ccd/cvr.rs:13-72 ([CardVerificationResults]) *)
Definition cvr_schema : schema :=
  mkSchema 5 [
    (0, [
      mkField "gen_ac_2_application_cryptogram_type" TGenAc2 192 (Some 6) SevNormal
        "Application cryptogram type returned in 2nd GENERATE AC: {}";
      mkField "gen_ac_1_application_cryptogram_type" TGenAc1 48 (Some 4) SevNormal
        "Application cryptogram type returned in 1st GENERATE AC: {}";
      mkField "cda_performed" TBool 8 None SevNormal
        "CDA (Combined Data Authentication) performed";
      mkField "offline_dda_performed" TBool 4 None SevNormal
        "Offline DDA (Dynamic Data Authentication) performed";
      mkField "issuer_authentication_not_performed" TBool 2 None SevWarning
        "Issuer authentication not performed";
      mkField "issuer_authentication_failed" TBool 1 None SevError
        "Issuer authentication failed"]);
    (1, [
      mkField "pin_try_count" TU8 240 (Some 4) SevNormal
        "PIN try count: {}";
      mkField "offline_pin_verification_performed" TBool 8 None SevNormal
        "Offline PIN verification performed";
      mkField "offline_pin_verification_failed" TBool 4 None SevError
        "Offline PIN verification performed and PIN not successfully verified";
      mkField "pin_try_limit_exceeded" TBool 2 None SevError
        "PIN try limit exceeded";
      mkField "last_online_transaction_not_completed" TBool 1 None SevWarning
        "Last online transaction not completed"]);
    (2, [
      mkField "offline_transaction_count_limit_lower_exceeded" TBool 128 None SevNormal
        "Lower offline transaction count limit exceeded";
      mkField "offline_transaction_count_limit_upper_exceeded" TBool 64 None SevNormal
        "Upper offline transaction count limit exceeded";
      mkField "offline_cumulative_amount_limit_lower_exceeded" TBool 32 None SevNormal
        "Lower cumulative offline amount limit exceeded";
      mkField "offline_cumulative_amount_limit_upper_exceeded" TBool 16 None SevNormal
        "Upper cumulative offline amount limit exceeded";
      mkField "issuer_discretionary_bit_1" TBool 8 None SevNormal
        "Issuer-discretionary bit 1";
      mkField "issuer_discretionary_bit_2" TBool 4 None SevNormal
        "Issuer-discretionary bit 2";
      mkField "issuer_discretionary_bit_3" TBool 2 None SevNormal
        "Issuer-discretionary bit 3";
      mkField "issuer_discretionary_bit_4" TBool 1 None SevNormal
        "Issuer-discretionary bit 4"]);
    (3, [
      mkField "successful_issuer_script_commands_with_secure_messaging" TU8 240 (Some 4) SevNormal
        "Number of successfully processed issuer script commands containing secure messaging: {}";
      mkField "issuer_script_processing_failed" TBool 8 None SevError
        "Issuer script processing failed";
      mkField "offline_data_authentication_failed_on_previous_transaction" TBool 4 None SevWarning
        "Offline data authentication failed on previous transaction";
      mkField "go_online_on_next_transaction" TBool 2 None SevNormal
        "Go online on next transaction";
      mkField "unable_to_go_online" TBool 1 None SevWarning
        "Unable to go online"]);
    (4, [])
  ].

(* src/emv/ccd/cci.rs:13-18 ([CommonCoreIdentifier]) *)
Definition cci_schema : schema :=
  mkSchema 1 [
    (0, [
      mkField "iad_format_code" TFormatCode 240 (Some 4) SevNormal
        "IAD Format Code: {}";
      mkField "cryptogram_version" TCryptogramVersion 15 None SevNormal
        "Cryptogram Version: {}"])
  ].

(* src/emv/cv_rule/mod.rs:18-26 ([CardholderVerificationRule]) *)
Definition cv_rule_schema : schema :=
  mkSchema 2 [
    (0, [
      mkField "continue_if_unsuccessful" TBool 64 None SevNormal
        "Apply succeeding CV Rule if this CVM is unsuccessful";
      mkField "method" TCvMethod 63 None SevNormal
        "Method: {}"]);
    (1, [
      mkField "condition" TCvmCondition 255 None SevNormal
        "Condition: {}"])
  ].
