(** The unit tests of the repository, run against the model.  They test the model, they prove nothing
    about other inputs.  Written by tools/tests.py. *)

From Coq Require Import NArith List String Ascii Bool.
From Verif Require Import Base ModelUtil ModelEnums ModelBitflag ModelSchemas ModelTags ModelTlv
  ModelValues ModelProcess ModelMain ModelCli ModelUncalled PropertiesBer.
Import ListNotations.
Local Open Scope N_scope.

(** ** src/util.rs:200-435 *)

Example test_parse_str_to_u16_valid : parse_str_to_u16 (lit "1234") = Ok 1234.
Proof. vm_compute. reflexivity. Qed.
Example test_parse_str_to_u16_invalid : parse_str_to_u16 (lit "65536") = Err InvalidNumber.
Proof. vm_compute. reflexivity. Qed.

Example test_parse_hex_str :
  parse_hex_str (lit "DEADBEEF") = [0xDE; 0xAD; 0xBE; 0xEF]
  /\ parse_hex_str (lit "DE AD  BE EF") = [0xDE; 0xAD; 0xBE; 0xEF]
  /\ parse_hex_str (lit "deadbeef") = [0xDE; 0xAD; 0xBE; 0xEF]
  /\ parse_hex_str (lit "de ad  be ef") = [0xDE; 0xAD; 0xBE; 0xEF]
  /\ parse_hex_str (lit "  . 0a 6E  42    t ") = [0x0A; 0x6E; 0x42]
  /\ parse_hex_str (lit "  . 0a 6E  " ++ [0x2764; 0xFE0F] ++ lit " 42    t ") = [0x0A; 0x6E; 0x42].
Proof. vm_compute. repeat split. Qed.
Example test_parse_hex_str_strict :
  parse_hex_str_strict (lit "DEADBEEF") = Ok [0xDE; 0xAD; 0xBE; 0xEF]
  /\ parse_hex_str_strict (lit "deadbeef") = Ok [0xDE; 0xAD; 0xBE; 0xEF]
  /\ parse_hex_str_strict (lit "de ad  be ef") = Err InvalidBytes
  /\ parse_hex_str_strict (lit "  . 0a 6E  42    t ") = Err InvalidBytes
  /\ parse_hex_str_strict (lit "  . 0a 6E  " ++ [0x2764; 0xFE0F] ++ lit " 42    t ") = Err InvalidBytes.
Proof. vm_compute. repeat split. Qed.

Example test_byte_slice_to_u32 :
  byte_slice_to_u32 [0x25] = Ok 0x25
  /\ byte_slice_to_u32 [0x12; 0x34; 0x56] = Ok 0x123456
  /\ byte_slice_to_u32 [0x12; 0x34; 0x56; 0x78] = Ok 0x12345678
  /\ byte_slice_to_u32 [0x12; 0x34; 0x56; 0x78; 0x90] = Panic.
Proof. vm_compute. repeat split. Qed.
Example test_byte_slice_to_u64 :
  byte_slice_to_u64 [0x25] = Ok 0x25
  /\ byte_slice_to_u64 [0x12; 0x34; 0x56] = Ok 0x123456
  /\ byte_slice_to_u64 [0x12; 0x34; 0x56; 0x78; 0x90; 0x12; 0x34; 0x56] = Ok 0x1234567890123456
  /\ byte_slice_to_u64 [0x12; 0x34; 0x56; 0x78; 0x90; 0x12; 0x34; 0x56; 0x78] = Panic.
Proof. vm_compute. repeat split. Qed.

Example test_bytes_to_str :
  bytes_to_str [0x1A] = Ok (lit "1A")
  /\ bytes_to_str [0xC6; 0xA2; 0xFF; 0x3E; 0x2B] = Ok (lit "C6A2FF3E2B")
  /\ bytes_to_str [0x01; 0x23; 0x45; 0x67; 0x89; 0xAB; 0xCD; 0xEF] = Ok (lit "0123456789ABCDEF").
Proof. vm_compute. repeat split. Qed.

Example test_trim_leading_0_bytes :
  trim_leading_0_bytes [0x00; 0x8A] = [0x8A]
  /\ trim_leading_0_bytes [0x9F; 0x1D] = [0x9F; 0x1D]
  /\ trim_leading_0_bytes [0x00; 0x00; 0x00] = [0x00].
Proof. vm_compute. repeat split. Qed.

Example test_num_dec_digits :
  num_dec_digits 0 = 1
  /\ forallb (fun n => num_dec_digits (10 ^ n) =? n + 1) [0; 1; 2; 3; 4; 5; 6; 7] = true
  /\ num_dec_digits 123456 = 6.
Proof. vm_compute. repeat split. Qed.

(** ** src/non_emv/service_code.rs:177-281 *)

Example test_service_code_interac : service_code_try_from_u16 220
  = Ok (mkServiceCode 220 Interchange_International Technology_IntegratedCircuitCard
          AuthorisationProcessing_ByIssuer AllowedServices_NoRestrictions PinRequirements_PinRequired).
Proof. vm_compute. reflexivity. Qed.
Example test_service_code_visa : service_code_try_from_u16 201
  = Ok (mkServiceCode 201 Interchange_International Technology_IntegratedCircuitCard
          AuthorisationProcessing_Normal AllowedServices_NoRestrictions PinRequirements_None).
Proof. vm_compute. reflexivity. Qed.
Example test_service_code_prepaid : service_code_try_from_u16 121
  = Ok (mkServiceCode 121 Interchange_International Technology_MagneticStripeOnly
          AuthorisationProcessing_ByIssuer AllowedServices_NoRestrictions PinRequirements_None).
Proof. vm_compute. reflexivity. Qed.
Example test_service_code_all :
  forallb (fun n => match service_code_try_from_u16 (N.of_nat n) with Ok _ => true | _ => false end) (seq 0 1000) = true.
Proof. vm_compute. reflexivity. Qed.
Example test_service_code_number : service_code_try_from_u16 1000 = Err InvalidNumber.
Proof. vm_compute. reflexivity. Qed.
Example test_service_code_bytes : service_code_try_from_u16 220 = service_code_try_from_bytes [0x02; 0x20].
Proof. vm_compute. reflexivity. Qed.
Example test_service_code_count : service_code_try_from_bytes [0x02; 0x20; 0x00] = Err (ByteCountIncorrect Eq 2 3).
Proof. vm_compute. reflexivity. Qed.

(** ** src/config/colour_choice.rs:105-155 *)

Example test_round_trip_conversions :
  Forall (fun c => colour_choice_from_term (colour_choice_to_term c) = c
                   /\ colour_choice_try_from (colour_choice_text c) = Ok c) [CAlways; CAlwaysAnsi; CAuto; CNever]
  /\ Forall (fun c => colour_choice_to_term (colour_choice_from_term c) = c) [TAlways; TAlwaysAnsi; TAuto; TNever].
Proof. vm_compute. repeat constructor. Qed.
Example test_colour_choice_from_str_error : colour_choice_try_from (lit "unsupported value") = Err Unsupported.
Proof. vm_compute. reflexivity. Qed.

(** ** The values: src/emv/*.rs *)

(* src/testing_macros.rs:5-21 *)
Example test_wrong_byte_count :
  transaction_type_from_slice [0; 0] = Err (ByteCountIncorrect Eq 1 2)
  /\ cvm_results_try_from [0; 0; 0; 0] = Err (ByteCountIncorrect Eq 3 4)
  /\ terminal_type_from_slice [0; 0] = Err (ByteCountIncorrect Eq 1 2)
  /\ pos_entry_mode_from_slice [0; 0] = Err (ByteCountIncorrect Eq 1 2)
  /\ cci_try_from [0; 0] = Err (ByteCountIncorrect Eq 1 2)
  /\ cvr_try_from [0; 0; 0; 0; 0; 0] = Err (ByteCountIncorrect Eq 5 6)
  /\ addtermcap_try_from [0; 0; 0; 0; 0; 0] = Err (ByteCountIncorrect Eq 5 6)
  /\ tsi_try_from [0; 0; 0] = Err (ByteCountIncorrect Eq 2 3)
  /\ arc_from_slice [0; 0; 0] = Err (ByteCountIncorrect Eq 2 3)
  /\ cv_rule_try_from [0; 0; 0] = Err (ByteCountIncorrect Eq 2 3)
  /\ tvr_try_from [0; 0; 0; 0; 0; 0] = Err (ByteCountIncorrect Eq 5 6)
  /\ termcap_try_from [0; 0; 0; 0] = Err (ByteCountIncorrect Eq 3 4).
Proof. vm_compute. repeat split. Qed.

(* src/testing_macros.rs:159-171 *)
Example test_enum_byte_slice :
  transaction_type_from_slice [0x20] = transaction_type_try_from 0x20
  /\ terminal_type_from_slice [0x22] = terminal_type_try_from 0x22
  /\ pos_entry_mode_from_slice [0x80] = pos_entry_mode_try_from 0x80
  /\ arc_from_slice [48; 53] = authorisation_response_code_try_from (lit "05").
Proof. vm_compute. repeat split. Qed.

Definition fval_eq_dec : forall a b : fval, {a = b} + {a <> b}.
Proof. repeat decide equality. Defined.
Definition values_eqb (a b : list fval) : bool := if list_eq_dec fval_eq_dec a b then true else false.
Definition severity_eq_dec : forall a b : severity, {a = b} + {a <> b}.
Proof. decide equality. Defined.
Definition range_eq_dec : forall a b : bit_range, {a = b} + {a <> b}.
Proof. decide equality; [apply severity_eq_dec | apply (list_eq_dec N.eq_dec) | apply N.eq_dec | apply N.eq_dec]. Defined.
Definition ranges_eqb (a b : list bit_range) : bool := if list_eq_dec range_eq_dec a b then true else false.

Definition single_bit (count byte bit : nat) : list N :=
  repeat 0 byte ++ [N.shiftl 1 (N.of_nat bit)] ++ repeat 0 (count - byte - 1).
Definition all_bits (count : nat) : list (nat * nat) := list_prod (seq 0 count) (seq 0 8).
Fixpoint distinct {A : Type} (eqb : A -> A -> bool) (l : list A) : bool :=
  match l with [] => true | x :: t => negb (existsb (eqb x) t) && distinct eqb t end.

(* src/testing_macros.rs:23-63 *)
Definition unique_values (sch : schema) : bool :=
  let count := N.to_nat (s_count sch) in
  match bf_try_from sch (repeat 0 count) with
  | Ok empty =>
      let results := flat_map (fun '(byte, bit) =>
        match bf_try_from sch (single_bit count byte bit) with
        | Ok r => if values_eqb r empty then [] else [(single_bit count byte bit, r)]
        | _ => [([], [])]
        end) (all_bits count) in
      forallb (fun '(raw, r) => leqb raw (bf_repr sch r) && negb (leqb raw [])) results
      && distinct values_eqb (map snd results)
  | _ => false
  end.
Example test_bitflag_unique_values :
  forallb unique_values [tvr_schema; tsi_schema; termcap_schema; addtermcap_schema; cvr_schema] = true.
Proof. vm_compute. reflexivity. Qed.

(* src/testing_macros.rs:65-157 *)
Definition display_bits (sch : schema) : bool :=
  let count := N.to_nat (s_count sch) in
  match bf_try_from sch (repeat 0 count) with
  | Ok empty =>
      let base := bf_ranges sch empty in
      let offsets := map r_offset base in
      let old r := existsb (N.eqb (r_offset r)) offsets in
      distinct N.eqb offsets
      && forallb (fun '(byte, bit) =>
           match bf_try_from sch (single_bit count byte bit) with
           | Ok r =>
               if values_eqb r empty then true
               else let info := bf_ranges sch r in
                    let at_bit := N.of_nat ((count - 1 - byte) * 8 + bit) in
                    (len base <=? len info) && (len info - len base <=? 1)
                    && match filter (fun d => negb (old d)) info with
                       | [] => true
                       | d :: _ => (at_bit <=? r_offset d) && (r_offset d <? at_bit + r_len d)
                       end
           | _ => false
           end) (all_bits count)
      && distinct ranges_eqb (flat_map (fun '(byte, bit) =>
           match bf_try_from sch (single_bit count byte bit) with
           | Ok r => let info := bf_ranges sch r in
                     if existsb (fun d => negb (old d)) info then [info] else []
           | _ => []
           end) (all_bits count))
  | _ => false
  end.
Example test_bitflag_display_bits :
  forallb display_bits [tvr_schema; tsi_schema; termcap_schema; addtermcap_schema; cvr_schema] = true.
Proof. vm_compute. reflexivity. Qed.

(* src/emv/authorisation_response_code.rs:135-141 *)
Example test_arc_invalid_utf8 : arc_from_slice [0x00; 0x9F] = Err InvalidNumber.
Proof. vm_compute. reflexivity. Qed.

(* src/emv/cv_rule/cvm_condition.rs:102-123 *)
Example test_references_x_or_y_value :
  references_x_or_y_value CvmCondition_InApplicationCurrencyOverY = true
  /\ references_x_or_y_value CvmCondition_TerminalSupported = false.
Proof. vm_compute. repeat split. Qed.

(* src/emv/cv_rule/mod.rs:39-49 *)
Definition a_rule (continue : bool) (method : cv_method) (condition : option cvm_condition) : list fval :=
  [VBool continue; VCvMethod (Some method); VCvmCondition condition].
Example test_cv_rule : cv_rule_try_from [0x5E; 0x03]
  = Ok (a_rule true CvMethod_Signature (Some CvmCondition_TerminalSupported)).
Proof. vm_compute. reflexivity. Qed.

(* src/emv/cvm_results.rs:98-113 *)
Example test_cvm_results : cvm_results_try_from [0x5E; 0x03; 2]
  = Ok (mkCvmResults (a_rule true CvMethod_Signature (Some CvmCondition_TerminalSupported)) CvmResult_Successful).
Proof. vm_compute. reflexivity. Qed.

(* src/emv/cvm_list.rs:149-268 *)
Example test_cvm_list :
  cvm_list_try_from (repeat 0 8) = Ok (mkCvmList 0 0 [])
  /\ cvm_list_try_from [0; 0; 0; 0x2A; 0; 0; 0; 0x7B; 4; 3; 0x5E; 3; 0; 0]
     = Ok (mkCvmList 0x2A 0x7B
             [a_rule false CvMethod_EncipheredPin (Some CvmCondition_TerminalSupported);
              a_rule true CvMethod_Signature (Some CvmCondition_TerminalSupported);
              a_rule false CvMethod_FailCvmProcessing (Some CvmCondition_Always)])
  /\ cvm_list_try_from (repeat 0 3) = Err (ByteCountIncorrect Gt 8 3)
  /\ cvm_list_try_from (repeat 0 9) = Err ByteCountNotDivisibleIntoComponents
  /\ cvm_list_try_from [0; 0; 0; 0; 0; 0; 0; 0; 2; 0x35]
     = Ok (mkCvmList 0 0 [a_rule false CvMethod_EncipheredPinOnline None]).
Proof. vm_compute. repeat split. Qed.

(* src/emv/iac/default.rs:89-112, src/emv/iac/denial.rs:83-106, src/emv/iac/online.rs:84-107 *)
Example test_iac_matches_tvr :
  iac_default_try_from (repeat 0xFF 5) = tvr_try_from (repeat 0xFF 5)
  /\ iac_denial_try_from (repeat 0xFF 5) = tvr_try_from (repeat 0xFF 5)
  /\ iac_online_try_from (repeat 0xFF 5) = tvr_try_from (repeat 0xFF 5).
Proof. vm_compute. repeat split. Qed.
Example test_iac_default_value_is_ok :
  forallb (fun r : res (list fval) => match r with Ok _ => true | _ => false end)
    [iac_default_default; iac_denial_default; iac_online_default] = true.
Proof. vm_compute. reflexivity. Qed.

(* src/emv/ccd/cci.rs:37-64 *)
Example test_cci :
  cci_try_from [0xA6] = Ok [VFormatCode FormatCode_A; VCryptogramVersion CryptogramVersion_Aes]
  /\ cci_try_from [0x8A] = Err NonCcdCompliant.
Proof. vm_compute. repeat split. Qed.

(* src/emv/ccd/iad.rs:159-317 *)
Example test_iad :
  iad_try_from [0x0F; 0xA5; 1; 0xA2; 0x30; 0x30; 0x10; 0; 0; 0; 0; 0; 0; 0; 0; 0;
                0x0F; 1; 0; 0; 0; 0; 0; 0; 0; 0; 0; 0; 0; 0; 0; 0]
  = Ok (mkIad
          [VFormatCode FormatCode_A; VCryptogramVersion CryptogramVersion_TripleDes]
          1
          [VGenAc2 GenAc2ApplicationCryptogramType_SecondGenAcNotRequested;
           VGenAc1 GenAc1ApplicationCryptogramType_Arqc;
           VBool false; VBool false; VBool true; VBool false;
           VU8 3; VBool false; VBool false; VBool false; VBool false;
           VBool false; VBool false; VBool true; VBool true;
           VBool false; VBool false; VBool false; VBool false;
           VU8 1; VBool false; VBool false; VBool false; VBool false]
          (repeat 0 8)
          (1 :: repeat 0 14))
  /\ iad_try_from (repeat 0 7) = Err NonCcdCompliant
  /\ iad_try_from ([0x0A] ++ repeat 0 15 ++ [0x0F] ++ repeat 0 15) = Err NonCcdCompliant
  /\ iad_try_from ([0x0F] ++ repeat 0 15 ++ [0x0F] ++ repeat 0 15) = Err NonCcdCompliant.
Proof. vm_compute. repeat split. Qed.

Example test_comparing_format_codes : forall cvr,
  let d := mkIad [VFormatCode FormatCode_A; VCryptogramVersion CryptogramVersion_TripleDes] 1 cvr (repeat 0 8) (1 :: repeat 0 14) in
  code_eq_format_data FormatCode_A d = true /\ format_data_eq_code d FormatCode_A = true.
Proof. intros cvr. vm_compute. split; reflexivity. Qed.

(** ** src/emv/tlv_parsing/mod.rs:566-800 *)

Example test_sort_nodes :
  match bind (ber_parse p64 [42] [0x7E; 3; 0x2A; 0x2A; 0x2A; 0x95; 5; 0; 0x80; 0; 0x80; 0; 0x9F; 9; 2; 0; 0x8C]) process_block,
        bind (ber_parse p64 [42] [0x95; 5; 0; 0x80; 0; 0x80; 0; 0x9F; 9; 2; 0; 0x8C; 0x7E; 3; 0x2A; 0x2A; 0x2A]) process_block with
  | Ok expected, Ok result => block_eqb expected (sort_nodes result)
  | _, _ => false
  end = true.
Proof. vm_compute. reflexivity. Qed.

Definition tsi_tag (d : emv_data) : raw_tag := mkRawTag [0x9B] TagClass_ContextSpecific Primitive d.
Definition tsi_of (d : list N) : res value := rmap ValTsi (tsi_try_from d).
Example test_parse_raw :
  rmap (fun t => rt_data (get_raw_tag t)) (parse_raw (lit "Transaction Status Information (TSI)") (tsi_tag (Normal [0xFC; 0])) tsi_of)
  = Ok (Normal [0xFC; 0])
  /\ rmap (fun t => rt_data (get_raw_tag t)) (parse_raw (lit "Transaction Status Information (TSI)") (tsi_tag Masked) tsi_of)
  = Ok Masked.
Proof. vm_compute. repeat split. Qed.

Definition arc_tag (d : emv_data) : raw_tag := mkRawTag [0x8A] TagClass_ContextSpecific Primitive d.
Definition arc_name (d : emv_data) : option str :=
  match parse_raw_unrecognised (lit "Authorisation Response Code")
          (lit "Authorisation Response Code (Unrecognised - likely payment system-specific)")
          (arc_tag d) (fun d => rmap ValArc (arc_from_slice d)) is_unrecognised_error with
  | Ok (PAnnotated name _) | Ok (PParsed name _ _) => Some name
  | _ => None
  end.
Example test_parse_raw_unrecognised :
  arc_name (Normal (lit "06")) = Some (lit "Authorisation Response Code")
  /\ arc_name (Normal (lit "ZZ"))
     = Some (lit "Authorisation Response Code (Unrecognised - likely payment system-specific)")
  /\ arc_name Masked = Some (lit "Authorisation Response Code")
  /\ parse_raw_unrecognised [] [] (arc_tag (Normal (lit "05"))) (fun _ => Err NonCompliant) is_unrecognised_error
     = Err NonCompliant.
Proof. vm_compute. repeat split. Qed.

Example test_is_masked :
  is_masked_u8 [0x2A; 0x2A; 0x2A] [42] = true
  /\ is_masked_u8 [0x23; 0x12; 0x31] [42] = false
  /\ is_masked_u8 [0x2A] [42] = false
  /\ is_masked_str (lit "******") [42] = true
  /\ is_masked_str (lit "231231") [42] = false
  /\ is_masked_str (lit "*") [42] = false.
Proof. vm_compute. repeat split. Qed.

(* src/emv/tlv_parsing/ber_tlv.rs:134-172 *)
Example test_tag_metadata :
  map parse_tag_metadata [0; 0x40; 0x80; 0xC0; 0x20; 0x60; 0xA0; 0xE0]
  = map Ok [(TagClass_Universal, Primitive); (TagClass_Application, Primitive);
            (TagClass_ContextSpecific, Primitive); (TagClass_Private, Primitive);
            (TagClass_Universal, Constructed); (TagClass_Application, Constructed);
            (TagClass_ContextSpecific, Constructed); (TagClass_Private, Constructed)].
Proof. vm_compute. reflexivity. Qed.

(* src/emv/tlv_parsing/ber_tlv.rs:454-474, src/emv/tlv_parsing/ingenico_tlv.rs:528-548 *)
Example test_parse_very_long_tag_data :
  ber_parse p64 [42] ([0x91; 0x81; 0x80] ++ repeat 0x2A 128)
  = Ok [RawNode (mkRawTag [0x91] TagClass_ContextSpecific Primitive Masked) []]
  /\ ingenico_parse p64 [42] (lit "T91:80:h" ++ repeat 42 256)
  = Ok [RawNode (mkRawTag [0x91] TagClass_ContextSpecific Primitive Masked) []].
Proof. vm_compute. repeat split. Qed.

(* src/cli.rs:320-330: what clap's [debug_assert] checks of the parts of the declaration in the
   model: identifiers, spellings, references and default values. *)
Example test_cli_debug_assertions :
  distinct String.eqb (map a_id cli_args) = true
  /\ distinct String.eqb (flat_map a_shorts cli_args) = true
  /\ distinct String.eqb (flat_map a_longs cli_args) = true
  /\ forallb (fun id => existsb (named id) cli_args) (flat_map a_conflicts cli_args ++ flat_map a_requires cli_args) = true
  /\ forallb (fun a => forallb (fun d => value_ok (a_parser a) (lit d)) (a_default a ++ a_missing a)) cli_args = true.
Proof. vm_compute. repeat split. Qed.

(** ** src/emv/tlv_parsing *)

(* src/emv/tlv_parsing/ber_tlv.rs:178 *)
Example test_ber_tlv_parse_empty_data : ber_parse p64 [42] [] = (Ok []).
Proof. vm_compute. reflexivity. Qed.
(* src/emv/tlv_parsing/ber_tlv.rs:182 *)
Example test_ber_tlv_parse_single_byte_primitive_unmasked_tag : ber_parse p64 [42] [90; 8; 71; 97; 115; 0; 0; 0; 1; 25] = (Ok [RawNode (mkRawTag [90] TagClass_Application Primitive (Normal [71; 97; 115; 0; 0; 0; 1; 25])) []]).
Proof. vm_compute. reflexivity. Qed.
(* src/emv/tlv_parsing/ber_tlv.rs:201 *)
Example test_ber_tlv_parse_multi_byte_primitive_unmasked_tag : ber_parse p64 [42] [95; 52; 1; 1] = (Ok [RawNode (mkRawTag [95; 52] TagClass_Application Primitive (Normal [1])) []]).
Proof. vm_compute. reflexivity. Qed.
(* src/emv/tlv_parsing/ber_tlv.rs:218 *)
Example test_ber_tlv_parse_single_byte_primitive_masked_tag : ber_parse p64 [42] [90; 8; 42; 42; 42; 42; 42; 42; 42; 42] = (Ok [RawNode (mkRawTag [90] TagClass_Application Primitive Masked) []]).
Proof. vm_compute. reflexivity. Qed.
(* src/emv/tlv_parsing/ber_tlv.rs:235 *)
Example test_ber_tlv_parse_multi_byte_primitive_masked_tag : ber_parse p64 [42] [95; 52; 2; 42; 42] = (Ok [RawNode (mkRawTag [95; 52] TagClass_Application Primitive Masked) []]).
Proof. vm_compute. reflexivity. Qed.
(* src/emv/tlv_parsing/ber_tlv.rs:252 *)
Example test_ber_tlv_parse_constructed_unmasked_tag : ber_parse p64 [42] [111; 9; 79; 7; 160; 0; 0; 0; 3; 16; 16] = (Ok [RawNode (mkRawTag [111] TagClass_Application Constructed (Normal [79; 7; 160; 0; 0; 0; 3; 16; 16])) [RawNode (mkRawTag [79] TagClass_Application Primitive (Normal [160; 0; 0; 0; 3; 16; 16])) []]]).
Proof. vm_compute. reflexivity. Qed.
(* src/emv/tlv_parsing/ber_tlv.rs:286 *)
Example test_ber_tlv_parse_constructed_masked_tag : ber_parse p64 [42] [111; 11; 42; 42; 42; 42; 42; 42; 42; 42; 42; 42; 42] = (Ok [RawNode (mkRawTag [111] TagClass_Application Constructed Masked) []]).
Proof. vm_compute. reflexivity. Qed.
(* src/emv/tlv_parsing/ber_tlv.rs:306 *)
Example test_ber_tlv_parse_constructed_masked_child_tag : ber_parse p64 [42] [111; 11; 95; 32; 8; 42; 42; 42; 42; 42; 42; 42; 42] = (Ok [RawNode (mkRawTag [111] TagClass_Application Constructed (Normal [95; 32; 8; 42; 42; 42; 42; 42; 42; 42; 42])) [RawNode (mkRawTag [95; 32] TagClass_Application Primitive Masked) []]]).
Proof. vm_compute. reflexivity. Qed.
(* src/emv/tlv_parsing/ber_tlv.rs:338 *)
Example test_ber_tlv_parse_multiple_tags : ber_parse p64 [42] [79; 7; 160; 0; 0; 0; 4; 16; 16; 95; 52; 8; 42; 42; 42; 42; 42; 42; 42; 42; 95; 36; 3; 37; 18; 49; 111; 7; 159; 55; 4; 52; 230; 47; 146] = (Ok [RawNode (mkRawTag [79] TagClass_Application Primitive (Normal [160; 0; 0; 0; 4; 16; 16])) []; RawNode (mkRawTag [95; 52] TagClass_Application Primitive Masked) []; RawNode (mkRawTag [95; 36] TagClass_Application Primitive (Normal [37; 18; 49])) []; RawNode (mkRawTag [111] TagClass_Application Constructed (Normal [159; 55; 4; 52; 230; 47; 146])) [RawNode (mkRawTag [159; 55] TagClass_ContextSpecific Primitive (Normal [52; 230; 47; 146])) []]]).
Proof. vm_compute. reflexivity. Qed.
(* src/emv/tlv_parsing/ber_tlv.rs:403 *)
Example test_ber_tlv_parse_empty_tag_data : ber_parse p64 [42] [95; 32; 0] = (Ok [RawNode (mkRawTag [95; 32] TagClass_Application Primitive (Normal [])) []]).
Proof. vm_compute. reflexivity. Qed.
(* src/emv/tlv_parsing/ber_tlv.rs:420 *)
Example test_ber_tlv_parse_single_byte_tag_data_is_not_masked : ber_parse p64 [42] [95; 52; 1; 42] = (Ok [RawNode (mkRawTag [95; 52] TagClass_Application Primitive (Normal [42])) []]).
Proof. vm_compute. reflexivity. Qed.
(* src/emv/tlv_parsing/ber_tlv.rs:437 *)
Example test_ber_tlv_parse_3_byte_tag_name : ber_parse p64 [42] [159; 160; 32; 3; 34; 18; 49] = (Ok [RawNode (mkRawTag [159; 160; 32] TagClass_ContextSpecific Primitive (Normal [34; 18; 49])) []]).
Proof. vm_compute. reflexivity. Qed.
(* src/emv/tlv_parsing/ber_tlv.rs:476 *)
Example test_ber_tlv_parse_too_long_tag_data : ber_parse p64 [42] [145; 133; 255; 255; 255; 255; 255] = (Err Unsupported).
Proof. vm_compute. reflexivity. Qed.
(* src/emv/tlv_parsing/ber_tlv.rs:485 *)
Example test_ber_tlv_parse_invalid_tag_length_too_long : ber_parse p64 [42] [145; 2; 0] = (Err NonCompliant).
Proof. vm_compute. reflexivity. Qed.
(* src/emv/tlv_parsing/ber_tlv.rs:489 *)
Example test_ber_tlv_parse_invalid_tag_name_indicates_more_coming_but_ends : ber_parse p64 [42] [95] = (Err NonCompliant).
Proof. vm_compute. reflexivity. Qed.
(* src/emv/tlv_parsing/ber_tlv.rs:493 *)
Example test_ber_tlv_parse_invalid_tag_length_indicates_more_coming_but_ends : ber_parse p64 [42] [145; 130; 255] = (Err NonCompliant).
Proof. vm_compute. reflexivity. Qed.
(* src/emv/tlv_parsing/ber_tlv.rs:500 *)
Example test_ber_tlv_parse_invalid_no_tag_length : ber_parse p64 [42] [145] = (Err NonCompliant).
Proof. vm_compute. reflexivity. Qed.
(* src/emv/tlv_parsing/ber_tlv.rs:504 *)
Example test_ber_tlv_parse_invalid_no_tag_data : ber_parse p64 [42] [145; 16] = (Err NonCompliant).
Proof. vm_compute. reflexivity. Qed.
(* src/emv/tlv_parsing/ber_tlv.rs:511 *)
Example test_ber_tlv_parse_handles_stupid_tag_names : ber_parse p64 [42] [227; 3; 34; 18; 49] = (Ok [RawNode (mkRawTag [227] TagClass_Private Constructed (Normal [34; 18; 49])) []]).
Proof. vm_compute. reflexivity. Qed.
(* src/emv/tlv_parsing/ingenico_tlv.rs:159 *)
Example test_ingenico_tlv_parse_empty_data : ingenico_parse p64 [42] (lit "") = (Ok []).
Proof. vm_compute. reflexivity. Qed.
(* src/emv/tlv_parsing/ingenico_tlv.rs:163 *)
Example test_ingenico_tlv_parse_single_byte_primitive_unmasked_hex_tag : ingenico_parse p64 [42] (lit "T5A:08:h4761730000000119") = (Ok [RawNode (mkRawTag [90] TagClass_Application Primitive (Normal [71; 97; 115; 0; 0; 0; 1; 25])) []]).
Proof. vm_compute. reflexivity. Qed.
(* src/emv/tlv_parsing/ingenico_tlv.rs:182 *)
Example test_ingenico_tlv_parse_multi_byte_primitive_unmasked_hex_tag : ingenico_parse p64 [42] (lit "T5F34:01:h01") = (Ok [RawNode (mkRawTag [95; 52] TagClass_Application Primitive (Normal [1])) []]).
Proof. vm_compute. reflexivity. Qed.
(* src/emv/tlv_parsing/ingenico_tlv.rs:199 *)
Example test_ingenico_tlv_parse_single_byte_primitive_masked_hex_tag : ingenico_parse p64 [42] (lit "T5A:08:h****************") = (Ok [RawNode (mkRawTag [90] TagClass_Application Primitive Masked) []]).
Proof. vm_compute. reflexivity. Qed.
(* src/emv/tlv_parsing/ingenico_tlv.rs:216 *)
Example test_ingenico_tlv_parse_multi_byte_primitive_masked_hex_tag : ingenico_parse p64 [42] (lit "T5F34:02:h****") = (Ok [RawNode (mkRawTag [95; 52] TagClass_Application Primitive Masked) []]).
Proof. vm_compute. reflexivity. Qed.
(* src/emv/tlv_parsing/ingenico_tlv.rs:233 *)
Example test_ingenico_tlv_parse_single_byte_primitive_unmasked_ascii_tag : ingenico_parse p64 [42] (lit "T8A:02:a05") = (Ok [RawNode (mkRawTag [138] TagClass_ContextSpecific Primitive (Normal [48; 53])) []]).
Proof. vm_compute. reflexivity. Qed.
(* src/emv/tlv_parsing/ingenico_tlv.rs:250 *)
Example test_ingenico_tlv_parse_single_byte_primitive_masked_ascii_tag : ingenico_parse p64 [42] (lit "T8A:02:a**") = (Ok [RawNode (mkRawTag [138] TagClass_ContextSpecific Primitive Masked) []]).
Proof. vm_compute. reflexivity. Qed.
(* src/emv/tlv_parsing/ingenico_tlv.rs:267 *)
Example test_ingenico_tlv_parse_constructed_unmasked_tag : ingenico_parse p64 [42] (lit "T6F:09:h4F07A0000000031010") = (Ok [RawNode (mkRawTag [111] TagClass_Application Constructed (Normal [79; 7; 160; 0; 0; 0; 3; 16; 16])) [RawNode (mkRawTag [79] TagClass_Application Primitive (Normal [160; 0; 0; 0; 3; 16; 16])) []]]).
Proof. vm_compute. reflexivity. Qed.
(* src/emv/tlv_parsing/ingenico_tlv.rs:298 *)
Example test_ingenico_tlv_parse_constructed_masked_tag : ingenico_parse p64 [42] (lit "T6F:0B:h**********************") = (Ok [RawNode (mkRawTag [111] TagClass_Application Constructed Masked) []]).
Proof. vm_compute. reflexivity. Qed.
(* src/emv/tlv_parsing/ingenico_tlv.rs:317 *)
Example test_ingenico_tlv_parse_constructed_masked_child_tag : ingenico_parse p64 [42] (lit "T6F:0B:h5F2008****************") = (Err NonCompliant).
Proof. vm_compute. reflexivity. Qed.
(* src/emv/tlv_parsing/ingenico_tlv.rs:324 *)
Example test_ingenico_tlv_parse_multiple_tags : ingenico_parse p64 [42] (lit "T4F:07:hA0000000041010~T5F34:08:h****************~T5F24:03:h251231~T6F:07:h9F370434E62F92") = (Ok [RawNode (mkRawTag [79] TagClass_Application Primitive (Normal [160; 0; 0; 0; 4; 16; 16])) []; RawNode (mkRawTag [95; 52] TagClass_Application Primitive Masked) []; RawNode (mkRawTag [95; 36] TagClass_Application Primitive (Normal [37; 18; 49])) []; RawNode (mkRawTag [111] TagClass_Application Constructed (Normal [159; 55; 4; 52; 230; 47; 146])) [RawNode (mkRawTag [159; 55] TagClass_ContextSpecific Primitive (Normal [52; 230; 47; 146])) []]]).
Proof. vm_compute. reflexivity. Qed.
(* src/emv/tlv_parsing/ingenico_tlv.rs:385 *)
Example test_ingenico_tlv_parse_empty_tag_data : ingenico_parse p64 [42] (lit "T5F20:00:h") = (Ok [RawNode (mkRawTag [95; 32] TagClass_Application Primitive (Normal [])) []]).
Proof. vm_compute. reflexivity. Qed.
(* src/emv/tlv_parsing/ingenico_tlv.rs:402 *)
Example test_ingenico_tlv_parse_single_byte_tag_ascii_data_is_not_masked : ingenico_parse p64 [42] (lit "T5F34:01:a*") = (Ok [RawNode (mkRawTag [95; 52] TagClass_Application Primitive (Normal [42])) []]).
Proof. vm_compute. reflexivity. Qed.
(* src/emv/tlv_parsing/ingenico_tlv.rs:425 *)
Example test_ingenico_tlv_parse_single_byte_tag_hex_data_is_masked : ingenico_parse p64 [42] (lit "T5F34:01:h**") = (Ok [RawNode (mkRawTag [95; 52] TagClass_Application Primitive Masked) []]).
Proof. vm_compute. reflexivity. Qed.
(* src/emv/tlv_parsing/ingenico_tlv.rs:443 *)
Example test_ingenico_tlv_parse_3_byte_tag_name : ingenico_parse p64 [42] (lit "T9FA020:03:h221231") = (Ok [RawNode (mkRawTag [159; 160; 32] TagClass_ContextSpecific Primitive (Normal [34; 18; 49])) []]).
Proof. vm_compute. reflexivity. Qed.
(* src/emv/tlv_parsing/ingenico_tlv.rs:460 *)
Example test_ingenico_tlv_parse_leading_0_byte_tag_name : ingenico_parse p64 [42] (lit "T008A:0002:h3030") = (Ok [RawNode (mkRawTag [138] TagClass_ContextSpecific Primitive (Normal [48; 48])) []]).
Proof. vm_compute. reflexivity. Qed.
(* src/emv/tlv_parsing/ingenico_tlv.rs:477 *)
Example test_ingenico_tlv_parse_lowercase_where_possible : ingenico_parse p64 [42] (lit "T5f34:02:he6dd") = (Ok [RawNode (mkRawTag [95; 52] TagClass_Application Primitive (Normal [230; 221])) []]).
Proof. vm_compute. reflexivity. Qed.
(* src/emv/tlv_parsing/ingenico_tlv.rs:494 *)
Example test_ingenico_tlv_parse_mixed_case : ingenico_parse p64 [42] (lit "T5f34:02:hE6Dd") = (Ok [RawNode (mkRawTag [95; 52] TagClass_Application Primitive (Normal [230; 221])) []]).
Proof. vm_compute. reflexivity. Qed.
(* src/emv/tlv_parsing/ingenico_tlv.rs:511 *)
Example test_ingenico_tlv_parse_extra_end_separator : ingenico_parse p64 [42] (lit "T91:08:h****************~") = (Ok [RawNode (mkRawTag [145] TagClass_ContextSpecific Primitive Masked) []]).
Proof. vm_compute. reflexivity. Qed.
(* src/emv/tlv_parsing/ingenico_tlv.rs:550 *)
Example test_ingenico_tlv_parse_too_long_tag_data : ingenico_parse p64 [42] (lit "T91:FFFFFFFFFF:h") = (Err Unsupported).
Proof. vm_compute. reflexivity. Qed.
(* src/emv/tlv_parsing/ingenico_tlv.rs:557 *)
Example test_ingenico_tlv_parse_non_ascii : ingenico_parse p64 [42] (lit "T5F34:02:h0001" ++ [0xfffd] ++ lit "T91:08:****************" ++ [0xfffd] ++ lit "") = (Err NonCompliant).
Proof. vm_compute. reflexivity. Qed.
(* src/emv/tlv_parsing/ingenico_tlv.rs:564 *)
Example test_ingenico_tlv_parse_invalid_tag_length_too_long_hex : ingenico_parse p64 [42] (lit "T91:02:h00") = (Err NonCompliant).
Proof. vm_compute. reflexivity. Qed.
(* src/emv/tlv_parsing/ingenico_tlv.rs:568 *)
Example test_ingenico_tlv_parse_invalid_tag_length_too_long_ascii : ingenico_parse p64 [42] (lit "T91:02:a0") = (Err NonCompliant).
Proof. vm_compute. reflexivity. Qed.
(* src/emv/tlv_parsing/ingenico_tlv.rs:572 *)
Example test_ingenico_tlv_parse_invalid_tag_name_ends_early : ingenico_parse p64 [42] (lit "T5F") = (Err NonCompliant).
Proof. vm_compute. reflexivity. Qed.
(* src/emv/tlv_parsing/ingenico_tlv.rs:576 *)
Example test_ingenico_tlv_parse_invalid_no_tag_name_ends_early : ingenico_parse p64 [42] (lit "T") = (Err NonCompliant).
Proof. vm_compute. reflexivity. Qed.
(* src/emv/tlv_parsing/ingenico_tlv.rs:580 *)
Example test_ingenico_tlv_parse_invalid_no_tag_name : ingenico_parse p64 [42] (lit "T:") = (Err NonCompliant).
Proof. vm_compute. reflexivity. Qed.
(* src/emv/tlv_parsing/ingenico_tlv.rs:584 *)
Example test_ingenico_tlv_parse_invalid_no_tag_length : ingenico_parse p64 [42] (lit "T91:") = (Err NonCompliant).
Proof. vm_compute. reflexivity. Qed.
(* src/emv/tlv_parsing/ingenico_tlv.rs:588 *)
Example test_ingenico_tlv_parse_invalid_no_tag_data : ingenico_parse p64 [42] (lit "T91:02:") = (Err NonCompliant).
Proof. vm_compute. reflexivity. Qed.
(* src/emv/tlv_parsing/ingenico_tlv.rs:592 *)
Example test_ingenico_tlv_parse_invalid_skips_tag_length : ingenico_parse p64 [42] (lit "T91:h6E34") = (Err NonCompliant).
Proof. vm_compute. reflexivity. Qed.
(* src/emv/tlv_parsing/ingenico_tlv.rs:596 *)
Example test_ingenico_tlv_parse_invalid_format_specifier : ingenico_parse p64 [42] (lit "T91:02:u83") = (Err NonCompliant).
Proof. vm_compute. reflexivity. Qed.
(* src/emv/tlv_parsing/ingenico_tlv.rs:600 *)
Example test_ingenico_tlv_parse_invalid_field_separator : ingenico_parse p64 [42] (lit "T8A~02~a00") = (Err NonCompliant).
Proof. vm_compute. reflexivity. Qed.
(* src/emv/tlv_parsing/ingenico_tlv.rs:604 *)
Example test_ingenico_tlv_parse_ignores_other_tag_types : ingenico_parse p64 [42] (lit "D1003:01:aD") = (Ok []).
Proof. vm_compute. reflexivity. Qed.
(* src/emv/tlv_parsing/auto_tlv.rs:59 *)
Example test_auto_tlv_parse_empty_data : auto_parse p64 [42] (lit "") = (Err Unrecognised).
Proof. vm_compute. reflexivity. Qed.
(* src/emv/tlv_parsing/auto_tlv.rs:63 *)
Example test_auto_tlv_parse_ber_tlv_valid : auto_parse p64 [42] (lit "5F2403251231") = (Ok (BerTlv, [RawNode (mkRawTag [95; 36] TagClass_Application Primitive (Normal [37; 18; 49])) []])).
Proof. vm_compute. reflexivity. Qed.
(* src/emv/tlv_parsing/auto_tlv.rs:83 *)
Example test_auto_tlv_parse_ber_tlv_invalid : auto_parse p64 [42] (lit "5F24032531") = (Err Unrecognised).
Proof. vm_compute. reflexivity. Qed.
(* src/emv/tlv_parsing/auto_tlv.rs:87 *)
Example test_auto_tlv_parse_ingenico_valid : auto_parse p64 [42] (lit "T5F24:03:h251231") = (Ok (Ingenico, [RawNode (mkRawTag [95; 36] TagClass_Application Primitive (Normal [37; 18; 49])) []])).
Proof. vm_compute. reflexivity. Qed.
(* src/emv/tlv_parsing/auto_tlv.rs:107 *)
Example test_auto_tlv_parse_ingenico_invalid : auto_parse p64 [42] (lit "T5F24:03:h2531") = (Err Unrecognised).
Proof. vm_compute. reflexivity. Qed.
