From Coq Require Import NArith List String Ascii Bool.
From Verif Require Import Base ModelUtil ModelEnums ModelBitflag ModelSchemas ModelTags ModelTlv
  ModelValues ModelProcess ModelMain ModelCli ModelUncalled PropertiesBer.
Import ListNotations.
Local Open Scope N_scope.

(** ** src/util.rs:200-435 *)

Example test_parse_str_to_u16_valid : parse_str_to_u16 (lit "1234") = Ok 1234.
Proof. vm_compute. reflexivity. Qed.
Example test_parse_str_to_u16_invalid : parse_str_to_u16 (lit "65536") = Err InvalidNumber.
Proof. vm_compute. reflexivity. Qed.

Example test_parse_hex_str :
  parse_hex_str (lit "DEADBEEF") = [0xDE; 0xAD; 0xBE; 0xEF]
  /\ parse_hex_str (lit "DE AD  BE EF") = [0xDE; 0xAD; 0xBE; 0xEF]
  /\ parse_hex_str (lit "deadbeef") = [0xDE; 0xAD; 0xBE; 0xEF]
  /\ parse_hex_str (lit "de ad  be ef") = [0xDE; 0xAD; 0xBE; 0xEF]
  /\ parse_hex_str (lit "  . 0a 6E  42    t ") = [0x0A; 0x6E; 0x42]
  /\ parse_hex_str (lit "  . 0a 6E  " ++ [0x2764; 0xFE0F] ++ lit " 42    t ") = [0x0A; 0x6E; 0x42].
Proof. vm_compute. repeat split. Qed.
Example test_parse_hex_str_strict :
  parse_hex_str_strict (lit "DEADBEEF") = Ok [0xDE; 0xAD; 0xBE; 0xEF]
  /\ parse_hex_str_strict (lit "deadbeef") = Ok [0xDE; 0xAD; 0xBE; 0xEF]
  /\ parse_hex_str_strict (lit "de ad  be ef") = Err InvalidBytes
  /\ parse_hex_str_strict (lit "  . 0a 6E  42    t ") = Err InvalidBytes
  /\ parse_hex_str_strict (lit "  . 0a 6E  " ++ [0x2764; 0xFE0F] ++ lit " 42    t ") = Err InvalidBytes.
Proof. vm_compute. repeat split. Qed.

Example test_byte_slice_to_u32 :
  byte_slice_to_u32 [0x25] = Ok 0x25
  /\ byte_slice_to_u32 [0x12; 0x34; 0x56] = Ok 0x123456
  /\ byte_slice_to_u32 [0x12; 0x34; 0x56; 0x78] = Ok 0x12345678
  /\ byte_slice_to_u32 [0x12; 0x34; 0x56; 0x78; 0x90] = Panic.
Proof. vm_compute. repeat split. Qed.
Example test_byte_slice_to_u64 :
  byte_slice_to_u64 [0x25] = Ok 0x25
  /\ byte_slice_to_u64 [0x12; 0x34; 0x56] = Ok 0x123456
  /\ byte_slice_to_u64 [0x12; 0x34; 0x56; 0x78; 0x90; 0x12; 0x34; 0x56] = Ok 0x1234567890123456
  /\ byte_slice_to_u64 [0x12; 0x34; 0x56; 0x78; 0x90; 0x12; 0x34; 0x56; 0x78] = Panic.
Proof. vm_compute. repeat split. Qed.

Example test_bytes_to_str :
  bytes_to_str [0x1A] = Ok (lit "1A")
  /\ bytes_to_str [0xC6; 0xA2; 0xFF; 0x3E; 0x2B] = Ok (lit "C6A2FF3E2B")
  /\ bytes_to_str [0x01; 0x23; 0x45; 0x67; 0x89; 0xAB; 0xCD; 0xEF] = Ok (lit "0123456789ABCDEF").
Proof. vm_compute. repeat split. Qed.

Example test_trim_leading_0_bytes :
  trim_leading_0_bytes [0x00; 0x8A] = [0x8A]
  /\ trim_leading_0_bytes [0x9F; 0x1D] = [0x9F; 0x1D]
  /\ trim_leading_0_bytes [0x00; 0x00; 0x00] = [0x00].
Proof. vm_compute. repeat split. Qed.

Example test_num_dec_digits :
  num_dec_digits 0 = 1
  /\ forallb (fun n => num_dec_digits (10 ^ n) =? n + 1) [0; 1; 2; 3; 4; 5; 6; 7] = true
  /\ num_dec_digits 123456 = 6.
Proof. vm_compute. repeat split. Qed.

(** ** src/non_emv/service_code.rs:177-281 *)

Example test_service_code_interac : service_code_try_from_u16 220
  = Ok (mkServiceCode 220 Interchange_International Technology_IntegratedCircuitCard
          AuthorisationProcessing_ByIssuer AllowedServices_NoRestrictions PinRequirements_PinRequired).
Proof. vm_compute. reflexivity. Qed.
Example test_service_code_visa : service_code_try_from_u16 201
  = Ok (mkServiceCode 201 Interchange_International Technology_IntegratedCircuitCard
          AuthorisationProcessing_Normal AllowedServices_NoRestrictions PinRequirements_None).
Proof. vm_compute. reflexivity. Qed.
Example test_service_code_prepaid : service_code_try_from_u16 121
  = Ok (mkServiceCode 121 Interchange_International Technology_MagneticStripeOnly
          AuthorisationProcessing_ByIssuer AllowedServices_NoRestrictions PinRequirements_None).
Proof. vm_compute. reflexivity. Qed.
Example test_service_code_all :
  forallb (fun n => match service_code_try_from_u16 (N.of_nat n) with Ok _ => true | _ => false end) (seq 0 1000) = true.
Proof. vm_compute. reflexivity. Qed.
Example test_service_code_number : service_code_try_from_u16 1000 = Err InvalidNumber.
Proof. vm_compute. reflexivity. Qed.
Example test_service_code_bytes : service_code_try_from_u16 220 = service_code_try_from_bytes [0x02; 0x20].
Proof. vm_compute. reflexivity. Qed.
Example test_service_code_count : service_code_try_from_bytes [0x02; 0x20; 0x00] = Err (ByteCountIncorrect Eq 2 3).
Proof. vm_compute. reflexivity. Qed.

(** ** src/config/colour_choice.rs:105-155 *)

Example test_round_trip_conversions :
  Forall (fun c => colour_choice_from_term (colour_choice_to_term c) = c
                   /\ colour_choice_try_from (colour_choice_text c) = Ok c) [CAlways; CAlwaysAnsi; CAuto; CNever]
  /\ Forall (fun c => colour_choice_to_term (colour_choice_from_term c) = c) [TAlways; TAlwaysAnsi; TAuto; TNever].
Proof. vm_compute. repeat constructor. Qed.
Example test_colour_choice_from_str_error : colour_choice_try_from (lit "unsupported value") = Err Unsupported.
Proof. vm_compute. reflexivity. Qed.

(** ** The values: src/emv/*.rs *)

(* src/testing_macros.rs:5-21 *)
Example test_wrong_byte_count :
  transaction_type_from_slice [0; 0] = Err (ByteCountIncorrect Eq 1 2)
  /\ cvm_results_try_from [0; 0; 0; 0] = Err (ByteCountIncorrect Eq 3 4)
  /\ terminal_type_from_slice [0; 0] = Err (ByteCountIncorrect Eq 1 2)
  /\ pos_entry_mode_from_slice [0; 0] = Err (ByteCountIncorrect Eq 1 2)
  /\ cci_try_from [0; 0] = Err (ByteCountIncorrect Eq 1 2)
  /\ cvr_try_from [0; 0; 0; 0; 0; 0] = Err (ByteCountIncorrect Eq 5 6)
  /\ addtermcap_try_from [0; 0; 0; 0; 0; 0] = Err (ByteCountIncorrect Eq 5 6)
  /\ tsi_try_from [0; 0; 0] = Err (ByteCountIncorrect Eq 2 3)
  /\ arc_from_slice [0; 0; 0] = Err (ByteCountIncorrect Eq 2 3)
  /\ cv_rule_try_from [0; 0; 0] = Err (ByteCountIncorrect Eq 2 3)
  /\ tvr_try_from [0; 0; 0; 0; 0; 0] = Err (ByteCountIncorrect Eq 5 6)
  /\ termcap_try_from [0; 0; 0; 0] = Err (ByteCountIncorrect Eq 3 4).
Proof. vm_compute. repeat split. Qed.

(* src/testing_macros.rs:159-171 *)
Example test_enum_byte_slice :
  transaction_type_from_slice [0x20] = transaction_type_try_from 0x20
  /\ terminal_type_from_slice [0x22] = terminal_type_try_from 0x22
  /\ pos_entry_mode_from_slice [0x80] = pos_entry_mode_try_from 0x80
  /\ arc_from_slice [48; 53] = authorisation_response_code_try_from (lit "05").
Proof. vm_compute. repeat split. Qed.

Definition fval_eq_dec : forall a b : fval, {a = b} + {a <> b}.
Proof. repeat decide equality. Defined.
Definition values_eqb (a b : list fval) : bool := if list_eq_dec fval_eq_dec a b then true else false.
Definition severity_eq_dec : forall a b : severity, {a = b} + {a <> b}.
Proof. decide equality. Defined.
Definition range_eq_dec : forall a b : bit_range, {a = b} + {a <> b}.
Proof. decide equality; [apply severity_eq_dec | apply (list_eq_dec N.eq_dec) | apply N.eq_dec | apply N.eq_dec]. Defined.
Definition ranges_eqb (a b : list bit_range) : bool := if list_eq_dec range_eq_dec a b then true else false.

Definition single_bit (count byte bit : nat) : list N :=
  repeat 0 byte ++ [N.shiftl 1 (N.of_nat bit)] ++ repeat 0 (count - byte - 1).
Definition all_bits (count : nat) : list (nat * nat) := list_prod (seq 0 count) (seq 0 8).
Fixpoint distinct {A : Type} (eqb : A -> A -> bool) (l : list A) : bool :=
  match l with [] => true | x :: t => negb (existsb (eqb x) t) && distinct eqb t end.

(* src/testing_macros.rs:23-63 *)
Definition unique_values (sch : schema) : bool :=
  let count := N.to_nat (s_count sch) in
  match bf_try_from sch (repeat 0 count) with
  | Ok empty =>
      let results := flat_map (fun '(byte, bit) =>
        match bf_try_from sch (single_bit count byte bit) with
        | Ok r => if values_eqb r empty then [] else [(single_bit count byte bit, r)]
        | _ => [([], [])]
        end) (all_bits count) in
      forallb (fun '(raw, r) => leqb raw (bf_repr sch r) && negb (leqb raw [])) results
      && distinct values_eqb (map snd results)
  | _ => false
  end.
Example test_bitflag_unique_values :
  forallb unique_values [tvr_schema; tsi_schema; termcap_schema; addtermcap_schema; cvr_schema] = true.
Proof. vm_compute. reflexivity. Qed.

(* src/testing_macros.rs:65-157 *)
Definition display_bits (sch : schema) : bool :=
  let count := N.to_nat (s_count sch) in
  match bf_try_from sch (repeat 0 count) with
  | Ok empty =>
      let base := bf_ranges sch empty in
      let offsets := map r_offset base in
      let old r := existsb (N.eqb (r_offset r)) offsets in
      distinct N.eqb offsets
      && forallb (fun '(byte, bit) =>
           match bf_try_from sch (single_bit count byte bit) with
           | Ok r =>
               if values_eqb r empty then true
               else let info := bf_ranges sch r in
                    let at_bit := N.of_nat ((count - 1 - byte) * 8 + bit) in
                    (len base <=? len info) && (len info - len base <=? 1)
                    && match filter (fun d => negb (old d)) info with
                       | [] => true
                       | d :: _ => (at_bit <=? r_offset d) && (r_offset d <? at_bit + r_len d)
                       end
           | _ => false
           end) (all_bits count)
      && distinct ranges_eqb (flat_map (fun '(byte, bit) =>
           match bf_try_from sch (single_bit count byte bit) with
           | Ok r => let info := bf_ranges sch r in
                     if existsb (fun d => negb (old d)) info then [info] else []
           | _ => []
           end) (all_bits count))
  | _ => false
  end.
Example test_bitflag_display_bits :
  forallb display_bits [tvr_schema; tsi_schema; termcap_schema; addtermcap_schema; cvr_schema] = true.
Proof. vm_compute. reflexivity. Qed.

(* src/emv/authorisation_response_code.rs:135-141 *)
Example test_arc_invalid_utf8 : arc_from_slice [0x00; 0x9F] = Err InvalidNumber.
Proof. vm_compute. reflexivity. Qed.

(* src/emv/cv_rule/cvm_condition.rs:102-123 *)
Example test_references_x_or_y_value :
  references_x_or_y_value CvmCondition_InApplicationCurrencyOverY = true
  /\ references_x_or_y_value CvmCondition_TerminalSupported = false.
Proof. vm_compute. repeat split. Qed.

(* src/emv/cv_rule/mod.rs:39-49 *)
Definition a_rule (continue : bool) (method : cv_method) (condition : option cvm_condition) : list fval :=
  [VBool continue; VCvMethod (Some method); VCvmCondition condition].
Example test_cv_rule : cv_rule_try_from [0x5E; 0x03]
  = Ok (a_rule true CvMethod_Signature (Some CvmCondition_TerminalSupported)).
Proof. vm_compute. reflexivity. Qed.

(* src/emv/cvm_results.rs:98-113 *)
Example test_cvm_results : cvm_results_try_from [0x5E; 0x03; 2]
  = Ok (mkCvmResults (a_rule true CvMethod_Signature (Some CvmCondition_TerminalSupported)) CvmResult_Successful).
Proof. vm_compute. reflexivity. Qed.

(* src/emv/cvm_list.rs:149-268 *)
Example test_cvm_list :
  cvm_list_try_from (repeat 0 8) = Ok (mkCvmList 0 0 [])
  /\ cvm_list_try_from [0; 0; 0; 0x2A; 0; 0; 0; 0x7B; 4; 3; 0x5E; 3; 0; 0]
     = Ok (mkCvmList 0x2A 0x7B
             [a_rule false CvMethod_EncipheredPin (Some CvmCondition_TerminalSupported);
              a_rule true CvMethod_Signature (Some CvmCondition_TerminalSupported);
              a_rule false CvMethod_FailCvmProcessing (Some CvmCondition_Always)])
  /\ cvm_list_try_from (repeat 0 3) = Err (ByteCountIncorrect Gt 8 3)
  /\ cvm_list_try_from (repeat 0 9) = Err ByteCountNotDivisibleIntoComponents
  /\ cvm_list_try_from [0; 0; 0; 0; 0; 0; 0; 0; 2; 0x35]
     = Ok (mkCvmList 0 0 [a_rule false CvMethod_EncipheredPinOnline None]).
Proof. vm_compute. repeat split. Qed.

(* src/emv/iac/default.rs:89-112, src/emv/iac/denial.rs:83-106, src/emv/iac/online.rs:84-107 *)
Example test_iac_matches_tvr :
  iac_default_try_from (repeat 0xFF 5) = tvr_try_from (repeat 0xFF 5)
  /\ iac_denial_try_from (repeat 0xFF 5) = tvr_try_from (repeat 0xFF 5)
  /\ iac_online_try_from (repeat 0xFF 5) = tvr_try_from (repeat 0xFF 5).
Proof. vm_compute. repeat split. Qed.
Example test_iac_default_value_is_ok :
  forallb (fun r : res (list fval) => match r with Ok _ => true | _ => false end)
    [iac_default_default; iac_denial_default; iac_online_default] = true.
Proof. vm_compute. reflexivity. Qed.

(* src/emv/ccd/cci.rs:37-64 *)
Example test_cci :
  cci_try_from [0xA6] = Ok [VFormatCode FormatCode_A; VCryptogramVersion CryptogramVersion_Aes]
  /\ cci_try_from [0x8A] = Err NonCcdCompliant.
Proof. vm_compute. repeat split. Qed.

(* src/emv/ccd/iad.rs:159-317 *)
Example test_iad :
  iad_try_from [0x0F; 0xA5; 1; 0xA2; 0x30; 0x30; 0x10; 0; 0; 0; 0; 0; 0; 0; 0; 0;
                0x0F; 1; 0; 0; 0; 0; 0; 0; 0; 0; 0; 0; 0; 0; 0; 0]
  = Ok (mkIad
          [VFormatCode FormatCode_A; VCryptogramVersion CryptogramVersion_TripleDes]
          1
          [VGenAc2 GenAc2ApplicationCryptogramType_SecondGenAcNotRequested;
           VGenAc1 GenAc1ApplicationCryptogramType_Arqc;
           VBool false; VBool false; VBool true; VBool false;
           VU8 3; VBool false; VBool false; VBool false; VBool false;
           VBool false; VBool false; VBool true; VBool true;
           VBool false; VBool false; VBool false; VBool false;
           VU8 1; VBool false; VBool false; VBool false; VBool false]
          (repeat 0 8)
          (1 :: repeat 0 14))
  /\ iad_try_from (repeat 0 7) = Err NonCcdCompliant
  /\ iad_try_from ([0x0A] ++ repeat 0 15 ++ [0x0F] ++ repeat 0 15) = Err NonCcdCompliant
  /\ iad_try_from ([0x0F] ++ repeat 0 15 ++ [0x0F] ++ repeat 0 15) = Err NonCcdCompliant.
Proof. vm_compute. repeat split. Qed.

Example test_comparing_format_codes : forall cvr,
  let d := mkIad [VFormatCode FormatCode_A; VCryptogramVersion CryptogramVersion_TripleDes] 1 cvr (repeat 0 8) (1 :: repeat 0 14) in
  code_eq_format_data FormatCode_A d = true /\ format_data_eq_code d FormatCode_A = true.
Proof. intros cvr. vm_compute. split; reflexivity. Qed.

(** ** src/emv/tlv_parsing/mod.rs:566-800 *)

Example test_sort_nodes :
  match bind (ber_parse p64 [42] [0x7E; 3; 0x2A; 0x2A; 0x2A; 0x95; 5; 0; 0x80; 0; 0x80; 0; 0x9F; 9; 2; 0; 0x8C]) process_block,
        bind (ber_parse p64 [42] [0x95; 5; 0; 0x80; 0; 0x80; 0; 0x9F; 9; 2; 0; 0x8C; 0x7E; 3; 0x2A; 0x2A; 0x2A]) process_block with
  | Ok expected, Ok result => block_eqb expected (sort_nodes result)
  | _, _ => false
  end = true.
Proof. vm_compute. reflexivity. Qed.

Definition tsi_tag (d : emv_data) : raw_tag := mkRawTag [0x9B] TagClass_ContextSpecific Primitive d.
Definition tsi_of (d : list N) : res value := rmap ValTsi (tsi_try_from d).
Example test_parse_raw :
  rmap (fun t => rt_data (get_raw_tag t)) (parse_raw (lit "Transaction Status Information (TSI)") (tsi_tag (Normal [0xFC; 0])) tsi_of)
  = Ok (Normal [0xFC; 0])
  /\ rmap (fun t => rt_data (get_raw_tag t)) (parse_raw (lit "Transaction Status Information (TSI)") (tsi_tag Masked) tsi_of)
  = Ok Masked.
Proof. vm_compute. repeat split. Qed.

Definition arc_tag (d : emv_data) : raw_tag := mkRawTag [0x8A] TagClass_ContextSpecific Primitive d.
Definition arc_name (d : emv_data) : option str :=
  match parse_raw_unrecognised (lit "Authorisation Response Code")
          (lit "Authorisation Response Code (Unrecognised - likely payment system-specific)")
          (arc_tag d) (fun d => rmap ValArc (arc_from_slice d)) is_unrecognised_error with
  | Ok (PAnnotated name _) | Ok (PParsed name _ _) => Some name
  | _ => None
  end.
Example test_parse_raw_unrecognised :
  arc_name (Normal (lit "06")) = Some (lit "Authorisation Response Code")
  /\ arc_name (Normal (lit "ZZ"))
     = Some (lit "Authorisation Response Code (Unrecognised - likely payment system-specific)")
  /\ arc_name Masked = Some (lit "Authorisation Response Code")
  /\ parse_raw_unrecognised [] [] (arc_tag (Normal (lit "05"))) (fun _ => Err NonCompliant) is_unrecognised_error
     = Err NonCompliant.
Proof. vm_compute. repeat split. Qed.

Example test_is_masked :
  is_masked_u8 [0x2A; 0x2A; 0x2A] [42] = true
  /\ is_masked_u8 [0x23; 0x12; 0x31] [42] = false
  /\ is_masked_u8 [0x2A] [42] = false
  /\ is_masked_str (lit "******") [42] = true
  /\ is_masked_str (lit "231231") [42] = false
  /\ is_masked_str (lit "*") [42] = false.
Proof. vm_compute. repeat split. Qed.

(* src/emv/tlv_parsing/ber_tlv.rs:134-172 *)
Example test_tag_metadata :
  map parse_tag_metadata [0; 0x40; 0x80; 0xC0; 0x20; 0x60; 0xA0; 0xE0]
  = map Ok [(TagClass_Universal, Primitive); (TagClass_Application, Primitive);
            (TagClass_ContextSpecific, Primitive); (TagClass_Private, Primitive);
            (TagClass_Universal, Constructed); (TagClass_Application, Constructed);
            (TagClass_ContextSpecific, Constructed); (TagClass_Private, Constructed)].
Proof. vm_compute. reflexivity. Qed.

(* src/emv/tlv_parsing/ber_tlv.rs:454-474, src/emv/tlv_parsing/ingenico_tlv.rs:528-548 *)
Example test_parse_very_long_tag_data :
  ber_parse p64 [42] ([0x91; 0x81; 0x80] ++ repeat 0x2A 128)
  = Ok [RawNode (mkRawTag [0x91] TagClass_ContextSpecific Primitive Masked) []]
  /\ ingenico_parse p64 [42] (lit "T91:80:h" ++ repeat 42 256)
  = Ok [RawNode (mkRawTag [0x91] TagClass_ContextSpecific Primitive Masked) []].
Proof. vm_compute. repeat split. Qed.

(* src/cli.rs:320-330: what clap's [debug_assert] checks of the parts of the declaration in the
   model: identifiers, spellings, references and default values. *)
Example test_cli_debug_assertions :
  distinct String.eqb (map a_id cli_args) = true
  /\ distinct String.eqb (flat_map a_shorts cli_args) = true
  /\ distinct String.eqb (flat_map a_longs cli_args) = true
  /\ forallb (fun id => existsb (named id) cli_args) (flat_map a_conflicts cli_args ++ flat_map a_requires cli_args) = true
  /\ forallb (fun a => forallb (fun d => value_ok (a_parser a) (lit d)) (a_default a ++ a_missing a)) cli_args = true.
Proof. vm_compute. repeat split. Qed.
