(** Model of the value parsers: src/emv/{cvm_results,cvm_list,ccd/iad,iac/*,terminal_type,
    transaction_type,pos_entry_mode,authorisation_response_code,tag_basic_info}.rs and
    src/non_emv/service_code.rs. *)

From Coq Require Import NArith List String Bool.
From Verif Require Import Base ModelUtil ModelEnums ModelBitflag ModelSchemas ModelTags ModelTlv.
Import ListNotations.
Local Open Scope N_scope.

(** ** Plain bit field structs *)

(* src/emv/tvr.rs:11ff, src/emv/tsi.rs:11ff, src/emv/terminal_capabilities.rs:11ff,
   src/emv/additional_terminal_capabilities.rs:11ff, src/emv/ccd/cvr.rs:11ff,
   src/emv/ccd/cci.rs:11ff, src/emv/cv_rule/mod.rs:16-27: each is an invocation of
   [bitflag_value!]; the declarations are in ModelSchemas.v. *)
Definition tvr_try_from := bf_try_from tvr_schema.
(* src/emv/tsi.rs:11-24: [TransactionStatusInformation]. *)
Definition tsi_try_from := bf_try_from tsi_schema.
(* src/emv/terminal_capabilities.rs:11-41: [TerminalCapabilities]. *)
Definition termcap_try_from := bf_try_from termcap_schema.
(* src/emv/additional_terminal_capabilities.rs:11-62: [AdditionalTerminalCapabilities]. *)
Definition addtermcap_try_from := bf_try_from addtermcap_schema.
(* src/emv/ccd/cvr.rs:11-73: [CardVerificationResults]. *)
Definition cvr_try_from := bf_try_from cvr_schema.
(* src/emv/ccd/cci.rs:11-19: [CommonCoreIdentifier]. *)
Definition cci_try_from := bf_try_from cci_schema.
(* src/emv/cv_rule/mod.rs:16-27: [CardholderVerificationRule]. *)
Definition cv_rule_try_from := bf_try_from cv_rule_schema.

(** ** CVM results *)

(* src/emv/cvm_results.rs:12-18 *)
Record cvm_results : Type := mkCvmResults { cr_rule : list fval; cr_result : cvm_result }.

(* src/emv/cvm_results.rs:53-54 *)
Definition cvm_results_num_bytes : N := 3.
(* src/emv/cvm_results.rs:54: [USED_BITS_MASK]. *)
Definition cvm_results_mask : list N := [0x7F; 0xFF; 0xFF].

(* src/emv/cvm_results.rs:29-50 *)
Definition cvm_results_try_from (raw : list N) : res cvm_results :=
  if negb (len raw =? cvm_results_num_bytes)
  then Err (ByteCountIncorrect Eq cvm_results_num_bytes (len raw))
  else bytes <- mask_bytes raw cvm_results_mask;;
       s <- slice bytes 0 2;;
       rule <- cv_rule_try_from s;;
       b2 <- index bytes 2;;
       result <- cvm_result_try_from b2;;
       Ok (mkCvmResults rule result).

(* src/emv/cvm_results.rs:56-61 *)
Definition cvm_results_repr (r : cvm_results) : list N :=
  bf_repr cv_rule_schema (cr_rule r) ++ [cvm_result_to_u8 (cr_result r)].

(* src/emv/cvm_results.rs:67-68: [b.offset += 8] on each range; u8 arithmetic. *)
Fixpoint shift_ranges (p : platform) (l : list bit_range) : res (list bit_range) :=
  match l with
  | [] => Ok []
  | r :: t => o <- u8_add p (r_offset r) 8;;
              t' <- shift_ranges p t;;
              Ok (mkRange o (r_len r) (r_text r) (r_sev r) :: t')
  end.

(* src/emv/cvm_results.rs:64-81 *)
Definition cvm_results_ranges (p : platform) (r : cvm_results) : res (list bit_range) :=
  l <- shift_ranges p (bf_ranges cv_rule_schema (cr_rule r));;
  Ok (l ++ [mkRange 7 8 (lit "Result: " ++ cvm_result_text (cr_result r))
                    (match cr_result r with
                     | CvmResult_Failed => SevError
                     | CvmResult_Unknown | CvmResult_Successful => SevNormal
                     end)]).

(** ** CVM list *)

(* src/emv/cvm_list.rs:22-27 *)
Record cvm_list : Type := mkCvmList { cl_x : N; cl_y : N; cl_rules : list (list fval) }.

(* src/emv/cvm_list.rs:19 *)
Definition cvm_list_min_bytes : N := 8.

(* [for byte_pair in chunks { push(try_from(byte_pair)?) }] (src/emv/cvm_list.rs:48-50) *)
Definition mapM {A B : Type} (f : A -> res B) : list A -> res (list B) :=
  fix go (l : list A) : res (list B) :=
    match l with
    | [] => Ok []
    | x :: t => y <- f x;; ys <- go t;; Ok (y :: ys)
    end.

(* src/emv/cvm_list.rs:29-58 *)
Definition cvm_list_try_from (bytes : list N) : res cvm_list :=
  if len bytes <? cvm_list_min_bytes
  then Err (ByteCountIncorrect Gt cvm_list_min_bytes (len bytes))
  else if negb ((len bytes - cvm_list_min_bytes) mod s_count cv_rule_schema =? 0)
  then Err ByteCountNotDivisibleIntoComponents
  else xs <- slice bytes 0 4;;
       x <- byte_slice_to_u32 xs;;
       ys <- slice bytes 4 8;;
       y <- byte_slice_to_u32 ys;;
       rest <- slice_from bytes 8;;
       rules <- mapM cv_rule_try_from (chunks (N.to_nat (s_count cv_rule_schema)) rest);;
       Ok (mkCvmList x y rules).

(* src/emv/cv_rule/cvm_condition.rs:32-43 *)
Definition references_x_or_y_value (c : cvm_condition) : bool :=
  match c with
  | CvmCondition_InApplicationCurrencyUnderX
  | CvmCondition_InApplicationCurrencyOverX
  | CvmCondition_InApplicationCurrencyUnderY
  | CvmCondition_InApplicationCurrencyOverY => true
  | _ => false
  end.

(** ** Issuer application data *)

(* src/emv/ccd/iad.rs:17-21, 50-58; the only format is A. *)
Record iad : Type := mkIad {
  iad_cci : list fval; iad_dki : N; iad_cvr : list fval;
  iad_counters : list N; iad_discretionary : list N }.

(* [copy_from_slice] into an array of [n] bytes: panics unless the lengths agree
   (src/emv/ccd/iad.rs:73, 76). *)
Definition copy_from_slice (n : N) (s : list N) : res (list N) :=
  if len s =? n then Ok s else Panic.

(* src/emv/ccd/iad.rs:65-86 ([parse_format_data]) and 43-46 *)
Definition iad_parse_format (fc : format_code) (cci : list fval) (bytes : list N) : res iad :=
  match fc with
  | FormatCode_A =>
      dki <- index bytes 2;;
      c <- slice bytes 3 8;;
      cvr <- cvr_try_from c;;
      k <- slice bytes 8 16;;
      counters <- copy_from_slice 8 k;;
      d <- slice bytes 17 32;;
      idd <- copy_from_slice 15 d;;
      Ok (mkIad cci dki cvr counters idd)
  end.

(* src/emv/ccd/iad.rs:23-48.  [cci.iad_format_code] is the field of that name; the
   [Panic] arm is for a CCI value without it, which no declaration of the struct allows. *)
Definition iad_try_from (bytes : list N) : res iad :=
  if negb (len bytes =? 32) then Err NonCcdCompliant
  else b0 <- index bytes 0;;
       bad <- (if negb (b0 =? 0x0F) then Ok true
               else b16 <- index bytes 16;; Ok (negb (b16 =? 0x0F)));;
       if (bad : bool) then Err NonCcdCompliant
       else c <- slice_incl bytes 1 1;;
            cci <- cci_try_from c;;
            match get_field cci_schema cci "iad_format_code" with
            | Some (VFormatCode fc) => iad_parse_format fc cci bytes
            | _ => Panic
            end.

(** ** Issuer action codes *)

(* src/emv/iac/default.rs:61-69, src/emv/iac/denial.rs:55-63, src/emv/iac/online.rs:59-67 *)
Definition iac_default_try_from (raw : list N) : res (list fval) := tvr_try_from raw.
(* src/emv/iac/denial.rs:55-63: [IssuerActionCodeDenial]. *)
Definition iac_denial_try_from (raw : list N) : res (list fval) := tvr_try_from raw.
(* src/emv/iac/online.rs:59-67: [IssuerActionCodeOnline]. *)
Definition iac_online_try_from (raw : list N) : res (list fval) := tvr_try_from raw.

(* src/emv/iac/default.rs:40-59, src/emv/iac/denial.rs:34-53, src/emv/iac/online.rs:38-57 *)
Definition iac_default_default : res (list fval) :=
  expect (tvr_try_from [0xFF; 0xFF; 0xFF; 0xFF; 0xFF]).
(* src/emv/iac/denial.rs:34-53: [Default]. *)
Definition iac_denial_default : res (list fval) := expect (tvr_try_from [0; 0; 0; 0; 0]).
(* src/emv/iac/online.rs:38-57: [Default]. *)
Definition iac_online_default : res (list fval) :=
  expect (tvr_try_from [0xFF; 0xFF; 0xFF; 0xFF; 0xFF]).

(** ** Service code *)

(* src/non_emv/service_code.rs:20-28 *)
Record service_code : Type := mkServiceCode {
  sc_number : N; sc_interchange : interchange; sc_technology : technology;
  sc_auth : authorisation_processing; sc_services : allowed_services; sc_pin : pin_requirements }.

(* src/non_emv/service_code.rs:80-101; [as u8] does not truncate a digit. *)
Definition service_code_try_from_u16 (n : N) : res service_code :=
  if 999 <? n then Err InvalidNumber
  else let p1 := ((n mod 1000) / 100) mod 256 in
       let p2 := ((n mod 100) / 10) mod 256 in
       let p3 := (n mod 10) mod 256 in
       Ok (mkServiceCode n (interchange_from p1) (technology_from p1)
                         (authorisation_processing_from p2)
                         (allowed_services_from p3) (pin_requirements_from p3)).

(* src/non_emv/service_code.rs:103-119 *)
Definition service_code_try_from_bytes (raw : list N) : res service_code :=
  if negb (len raw =? 2) then Err (ByteCountIncorrect Eq 2 (len raw))
  else s <- bytes_to_str raw;;
       n <- parse_str_to_u16 s;;
       service_code_try_from_u16 n.

(** ** Enumerations read from a byte slice *)

(* src/emv/terminal_type.rs:53-69, src/emv/transaction_type.rs:31-47,
   src/emv/pos_entry_mode.rs:40-56: all three are the same function over their enum. *)
Definition enum_from_slice {A : Type} (f : N -> res A) (raw : list N) : res A :=
  if negb (len raw =? 1) then Err (ByteCountIncorrect Eq 1 (len raw))
  else b <- index raw 0;; f b.
(* src/emv/terminal_type.rs:53-69: [TerminalType]. *)
Definition terminal_type_from_slice := enum_from_slice terminal_type_try_from.
(* src/emv/transaction_type.rs:31-47: [TransactionType]. *)
Definition transaction_type_from_slice := enum_from_slice transaction_type_try_from.
(* src/emv/pos_entry_mode.rs:40-56: [PosEntryMode]. *)
Definition pos_entry_mode_from_slice := enum_from_slice pos_entry_mode_try_from.

(* A byte of a UTF-8 sequence in the given range (src/emv/authorisation_response_code.rs:101). *)
Definition in_range (lo hi b : N) : bool := (lo <=? b) && (b <=? hi).

(* std [str::from_utf8]: decoding of well-formed UTF-8 (The Unicode Standard, table 3-7)
   (src/emv/authorisation_response_code.rs:101). *)
Fixpoint utf8_decode (l : list N) : option str :=
  match l with
  | [] => Some []
  | b0 :: t =>
      if b0 <? 0x80 then option_map (cons b0) (utf8_decode t)
      else if in_range 0xC2 0xDF b0
      then match t with
           | b1 :: t1 => if in_range 0x80 0xBF b1
                         then option_map (cons ((b0 - 0xC0) * 64 + (b1 - 0x80))) (utf8_decode t1)
                         else None
           | _ => None
           end
      else if in_range 0xE0 0xEF b0
      then match t with
           | b1 :: b2 :: t2 =>
               if in_range (if b0 =? 0xE0 then 0xA0 else 0x80) (if b0 =? 0xED then 0x9F else 0xBF) b1
                  && in_range 0x80 0xBF b2
               then option_map (cons ((b0 - 0xE0) * 4096 + (b1 - 0x80) * 64 + (b2 - 0x80)))
                               (utf8_decode t2)
               else None
           | _ => None
           end
      else if in_range 0xF0 0xF4 b0
      then match t with
           | b1 :: b2 :: b3 :: t3 =>
               if in_range (if b0 =? 0xF0 then 0x90 else 0x80) (if b0 =? 0xF4 then 0x8F else 0xBF) b1
                  && in_range 0x80 0xBF b2 && in_range 0x80 0xBF b3
               then option_map (cons ((b0 - 0xF0) * 262144 + (b1 - 0x80) * 4096
                                      + (b2 - 0x80) * 64 + (b3 - 0x80)))
                               (utf8_decode t3)
               else None
           | _ => None
           end
      else None
  end.

(* src/emv/authorisation_response_code.rs:87-105 *)
Definition arc_from_slice (raw : list N) : res authorisation_response_code :=
  if negb (len raw =? 2) then Err (ByteCountIncorrect Eq 2 (len raw))
  else match utf8_decode raw with
       | Some s => authorisation_response_code_try_from s
       | None => Err InvalidNumber
       end.

(** ** Tag information *)

(* src/emv/tag_basic_info.rs:22-29 *)
Record tag_info : Type := mkTagInfo {
  ti_tag : list N; ti_name : option str; ti_class : tag_class; ti_type : data_object_type }.

(* src/emv/tag_basic_info.rs:31-53 *)
Definition tag_info_try_from (tag : list N) : res tag_info :=
  if len tag <? 1 then Err (ByteCountIncorrect Gt 1 (len tag))
  else b0 <- index tag 0;;
       meta <- parse_tag_metadata b0;;
       Ok (mkTagInfo tag (identify_tag tag) (fst meta) (snd meta)).

(** ** Displayable values *)

(* Every type with a [DisplayBreakdown] impl that is not part of a TLV block
   ([Box<dyn DisplayBreakdown>] and the values shown directly by main)
   (src/emv/tlv_parsing/mod.rs:168, src/main.rs:125-208). *)
Inductive value : Type :=
| ValTvr (v : list fval)
| ValTsi (v : list fval)
| ValTermCap (v : list fval)
| ValAddTermCap (v : list fval)
| ValCvr (v : list fval)
| ValCvmResults (v : cvm_results)
| ValCvmList (v : cvm_list)
| ValIad (v : iad)
| ValIacDefault (tvr : list fval)
| ValIacDenial (tvr : list fval)
| ValIacOnline (tvr : list fval)
| ValServiceCode (v : service_code)
| ValArc (v : authorisation_response_code)
| ValTransactionType (v : transaction_type)
| ValTerminalType (v : terminal_type)
| ValPosEntryMode (v : pos_entry_mode)
| ValTagInfo (v : tag_info).
