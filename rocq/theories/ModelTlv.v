(** Model of the TLV parsers: src/emv/tlv_parsing/{mod,ber_tlv,ingenico_tlv,auto_tlv}.rs. *)

From Coq Require Import NArith List String Bool.
From Verif Require Import Base ModelUtil ModelEnums.
Import ListNotations.
Local Open Scope N_scope.

(* src/emv/tlv_parsing/mod.rs:476-480 *)
Inductive data_object_type : Type := Primitive | Constructed.

(* src/emv/tlv_parsing/mod.rs:482-490 ([Display]) *)
Definition data_object_type_text (t : data_object_type) : str :=
  match t with Primitive => lit "Primitive" | Constructed => lit "Constructed" end.

(* src/emv/tlv_parsing/mod.rs:494-498 *)
Inductive emv_data : Type := Normal (data : list N) | Masked.

(* src/emv/tlv_parsing/mod.rs:417-423 *)
Record raw_tag : Type := mkRawTag {
  rt_tag : list N; rt_class : tag_class; rt_type : data_object_type; rt_data : emv_data }.

(* src/emv/tlv_parsing/mod.rs:408-412 ([RawEmvNode]); a [RawEmvBlock]
   (src/emv/tlv_parsing/mod.rs:383-406) is its list of nodes. *)
Inductive raw_node : Type := RawNode (tag : raw_tag) (children : list raw_node).

(* src/emv/tlv_parsing/mod.rs:549-553, Display 555-563 *)
Inductive tlv_format : Type := BerTlv | Ingenico.
(* src/emv/tlv_parsing/mod.rs:555-563: [Display for TlvFormat]. *)
Definition tlv_format_text (f : tlv_format) : str :=
  match f with BerTlv => lit "BER-TLV" | Ingenico => lit "Ingenico" end.

(** ** Masking *)

(* src/emv/tlv_parsing/mod.rs:519 *)
Definition masking_char_minimum : N := 2.

(* src/emv/tlv_parsing/mod.rs:521-533; [byte as char] is the scalar with that value. *)
Definition is_masked_u8 (data : list N) (masks : list N) : bool :=
  if len data <? masking_char_minimum then false
  else existsb (fun m => forallb (fun b => b =? m) data) masks.

(* src/emv/tlv_parsing/mod.rs:535-547 *)
Definition is_masked_str (data : str) (masks : list N) : bool :=
  if str_len data <? masking_char_minimum then false
  else existsb (fun m => forallb (fun c => c =? m) data) masks.

(* src/emv/tlv_parsing/mod.rs:510-516 *)
Definition from_u8_check_for_masked (data : list N) (masks : list N) : emv_data :=
  if is_masked_u8 data masks then Masked else Normal data.

(** ** BER-TLV *)

(* src/emv/tlv_parsing/ber_tlv.rs:89-101; the [expect] is a potential panic. *)
Definition parse_tag_metadata (b : N) : res (tag_class * data_object_type) :=
  class <- expect (tag_class_try_from (N.shiftr (N.land 0xC0 b) 6));;
  Ok (class, if 0 <? N.land 0x20 b then Constructed else Primitive).

(* src/emv/tlv_parsing/ber_tlv.rs:107-119; [parse] is the recursive call,
   [unwrap_or_default] turns an error into the empty block. *)
Definition get_child_block (parse : list N -> res (list raw_node))
           (t : data_object_type) (d : emv_data) : res (list raw_node) :=
  match t, d with
  | Primitive, _ => Ok []
  | Constructed, Normal data => match parse data with
                                | Err _ => Ok []
                                | r => r
                                end
  | Constructed, Masked => Ok []
  end.

(* src/emv/tlv_parsing/ber_tlv.rs:25-33: the loop over the continuation bytes of the tag;
   returns the index of the last tag byte. *)
Fixpoint ber_tag_loop (fuel : nat) (p : platform) (bytes : list N) (continues : bool) (i : N)
  : res N :=
  if continues
  then match fuel with
       | O => NoFuel
       | S f => i <- uadd p i 1;;
                if len bytes <=? i then Err NonCompliant
                else b <- index bytes i;;
                     ber_tag_loop f p bytes (0 <? N.land 0x80 b) i
       end
  else Ok i.

(* src/emv/tlv_parsing/ber_tlv.rs:41-60: the length field starting at [i]; returns the
   length and the index after the field.  [as usize] of a u32 truncates only for a
   usize narrower than 32 bits, which [mod] reflects. *)
Definition ber_length (p : platform) (bytes : list N) (i : N) : res (N * N) :=
  l0 <- index bytes i;;
  if 0 <? N.land 0x80 l0
  then let count := N.land 0x7F l0 in
       if 4 <? count then Err Unsupported
       else k <- uadd p 1 count;;
            i' <- uadd p i k;;
            if len bytes <=? i' then Err NonCompliant
            else a <- uadd p i 1;;
                 b <- uadd p i count;;
                 s <- slice_incl bytes a b;;
                 v <- byte_slice_to_u32 s;;
                 Ok (v mod usize_limit p, i')
  else i' <- uadd p i 1;; Ok (l0, i').

(* src/emv/tlv_parsing/ber_tlv.rs:17-85: the main loop, with [i] the current index and
   [nodes] the nodes pushed so far.  The recursive call of [get_child_block] restarts
   the loop on the value. *)
Fixpoint ber_loop (fuel : nat) (p : platform) (masks : list N) (bytes : list N) (i : N)
         (nodes : list raw_node) : res (list raw_node) :=
  match fuel with
  | O => NoFuel
  | S f =>
      if i <? len bytes
      then t0 <- index bytes i;;
           meta <- parse_tag_metadata t0;;
           tag_end <- ber_tag_loop (List.length bytes) p bytes (N.land 0x1F t0 =? 0x1F) i;;
           li <- uadd p tag_end 1;;
           if len bytes <=? li then Err NonCompliant
           else l <- ber_length p bytes li;;
                let '(length, di) := l in
                de <- uadd p di length;;
                lim <- uadd p (len bytes) 1;;
                if lim <=? de then Err NonCompliant
                else de2 <- uadd p di length;;
                     data <- slice bytes di de2;;
                     let tag_data := from_u8_check_for_masked data masks in
                     child <- get_child_block (fun d => ber_loop f p masks d 0 [])
                                              (snd meta) tag_data;;
                     tag <- slice_incl bytes i tag_end;;
                     i' <- uadd p di length;;
                     ber_loop f p masks bytes i'
                              (nodes ++ [RawNode (mkRawTag tag (fst meta) (snd meta) tag_data) child])
      else Ok nodes
  end.

(* src/emv/tlv_parsing/ber_tlv.rs:13-85 *)
Definition ber_parse (p : platform) (masks : list N) (bytes : list N) : res (list raw_node) :=
  ber_loop (S (List.length bytes)) p masks bytes 0 [].

(** ** Ingenico TLV *)

(* src/emv/tlv_parsing/ingenico_tlv.rs:18-21 *)
Definition tag_field_separator : N := 58. (* ':' *)
(* src/emv/tlv_parsing/ingenico_tlv.rs:19: [DATA_FORMAT_ASCII]. *)
Definition data_format_ascii : N := 97. (* 'a' *)
(* src/emv/tlv_parsing/ingenico_tlv.rs:20: [DATA_FORMAT_HEX]. *)
Definition data_format_hex : N := 104. (* 'h' *)
(* src/emv/tlv_parsing/ingenico_tlv.rs:21: [TAG_TYPE_EMV]. *)
Definition tag_type_emv : N := 84. (* 'T' *)

(* src/emv/tlv_parsing/ingenico_tlv.rs:47-50 (and 62-65): position of the next ':'. *)
Definition find_colon (p : platform) (data : str) (i : N) : res N :=
  rest <- str_slice_from data i;;
  match str_find rest tag_field_separator with
  | Some k => uadd p i k
  | None => Err NonCompliant
  end.

(* src/emv/tlv_parsing/ingenico_tlv.rs:82-116: the data after the format letter at [i];
   returns the data and the index after it. *)
Definition ingenico_data (p : platform) (masks : list N) (data : str) (length i : N)
  : res (emv_data * N) :=
  format <- index data i;;
  if format =? data_format_ascii
  then i <- uadd p i 1;;
       e <- uadd p i length;;
       if len data <? e then Err NonCompliant
       else e2 <- uadd p i length;;
            s <- str_slice data i e2;;
            i' <- uadd p i length;;
            Ok (if is_masked_str s masks then Masked else Normal (utf8 s), i')
  else if format =? data_format_hex
  then char_length <- umul p length 2;;
       i <- uadd p i 1;;
       e <- uadd p i char_length;;
       if len data <? e then Err NonCompliant
       else e2 <- uadd p i char_length;;
            s <- str_slice data i e2;;
            i' <- uadd p i char_length;;
            if is_masked_str s masks then Ok (Masked, i')
            else b <- map_err (parse_hex_str_strict s) NonCompliant;; Ok (Normal b, i')
  else Err NonCompliant.

(* src/emv/tlv_parsing/ingenico_tlv.rs:38-138: the main loop.  [data_chars] of the source
   is [data] itself here (a string is its list of characters). *)
Fixpoint ingenico_loop (fuel : nat) (p : platform) (masks : list N) (data : str) (i : N)
         (nodes : list raw_node) : res (list raw_node) :=
  match fuel with
  | O => NoFuel
  | S f =>
      if i <? len data
      then tag_type <- index data i;;
           i <- uadd p i 1;;
           if len data <=? i then Err NonCompliant
           else colon <- find_colon p data i;;
                tag_id_str <- str_slice data i colon;;
                tag_id0 <- map_err (parse_hex_str_strict tag_id_str) NonCompliant;;
                let tag_id := trim_leading_0_bytes tag_id0 in
                i <- uadd p colon 1;;
                if (len data <=? i) || (len tag_id =? 0) then Err NonCompliant
                else t0 <- index tag_id 0;;
                     meta <- parse_tag_metadata t0;;
                     colon <- find_colon p data i;;
                     length_str <- str_slice data i colon;;
                     length_bytes <- map_err (parse_hex_str_strict length_str) NonCompliant;;
                     if 4 <? len length_bytes then Err Unsupported
                     else length <- byte_slice_to_u32 length_bytes;;
                          let length := length mod usize_limit p in
                          i <- uadd p colon 1;;
                          if len data <=? i then Err NonCompliant
                          else d <- ingenico_data p masks data length i;;
                               let '(tag_data, i) := d in
                               i <- uadd p i 1;;
                               if negb (tag_type =? tag_type_emv)
                               then ingenico_loop f p masks data i nodes
                               else child <- get_child_block (ber_parse p masks) (snd meta) tag_data;;
                                    ingenico_loop f p masks data i
                                      (nodes ++ [RawNode (mkRawTag tag_id (fst meta) (snd meta) tag_data) child])
      else Ok nodes
  end.

(* src/emv/tlv_parsing/ingenico_tlv.rs:28-139 *)
Definition ingenico_parse (p : platform) (masks : list N) (data : str) : res (list raw_node) :=
  if negb (is_ascii data) then Err NonCompliant
  else ingenico_loop (S (List.length data)) p masks data 0 [].

(** ** Automatic detection *)

(* src/emv/tlv_parsing/auto_tlv.rs:16-39: [if let Ok(..)] swallows errors, not panics. *)
Definition auto_parse (p : platform) (masks : list N) (s : str)
  : res (tlv_format * list raw_node) :=
  match s with
  | [] => Err Unrecognised
  | _ :: _ =>
      match ingenico_parse p masks s with
      | Ok b => Ok (Ingenico, b)
      | Panic => Panic
      | NoFuel => NoFuel
      | Err _ => match ber_parse p masks (parse_hex_str s) with
                 | Ok b => Ok (BerTlv, b)
                 | Panic => Panic
                 | NoFuel => NoFuel
                 | Err _ => Err Unrecognised
                 end
      end
  end.
