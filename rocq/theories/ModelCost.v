(** The parsers of ModelTlv with a count of their work: how many bytes (characters) of the
    data the main loop passes over, in all the nested calls together, and how deep the calls
    are nested.  Passing over an object means looking at its tag and length, comparing its
    value with the masking characters and copying it.  PropertiesCost proves that forgetting
    the counts gives the functions of ModelTlv. *)

From Coq Require Import NArith List String Bool.
From Verif Require Import Base ModelUtil ModelEnums ModelTlv.
Import ListNotations.
Local Open Scope N_scope.

(* Work and depth (src/emv/tlv_parsing/ber_tlv.rs:13-85). *)
Definition cost : Type := N * N.
(* A nested call next to more work of the same call (src/emv/tlv_parsing/ber_tlv.rs:71, 115). *)
Definition nested (own : N) (child rest : cost) : cost := (own + fst child + fst rest, N.max (1 + snd child) (snd rest)).

(* src/emv/tlv_parsing/ber_tlv.rs:18-70: the object at [i] without its children: class and
   type, the index of the last tag byte, the value and the index after it. *)
Definition ber_head (p : platform) (masks : list N) (bytes : list N) (i : N)
  : res ((tag_class * data_object_type) * N * emv_data * N) :=
  t0 <- index bytes i;;
  meta <- parse_tag_metadata t0;;
  tag_end <- ber_tag_loop (List.length bytes) p bytes (N.land 0x1F t0 =? 0x1F) i;;
  li <- uadd p tag_end 1;;
  if len bytes <=? li then Err NonCompliant
  else l <- ber_length p bytes li;;
       let '(length, di) := l in
       de <- uadd p di length;;
       lim <- uadd p (len bytes) 1;;
       if lim <=? de then Err NonCompliant
       else de2 <- uadd p di length;;
            data <- slice bytes di de2;;
            Ok (meta, tag_end, from_u8_check_for_masked data masks, de).

(* src/emv/tlv_parsing/ber_tlv.rs:17-85 and 107-119: [ber_loop], counting.  After an error
   the rest of the data counts as passed over. *)
Fixpoint ber_run (fuel : nat) (p : platform) (masks : list N) (bytes : list N) (i : N)
         (nodes : list raw_node) : res (list raw_node) * cost :=
  match fuel with
  | O => (NoFuel, (0, 1))
  | S f =>
      if i <? len bytes
      then match ber_head p masks bytes i with
           | Ok (meta, tag_end, tag_data, i') =>
               let child := match snd meta, tag_data with
                            | Constructed, Normal d => snd (ber_run f p masks d 0 [])
                            | _, _ => (0, 0)
                            end in
               match c <- get_child_block (fun d => fst (ber_run f p masks d 0 [])) (snd meta) tag_data;;
                     tag <- slice_incl bytes i tag_end;;
                     Ok (RawNode (mkRawTag tag (fst meta) (snd meta) tag_data) c) with
               | Ok n => let r := ber_run f p masks bytes i' (nodes ++ [n]) in
                         (fst r, nested (i' - i) child (snd r))
               | Err e => (Err e, nested (len bytes - i) child (0, 1))
               | Panic => (Panic, nested (len bytes - i) child (0, 1))
               | NoFuel => (NoFuel, nested (len bytes - i) child (0, 1))
               end
           | Err e => (Err e, (len bytes - i, 1))
           | Panic => (Panic, (len bytes - i, 1))
           | NoFuel => (NoFuel, (len bytes - i, 1))
           end
      else (Ok nodes, (0, 1))
  end.

(* src/emv/tlv_parsing/ber_tlv.rs:13-85 *)
Definition ber_parse_run (p : platform) (masks bytes : list N) : res (list raw_node) * cost :=
  ber_run (S (List.length bytes)) p masks bytes 0 [].

(* src/emv/tlv_parsing/ingenico_tlv.rs:40-116: the entry at [i]: its letter, its tag, class
   and type, its data and the index after it. *)
Definition ingenico_head (p : platform) (masks : list N) (data : str) (i : N)
  : res (N * list N * (tag_class * data_object_type) * emv_data * N) :=
  tag_type <- index data i;;
  i <- uadd p i 1;;
  if len data <=? i then Err NonCompliant
  else colon <- find_colon p data i;;
       tag_id_str <- str_slice data i colon;;
       tag_id0 <- map_err (parse_hex_str_strict tag_id_str) NonCompliant;;
       let tag_id := trim_leading_0_bytes tag_id0 in
       i <- uadd p colon 1;;
       if (len data <=? i) || (len tag_id =? 0) then Err NonCompliant
       else t0 <- index tag_id 0;;
            meta <- parse_tag_metadata t0;;
            colon <- find_colon p data i;;
            length_str <- str_slice data i colon;;
            length_bytes <- map_err (parse_hex_str_strict length_str) NonCompliant;;
            if 4 <? len length_bytes then Err Unsupported
            else length <- byte_slice_to_u32 length_bytes;;
                 let length := length mod usize_limit p in
                 i <- uadd p colon 1;;
                 if len data <=? i then Err NonCompliant
                 else d <- ingenico_data p masks data length i;;
                      let '(tag_data, i) := d in
                      i <- uadd p i 1;;
                      Ok (tag_type, tag_id, meta, tag_data, i).

(* src/emv/tlv_parsing/ingenico_tlv.rs:38-138: [ingenico_loop], counting. *)
Fixpoint ingenico_run (fuel : nat) (p : platform) (masks : list N) (data : str) (i : N)
         (nodes : list raw_node) : res (list raw_node) * cost :=
  match fuel with
  | O => (NoFuel, (0, 1))
  | S f =>
      if i <? len data
      then match ingenico_head p masks data i with
           | Ok (tag_type, tag_id, meta, tag_data, i') =>
               if negb (tag_type =? tag_type_emv)
               then let r := ingenico_run f p masks data i' nodes in (fst r, nested (i' - i) (0, 0) (snd r))
               else let child := match snd meta, tag_data with
                                 | Constructed, Normal d => snd (ber_parse_run p masks d)
                                 | _, _ => (0, 0)
                                 end in
                    match get_child_block (fun d => fst (ber_parse_run p masks d)) (snd meta) tag_data with
                    | Ok c => let r := ingenico_run f p masks data i'
                                         (nodes ++ [RawNode (mkRawTag tag_id (fst meta) (snd meta) tag_data) c]) in
                              (fst r, nested (i' - i) child (snd r))
                    | Err e => (Err e, nested (len data - i) child (0, 1))
                    | Panic => (Panic, nested (len data - i) child (0, 1))
                    | NoFuel => (NoFuel, nested (len data - i) child (0, 1))
                    end
           | Err e => (Err e, (len data - i, 1))
           | Panic => (Panic, (len data - i, 1))
           | NoFuel => (NoFuel, (len data - i, 1))
           end
      else (Ok nodes, (0, 1))
  end.

(* src/emv/tlv_parsing/ingenico_tlv.rs:28-139; the check for ASCII passes over everything
   once. *)
Definition ingenico_parse_run (p : platform) (masks : list N) (data : str) : res (list raw_node) * cost :=
  if negb (is_ascii data) then (Err NonCompliant, (0, 1))
  else ingenico_run (S (List.length data)) p masks data 0 [].
