(** Model of tag processing: src/emv/tlv_parsing/process_emv_tag.rs:158-251 and the processed
    half of src/emv/tlv_parsing/mod.rs:30-381. *)

From Coq Require Import NArith List String Bool.
From Verif Require Import Base ModelUtil ModelEnums ModelBitflag ModelSchemas ModelTags ModelTlv
  ModelValues.
Import ListNotations.
Local Open Scope N_scope.

(* src/emv/tlv_parsing/mod.rs:156-171 *)
Inductive ptag : Type :=
| PRaw (raw : raw_tag)
| PAnnotated (name : str) (raw : raw_tag)
| PParsed (name : str) (parsed : value) (raw : raw_tag).

(* src/emv/tlv_parsing/mod.rs:98-102 ([ProcessedEmvNode]); a [ProcessedEmvBlock]
   (src/emv/tlv_parsing/mod.rs:30-54) is its list of nodes. *)
Inductive pnode : Type := PNode (tag : ptag) (children : list pnode).

(* src/emv/tlv_parsing/mod.rs:198-204 *)
Definition get_raw_tag (t : ptag) : raw_tag :=
  match t with PRaw r => r | PAnnotated _ r => r | PParsed _ _ r => r end.

(* src/emv/tlv_parsing/mod.rs:100: [node.tag]. *)
Definition pnode_tag (n : pnode) : ptag := match n with PNode t _ => t end.
(* src/emv/tlv_parsing/mod.rs:101: [node.child_block.nodes]. *)
Definition pnode_children (n : pnode) : list pnode := match n with PNode _ c => c end.

(* src/emv/tlv_parsing/mod.rs:206-222 *)
Definition parse_raw (name : str) (raw : raw_tag) (f : list N -> res value) : res ptag :=
  match rt_data raw with
  | Normal data => v <- f data;; Ok (PParsed name v raw)
  | Masked => Ok (PAnnotated name raw)
  end.

(* src/emv/tlv_parsing/mod.rs:233-267 *)
Definition parse_raw_unrecognised (name_recognised name_unrecognised : str) (raw : raw_tag)
           (f : list N -> res value) (is_unrecognised : parse_error -> bool) : res ptag :=
  match rt_data raw with
  | Normal data => match f data with
                   | Ok v => Ok (PParsed name_recognised v raw)
                   | Err e => if is_unrecognised e then Ok (PAnnotated name_unrecognised raw)
                              else Err e
                   | Panic => Panic
                   | NoFuel => NoFuel
                   end
  | Masked => Ok (PAnnotated name_recognised raw)
  end.

(* The closures [|error| matches!(error, ParseError::...)]
   (src/emv/tlv_parsing/process_emv_tag.rs:181, 203). *)
Definition is_unrecognised_error (e : parse_error) : bool :=
  match e with Unrecognised => true | _ => false end.
(* src/emv/tlv_parsing/process_emv_tag.rs:225: the other closure. *)
Definition is_non_ccd_error (e : parse_error) : bool :=
  match e with NonCcdCompliant => true | _ => false end.

(* src/emv/tlv_parsing/process_emv_tag.rs:165-251: the arms of the [match] on the tag bytes, in order. *)
Definition process_emv_tag (raw : raw_tag) : res ptag :=
  match identify_tag (rt_tag raw) with
  | None => Ok (PRaw raw)
  | Some name =>
      let is t := leqb (rt_tag raw) t in
      if is [0x5F; 0x30] then
        parse_raw name raw (fun d => rmap ValServiceCode (service_code_try_from_bytes d))
      else if is [0x8A] then
        parse_raw_unrecognised name
          (lit "Authorisation Response Code (Unrecognised - likely payment system-specific)")
          raw (fun d => rmap ValArc (arc_from_slice d)) is_unrecognised_error
      else if is [0x8E] then
        parse_raw name raw (fun d => rmap ValCvmList (cvm_list_try_from d))
      else if is [0x95] then
        parse_raw name raw (fun d => rmap ValTvr (tvr_try_from d))
      else if is [0x9B] then
        parse_raw name raw (fun d => rmap ValTsi (tsi_try_from d))
      else if is [0x9C] then
        parse_raw_unrecognised name
          (lit "Transaction Type (Unrecognised - likely payment system-specific)")
          raw (fun d => rmap ValTransactionType (transaction_type_from_slice d))
          is_unrecognised_error
      else if is [0x9F; 0x0D] then
        parse_raw name raw (fun d => rmap ValIacDefault (iac_default_try_from d))
      else if is [0x9F; 0x0E] then
        parse_raw name raw (fun d => rmap ValIacDenial (iac_denial_try_from d))
      else if is [0x9F; 0x0F] then
        parse_raw name raw (fun d => rmap ValIacOnline (iac_online_try_from d))
      else if is [0x9F; 0x10] then
        parse_raw_unrecognised
          (lit "Issuer Application Data (CCD-Compliant)")
          (lit "Issuer Application Data (Not CCD-Compliant)")
          raw (fun d => rmap ValIad (iad_try_from d)) is_non_ccd_error
      else if is [0x9F; 0x33] then
        parse_raw name raw (fun d => rmap ValTermCap (termcap_try_from d))
      else if is [0x9F; 0x34] then
        parse_raw name raw (fun d => rmap ValCvmResults (cvm_results_try_from d))
      else if is [0x9F; 0x35] then
        parse_raw name raw (fun d => rmap ValTerminalType (terminal_type_from_slice d))
      else if is [0x9F; 0x39] then
        parse_raw name raw (fun d => rmap ValPosEntryMode (pos_entry_mode_from_slice d))
      else if is [0x9F; 0x40] then
        parse_raw name raw (fun d => rmap ValAddTermCap (addtermcap_try_from d))
      else Ok (PAnnotated name raw)
  end.

(* src/emv/tlv_parsing/mod.rs:145-154 *)
Fixpoint process_node (n : raw_node) : res pnode :=
  match n with
  | RawNode t children =>
      pt <- process_emv_tag t;;
      cs <- mapM process_node children;;
      Ok (PNode pt cs)
  end.

(* src/emv/tlv_parsing/mod.rs:85-96 *)
Definition process_block (l : list raw_node) : res (list pnode) := mapM process_node l.

(** ** Sorting *)

(* [Ord for Vec<u8>]: lexicographic (src/emv/tlv_parsing/mod.rs:428). *)
Fixpoint lex_cmp (a b : list N) : comparison :=
  match a, b with
  | [], [] => Eq
  | [], _ :: _ => Lt
  | _ :: _, [] => Gt
  | x :: a', y :: b' => match N.compare x y with
                        | Eq => lex_cmp a' b'
                        | c => c
                        end
  end.

(* src/emv/tlv_parsing/mod.rs:425-430 *)
Definition raw_tag_cmp (a b : raw_tag) : comparison := lex_cmp (rt_tag a) (rt_tag b).

(* src/emv/tlv_parsing/mod.rs:104-109 through 182-187 *)
Definition pnode_cmp (a b : pnode) : comparison :=
  raw_tag_cmp (get_raw_tag (pnode_tag a)) (get_raw_tag (pnode_tag b)).

(* [slice::sort] is documented as a stable sort; modelled by stable insertion
   (src/emv/tlv_parsing/mod.rs:58). *)
Fixpoint insert_node (n : pnode) (l : list pnode) : list pnode :=
  match l with
  | [] => [n]
  | x :: t => match pnode_cmp n x with
              | Gt => x :: insert_node n t
              | _ => n :: l
              end
  end.
(* src/emv/tlv_parsing/mod.rs:58: [self.nodes.sort()]. *)
Definition stable_sort (l : list pnode) : list pnode := fold_right insert_node [] l.

(* Nesting depth of a block: fuel for the recursion of [sort_nodes]
   (src/emv/tlv_parsing/mod.rs:57-62). *)
Fixpoint pnode_depth (n : pnode) : nat :=
  match n with PNode _ c => S (fold_right (fun x m => Nat.max (pnode_depth x) m) O c) end.
(* src/emv/tlv_parsing/mod.rs:57-62: the same for a block. *)
Definition block_depth (l : list pnode) : nat :=
  fold_right (fun x m => Nat.max (pnode_depth x) m) O l.

(* src/emv/tlv_parsing/mod.rs:57-62: sort the nodes, then each child block. *)
Fixpoint sort_nodes_fuel (fuel : nat) (l : list pnode) : list pnode :=
  match fuel with
  | O => l
  | S f => map (fun n => PNode (pnode_tag n) (sort_nodes_fuel f (pnode_children n))) (stable_sort l)
  end.
(* src/emv/tlv_parsing/mod.rs:57-62: [sort_nodes]. *)
Definition sort_nodes (l : list pnode) : list pnode := sort_nodes_fuel (block_depth l) l.

(** ** Equality *)

(* Derived [PartialEq] of [TagClass] (src/emv/tlv_parsing/mod.rs:466-473), [DataObjectType]
   (src/emv/tlv_parsing/mod.rs:476-480), [EmvData] (src/emv/tlv_parsing/mod.rs:494-498) and
   [RawEmvTag] (src/emv/tlv_parsing/mod.rs:416-423): field by
   field. *)
Definition tag_class_eqb (a b : tag_class) : bool :=
  match a, b with
  | TagClass_Universal, TagClass_Universal | TagClass_Application, TagClass_Application
  | TagClass_ContextSpecific, TagClass_ContextSpecific | TagClass_Private, TagClass_Private => true
  | _, _ => false
  end.
(* src/emv/tlv_parsing/mod.rs:476-480: derived [PartialEq]. *)
Definition data_object_type_eqb (a b : data_object_type) : bool :=
  match a, b with
  | Primitive, Primitive | Constructed, Constructed => true
  | _, _ => false
  end.
(* src/emv/tlv_parsing/mod.rs:494-498: derived [PartialEq]. *)
Definition emv_data_eqb (a b : emv_data) : bool :=
  match a, b with
  | Normal x, Normal y => leqb x y
  | Masked, Masked => true
  | _, _ => false
  end.
(* src/emv/tlv_parsing/mod.rs:417-423: derived [PartialEq]. *)
Definition raw_tag_eqb (a b : raw_tag) : bool :=
  leqb (rt_tag a) (rt_tag b) && tag_class_eqb (rt_class a) (rt_class b)
  && data_object_type_eqb (rt_type a) (rt_type b) && emv_data_eqb (rt_data a) (rt_data b).

(* src/emv/tlv_parsing/mod.rs:173-178: only the raw tags are compared. *)
Definition ptag_eqb (a b : ptag) : bool := raw_tag_eqb (get_raw_tag a) (get_raw_tag b).

(* Derived [PartialEq] of [ProcessedEmvNode] (src/emv/tlv_parsing/mod.rs:98) and
   [ProcessedEmvBlock] (src/emv/tlv_parsing/mod.rs:31). *)
Fixpoint pnode_eqb (a b : pnode) : bool :=
  match a, b with
  | PNode ta ca, PNode tb cb =>
      ptag_eqb ta tb
      && (fix go (l m : list pnode) : bool :=
            match l, m with
            | [], [] => true
            | x :: l', y :: m' => pnode_eqb x y && go l' m'
            | _, _ => false
            end) ca cb
  end.
(* src/emv/tlv_parsing/mod.rs:31-34: derived [PartialEq]. *)
Fixpoint block_eqb (l m : list pnode) : bool :=
  match l, m with
  | [], [] => true
  | x :: l', y :: m' => pnode_eqb x y && block_eqb l' m'
  | _, _ => false
  end.
