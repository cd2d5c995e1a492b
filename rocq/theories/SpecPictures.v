(** From raw bytes to the screen: the lines shown for given data, written down without the
    decoded values in between.  Only the tables of the EMV books, the bit diagrams and the
    line notation of SpecDisplay are used. *)

From Coq Require Import NArith List String Bool Permutation Sorting.
From Verif Require Import Base ModelUtil ModelEnums ModelBitflag ModelTlv
  SpecUtil SpecCodes SpecValues SpecTags SpecTlv SpecDisplay SpecProcess ModelMain SpecMain.
Import ListNotations.
Local Open Scope N_scope.

(* The lines at an indentation, with or without severity colours. *)
Definition picture : Type := N -> bool -> list line.

Fixpoint same_bytes (a b : list N) : bool :=
  match a, b with
  | [], [] => true
  | x :: a', y :: b' => (x =? y) && same_bytes a' b'
  | _, _ => false
  end.

(** ** Values *)

Definition allowed (t : list bit_field) (d : list N) : bool :=
  match decode_all t d with Some _ => true | None => false end.
Definition bits_picture (n : N) (t : list bit_field) (used d : list N) : option picture :=
  if (len d =? n) && allowed t d then Some (diagram n (keep_bits d used) (all_shown n t d)) else None.
(* Action codes: a sentence and the selected TVR bits, never coloured by severity. *)
Definition action_picture (sentence : string) (d : list N) : option picture :=
  option_map (fun (q : picture) i _ => heading_row i (lit sentence) :: q i false) (bits_picture 5 tvr_bits tvr_used d).
Definition code_picture {A : Type} (table : list (N * A * string)) (d : list N) : option picture :=
  match d with
  | [b] => option_map (fun r i _ => [row i [(None, lit (snd r))]]) (find_code table b)
  | _ => None
  end.
Definition response_picture (d : list N) : option picture :=
  option_map (fun r i _ => [row i [(None, lit (snd r))]]) (find (fun r => same_bytes (lit (fst (fst r))) d) arc_codes).

(* The text for the code in bits [hi] to [lo] of [b]. *)
Definition code_text (k : kind) (b hi lo : N) : str :=
  match decode k (bits_of b hi lo) with Some (_, s) => s | None => [] end.
(* Rules of a CVM list, two bytes each, numbered from [k]. *)
Fixpoint rules_picture (i k : N) (d : list N) : list line :=
  match d with
  | a :: b :: t =>
      bold_row i (lit "CVM " ++ dec k ++ lit ":")
      :: titled (i + 1) bold (lit "Method:         ") (32 :: code_text Method a 6 1)
      :: titled (i + 1) bold (lit "Condition:      ") (32 :: code_text Condition b 8 1)
      :: titled (i + 1) bold (lit "If Unsuccessful:") (if bits_of a 7 7 =? 1 then lit " Next CVM" else lit " Fail")
      :: rules_picture i (k + 1) t
  | _ => []
  end.
(* Conditions 06 to 09 compare the amount with X or Y. *)
Fixpoint mentions_amount (d : list N) : bool :=
  match d with _ :: b :: t => (6 <=? b) && (b <=? 9) || mentions_amount t | _ => false end.
Definition amounts_picture (x y i : N) : list line :=
  let w := N.max 3 (N.max (len (dec x)) (len (dec y))) in
  [titled i heading (lit "X Value:") (32 :: padded w x ++ lit " (implicit decimal point based on application currency)");
   titled i heading (lit "Y Value:") (32 :: padded w y)].
Definition cvm_list_picture (d : list N) : option picture :=
  if (8 <=? len d) && (len d mod 2 =? 0)
  then let x := be_value (firstn 4 d) in
       let y := be_value (firstn 4 (skipn 4 d)) in
       let rules := skipn 8 d in
       Some (fun i _ => (if (x =? 0) && (y =? 0) && negb (mentions_amount rules) then [] else amounts_picture x y i)
                        ++ heading_row i (lit "Cardholder Verification Rules:") :: rules_picture i 1 rules)
  else None.

(* CVM results: a rule and a result byte.  Codes the program does not know are shown as 0. *)
Definition known_bits {A : Type} (table : list (N * A * string)) (c : N) : N :=
  match find_code table c with Some _ => c | None => 0 end.
Definition rule_bits (a b : N) : list N :=
  [64 * bits_of a 7 7 + known_bits cv_method_codes (bits_of a 6 1); known_bits cvm_condition_codes b].
Definition cvm_results_picture (d : list N) : option picture :=
  match d with
  | [a; b; c] =>
      option_map (fun r => diagram 3 (rule_bits a b ++ [c])
        (map (fun x => mkRange (r_offset x + 8) (r_len x) (r_text x) (r_sev x)) (all_shown 2 cv_rule_bits [a; b])
         ++ [mkRange 7 8 (lit "Result: " ++ lit (snd r)) (if c =? 1 then SevError else SevNormal)]))
        (find_code cvm_result_codes c)
  | _ => None
  end.

(* CCD issuer application data: two halves of 0F + 15 bytes each. *)
Definition iad_picture (d : list N) : option picture :=
  let byte k := nth k d 0 in
  let cvr := firstn 5 (skipn 3 d) in
  if (len d =? 32) && (byte 0%nat =? 0x0F) && (byte 16%nat =? 0x0F) && ((byte 1%nat =? 0xA5) || (byte 1%nat =? 0xA6))
  then Some (fun i show =>
    heading_row i (lit "Common Core Identifier:") :: diagram 1 [byte 1%nat] (all_shown 1 cci_bits [byte 1%nat]) (i + 1) show
    ++ titled i heading (lit "Derivation Key Index:") (lit " 0x" ++ byte_text (byte 2%nat))
    :: heading_row i (lit "Card Verification Results:") :: diagram 5 (keep_bits cvr cvr_used) (all_shown 5 cvr_bits cvr) (i + 1) show
    ++ heading_row i (lit "Counters: (Payment System-Specific)") :: hex_dump (i + 1) (firstn 8 (skipn 8 d))
    ++ heading_row i (lit "Issuer-Discretionary Data") :: hex_dump (i + 1) (skipn 17 d))
  else None.

(* Service codes: the meanings of the digits 0 to 9 in each position. *)
Definition of_digit (l : list string) (k : N) : str := lit (nth (N.to_nat k) l EmptyString).
Definition interchange_words : list string :=
  ["RFU"; "International"; "International"; "RFU"; "RFU"; "National"; "National"; "Private"; "RFU"; "Test"]%string.
Definition technology_words : list string :=
  let msr := "Magnetic stripe only (MSR)"%string in
  let icc := "Integrated circuit card (ICC)"%string in
  [msr; msr; icc; msr; msr; msr; icc; msr; msr; msr].
Definition authorisation_words : list string :=
  ["Normal"; "RFU"; "By issuer only (no offline authorisation)"; "RFU";
   "By issuer only unless an explicit bilateral agreement applies (no offline authorisation)";
   "RFU"; "RFU"; "RFU"; "RFU"; "RFU"]%string.
Definition services_words : list string :=
  ["No restrictions"; "No restrictions"; "Goods and services only"; "ATM only"; "Cash only"; "Goods and services only";
   "No restrictions"; "Goods and services only"; "RFU"; "RFU"]%string.
Definition pin_words : list string :=
  ["PIN required"; "None"; "None"; "PIN required"; "None"; "PIN required"; "Prompt for PIN if PIN pad is present";
   "Prompt for PIN if PIN pad is present"; "None"; "None"]%string.
Definition service_picture (n : N) : picture := fun i _ =>
  let entry (arms : str) (title : string) (text : str) := row i [(None, arms ++ [32]); (bold, lit title); (None, text)] in
  [bold_row i (padded 3 n);
   entry [0x2502; 0x2502; 0x251C] "Allowed Services:"%string (lit "         " ++ of_digit services_words (n mod 10));
   entry [0x2502; 0x2502; 0x2514] "PIN Requirements:"%string (lit "         " ++ of_digit pin_words (n mod 10));
   entry [0x2502; 0x2514; 0x2500] "Authorisation Processing:"%string (lit " " ++ of_digit authorisation_words (n / 10 mod 10));
   entry [0x251C; 0x2500; 0x2500] "Interchange:"%string (lit "              " ++ of_digit interchange_words (n / 100));
   entry [0x2514; 0x2500; 0x2500] "Technology:"%string (lit "               " ++ of_digit technology_words (n / 100))].
Definition service_data_picture (d : list N) : option picture :=
  match d with
  | [a; b] => if (a <? 10) && (b / 16 <? 10) && (b mod 16 <? 10)
              then Some (service_picture (100 * a + 10 * (b / 16) + b mod 16)) else None
  | _ => None
  end.

(* The interpreted tags. *)
Definition pictures : list (list N * (list N -> option picture)) := [
  ([0x5F; 0x30], service_data_picture);
  ([0x8A], response_picture);
  ([0x8E], cvm_list_picture);
  ([0x95], bits_picture 5 tvr_bits tvr_used);
  ([0x9B], bits_picture 2 tsi_bits tsi_used);
  ([0x9C], code_picture transaction_type_codes);
  ([0x9F; 0x0D], action_picture "If not an online transaction and any of the following match the TVR, reject the transaction:");
  ([0x9F; 0x0E], action_picture "If any of the following match the TVR, deny the transaction without even going online:");
  ([0x9F; 0x0F], action_picture "If any of the following match the TVR, complete the transaction online:");
  ([0x9F; 0x10], iad_picture);
  ([0x9F; 0x33], bits_picture 3 termcap_bits termcap_used);
  ([0x9F; 0x34], cvm_results_picture);
  ([0x9F; 0x35], code_picture terminal_type_codes);
  ([0x9F; 0x39], code_picture pos_entry_mode_codes);
  ([0x9F; 0x40], bits_picture 5 addtermcap_bits addtermcap_used)].
Definition lookup {A : Type} (table : list (list N * A)) (t : list N) : option A :=
  option_map snd (find (fun r => same_bytes (fst r) t) table).
Definition picture_of (t d : list N) : option picture :=
  match lookup pictures t with Some f => f d | None => None end.

(** ** Tags *)

Definition name_of (t : list N) : str :=
  match find (fun r => same_bytes (number_tag (fst r)) t) emv_tag_names with Some (_, x) => lit x | None => lit "<Unknown>" end.
(* Tags whose data need not have a meaning, and their name in that case. *)
Definition unrecognised_names : list (list N * string) := [
  ([0x8A], "Authorisation Response Code (Unrecognised - likely payment system-specific)");
  ([0x9C], "Transaction Type (Unrecognised - likely payment system-specific)");
  ([0x9F; 0x10], "Issuer Application Data (Not CCD-Compliant)")]%string.
Definition tag_title (t : raw_tag) : str :=
  match rt_data t with
  | Masked => name_of (rt_tag t)
  | Normal d => match picture_of (rt_tag t) d, lookup unrecognised_names (rt_tag t) with
                | None, Some x => lit x
                | _, _ => name_of (rt_tag t)
                end
  end.
Definition meaning_lines (t : raw_tag) (i : N) (show : bool) : list line :=
  match rt_data t with
  | Masked => []
  | Normal d => match picture_of (rt_tag t) d with
                | Some q => heading_row i (lit "Parsed:") :: q (i + 1) show
                | None => []
                end
  end.
Definition tag_lines (t : raw_tag) (i : N) (show : bool) : list line :=
  tag_row i t (tag_title t) :: data_lines i t ++ meaning_lines t i show.
Fixpoint tree_lines (show : bool) (n : raw_node) (i : N) : list line :=
  match n with
  | RawNode t c =>
      tag_lines t i show
      ++ match c with
         | [] => []
         | _ :: _ => heading_row i (lit "Constructed Data Object's Child Tags:")
                     :: separated (map (fun n => tree_lines show n (i + 1)) c)
         end
  end.
Definition forest_lines (l : list raw_node) (i : N) (show : bool) : list line :=
  separated (map (fun n => tree_lines show n i) l).

(* The siblings of every level in tag order, those of equal tag in their old order. *)
Definition node_tag_bytes (n : raw_node) : list N := match n with RawNode t _ => rt_tag t end.
Definition node_le (a b : raw_node) : Prop :=
  dict_lt (node_tag_bytes a) (node_tag_bytes b) \/ node_tag_bytes a = node_tag_bytes b.
Definition tagged (t : list N) (l : list raw_node) : list raw_node := filter (fun n => same_bytes (node_tag_bytes n) t) l.
Inductive in_order : list raw_node -> list raw_node -> Prop :=
| in_order_intro l m l' : Permutation l m -> StronglySorted node_le m -> (forall t, tagged t m = tagged t l) ->
    each_in_order m l' -> in_order l l'
with each_in_order : list raw_node -> list raw_node -> Prop :=
| each_in_order_nil : each_in_order [] []
| each_in_order_cons t c c' m l' : in_order c c' -> each_in_order m l' ->
    each_in_order (RawNode t c :: m) (RawNode t c' :: l').

(** ** The program *)

Definition identify_picture (t : list N) : option picture :=
  match t with
  | [] => None
  | b :: _ => Some (fun i _ =>
      [titled i heading (lit "Name:") (lit "             " ++ name_of t);
       row i [(heading, lit "Tag:"); (None, lit "              0x"); (bold, flat_map byte_text t)];
       titled i heading (lit "Class:") (lit "            " ++ lit (nth (N.to_nat (b / 64)) ["Universal"; "Application"; "Context-Specific"; "Private"]%string EmptyString));
       titled i heading (lit "Data Object Type:") (lit " " ++ if N.testbit b 5 then lit "Constructed" else lit "Primitive")])
  end.
(* Operations on the bytes of a value. *)
Definition byte_operations : list (operation * (list N -> option picture)) := [
  (OpTvr, bits_picture 5 tvr_bits tvr_used);
  (OpIad, iad_picture);
  (OpCvr, bits_picture 5 cvr_bits cvr_used);
  (OpTsi, bits_picture 2 tsi_bits tsi_used);
  (OpCvmResults, cvm_results_picture);
  (OpCvmList, cvm_list_picture);
  (OpIdentify, identify_picture)].

(* The lines shown for an argument. *)
Inductive sheet (masks : list N) (sort : bool) (op : operation) (s : str) : list line -> Prop :=
| sheet_value f q : In (op, f) byte_operations -> f (hex_bytes s) = Some q -> sheet masks sort op s (q 0 true)
| sheet_service_code n : op = OpServiceCode -> denotes_number s n -> n <= 999 -> sheet masks sort op s (service_picture n 0 true)
| sheet_block f ns ns' : tlv_block masks op s f ns -> Forall (fun t => forall e, ~ tag_fails t e) (flat_map preorder ns) ->
    (if sort then in_order ns ns' else ns' = ns) -> sheet masks sort op s (format_lines f ++ forest_lines ns' 0 true).

(* The deepest indentation. *)
Definition deepest (ls : list line) : N := fold_right N.max 0 (map l_tabs ls).

(* The messages. *)
Definition message (e : parse_error) : str :=
  match e with
  | ByteCountIncorrect Eq n k => lit "The wrong number of bytes were provided for the value. Perhaps you provided the wrong value? Expected: exactly " ++ dec n ++ lit ", Found: " ++ dec k
  | ByteCountIncorrect Lt n k => lit "The wrong number of bytes were provided for the value. Perhaps you provided the wrong value? Expected: less than or equal to " ++ dec n ++ lit ", Found: " ++ dec k
  | ByteCountIncorrect Gt n k => lit "The wrong number of bytes were provided for the value. Perhaps you provided the wrong value? Expected: greater than or equal to " ++ dec n ++ lit ", Found: " ++ dec k
  | ByteCountNotDivisibleIntoComponents => lit "The number of bytes provided is not divisible into the components of the value. Please check the format of the input data."
  | InvalidBytes => lit "The bytes provided are not valid."
  | InvalidNumber => lit "The value provided is not a valid number, or is too large."
  | NonCompliant => lit "The value provided isn't compliant with the specifications in some way, or this tool is out of date. If you have reason to believe it's the latter, please make sure you're using the latest version then open an issue on GitHub."
  | NonCcdCompliant => lit "The value provided isn't compliant with the EMV Common Core Definitions (CCD) in some way. This isn't a problem necessarily, but it does mean that the value can't be parsed."
  | Unsupported => lit "The value provided is in some way unsupported. If you have genuine need for the unsupported feature, please open an issue on GitHub."
  | Unrecognised => lit "The value provided is in some way unrecognised. This isn't a problem necessarily, but it does mean that the value can't be parsed."
  end.
