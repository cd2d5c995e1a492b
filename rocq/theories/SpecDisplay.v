(** What the screen shows: styled lines, bit diagrams in terms of columns, and the lines of
    every value and block. *)

From Coq Require Import NArith List String Bool.
From Verif Require Import Base ModelUtil ModelEnums ModelBitflag ModelSchemas ModelTags ModelTlv ModelValues ModelProcess ModelDisplay
  SpecUtil SpecCodes SpecValues.
Import ListNotations.
Local Open Scope N_scope.

(** ** The screen *)

(* Style of a character: none, or what the last [set_color] asked for. *)
Definition style := option color_spec.
Definition bold : style := Some (mkSpec true None).
Definition heading : style := Some (mkSpec true (Some Cyan)).

Definition ink (st : style) (s : str) : list (style * N) := map (pair st) s.

(* The characters on the screen with their styles, starting in style [st]. *)
Fixpoint screen (st : style) (l : list event) : list (style * N) :=
  match l with
  | [] => []
  | Txt s :: t => ink st s ++ screen st t
  | SetColor c :: t => screen (Some c) t
  | ResetColor :: t => screen None t
  end.
(* The style in force at the end. *)
Fixpoint style_after (st : style) (l : list event) : style :=
  match l with
  | [] => st
  | Txt _ :: t => style_after st t
  | SetColor c :: t => style_after (Some c) t
  | ResetColor :: t => style_after None t
  end.
(* The text alone. *)
Definition text_of (l : list event) : str := map snd (screen None l).

(* A line: tabs, pieces of styled text, and the style of the line end. *)
Record line : Type := mkLine { l_tabs : N; l_spans : list (style * str); l_end : style }.
Definition row (i : N) (spans : list (style * str)) : line := mkLine i spans None.
Definition heading_row (i : N) (s : str) : line := mkLine i [(heading, s)] heading.
Definition bold_row (i : N) (s : str) : line := mkLine i [(bold, s)] bold.
Definition blank : line := mkLine 0 [] None.

(* The indentation is a u8: without overflow checks it wraps. *)
Definition render_line (l : line) : list (style * N) :=
  ink None (repeat 9 (N.to_nat (l_tabs l mod 256)))
  ++ flat_map (fun sp => ink (fst sp) (snd sp)) (l_spans l) ++ [(l_end l, 10)].
Definition render (ls : list line) : list (style * N) := flat_map render_line ls.

(* The text of a line without its end. *)
Definition line_text (l : line) : str := repeat 9 (N.to_nat (l_tabs l mod 256)) ++ flat_map snd (l_spans l).

(* The display runs to its end, shows exactly these lines, and leaves the style reset. *)
Definition shows_lines (d : disp) (ls : list line) : Prop :=
  dead d = false /\ screen None (evs d) = render ls /\ style_after None (evs d) = None.

(* Only printable ASCII and five box drawing characters. *)
Definition visible (s : str) : Prop :=
  Forall (fun c => 32 <= c /\ c <= 126 \/ c = 0x2500 \/ c = 0x2502 \/ c = 0x2514 \/ c = 0x2518 \/ c = 0x251C) s.

(** ** Bit diagrams *)

(* Column of bit [o] (counted from the right) of an [n]-byte value: bits from left to
   right with one blank after every eight. *)
Definition column (n o : N) : N := (8 * n - 1 - o) + (8 * n - 1 - o) / 8.

(* A line of a diagram showing [f o] in the column of each of the [k] leftmost bits o. *)
Definition draw (n k : N) (f : N -> N) : str :=
  map (fun c => let c := N.of_nat c in if c mod 9 =? 8 then 32 else f (8 * n - 1 - (c - c / 9)))
      (seq 0 (N.to_nat (k + (k - 1) / 8))).

Definition bit_char (raw : list N) (o : N) : N := if N.testbit (be_value raw) o then 49 else 48.

(* Lowest bit of a range. *)
Definition low_bit (r : bit_range) : N := r_offset r + 1 - r_len r.
Definition covers (o : N) (r : bit_range) : bool := (low_bit r <=? o) && (o <=? r_offset r).
Definition starts (o : N) (r : bit_range) : bool := o =? r_offset r.

(* Arms above the explanations: a bar over a single bit, brackets over the others. *)
Definition arm_char (ranges : list bit_range) (o : N) : N :=
  match find (covers o) ranges with
  | None => 32
  | Some r => if r_len r =? 1 then 0x2502
              else if o =? r_offset r then 0x251C
              else if o =? low_bit r then 0x2518
              else 0x2500
  end.
(* The elbow of the explained range and bars under those still to be explained. *)
Definition elbow_char (ranges : list bit_range) (r : bit_range) (o : N) : N :=
  if o =? r_offset r then 0x2514 else if existsb (starts o) ranges then 0x2502 else 32.

Definition severity_style (show : bool) (s : severity) : style :=
  Some (mkSpec false (match show, s with
                      | true, SevWarning => Some Yellow
                      | true, SevError => Some Red
                      | _, _ => None
                      end)).

Definition last_low (ranges : list bit_range) : N := match rev ranges with [] => 0 | r :: _ => low_bit r end.
Definition diagram (n : N) (raw : list N) (ranges : list bit_range) (i : N) (show : bool) : list line :=
  bold_row i (draw n (8 * n) (bit_char raw))
  :: (if existsb (fun r => 1 <? r_len r) ranges
      then [row i [(None, draw n (8 * n - last_low ranges) (arm_char ranges))]] else [])
  ++ map (fun r => mkLine i [(None, draw n (8 * n - r_offset r) (elbow_char ranges r) ++ [32]);
                             (severity_style show (r_sev r), r_text r)] (severity_style show (r_sev r)))
         (rev ranges).

(* Each range lies inside one byte. *)
Definition in_one_byte (r : bit_range) : Prop := r_len r <= r_offset r mod 8 + 1.

(** ** Hex dumps *)

Fixpoint spaced (l : list (list N)) : str :=
  match l with [] => [] | [x] => x | x :: t => x ++ 32 :: spaced t end.
Definition byte_text (b : N) : str := [hex_char (b / 16); hex_char (b mod 16)].
Definition hex_dump (i : N) (bytes : list N) : list line :=
  map (fun l => row i [(None, spaced (map byte_text l))]) (chunks 16 bytes).
Definition readable (b : N) : N := if (32 <=? b) && (b <=? 126) then b else 46.
Definition pad_right (n : N) (s : str) : str := s ++ repeat 32 (N.to_nat n - List.length s).
Definition wide_dump (i : N) (bytes : list N) : list line :=
  map (fun l => row i [(None, pad_right 49 (spaced (map byte_text l)) ++ map readable l)]) (chunks 16 bytes).

(** ** Values *)

Definition titled (i : N) (st : style) (title text : str) : line := row i [(st, title); (None, text)].

Definition rule_lines (i k : N) (rule : list fval) : list line :=
  [bold_row i (lit "CVM " ++ dec k ++ lit ":");
   titled (i + 1) bold (lit "Method:         ") (32 :: rule_field_text rule "method");
   titled (i + 1) bold (lit "Condition:      ") (32 :: rule_field_text rule "condition");
   titled (i + 1) bold (lit "If Unsuccessful:")
          (match get_field cv_rule_schema rule "continue_if_unsuccessful" with
           | Some (VBool true) => lit " Next CVM"
           | _ => lit " Fail"
           end)].
Fixpoint numbered_rules (i k : N) (rules : list (list fval)) : list line :=
  match rules with [] => [] | r :: t => rule_lines i k r ++ numbered_rules i (k + 1) t end.
(* Decimal number of at least [w] digits. *)
Definition padded (w n : N) : str := repeat 48 (N.to_nat w - List.length (dec n)) ++ dec n.
(* The condition of the rule compares the amount with X or Y. *)
Definition compares_amount (rule : list fval) : bool :=
  match get_field cv_rule_schema rule "condition" with
  | Some (VCvmCondition (Some CvmCondition_InApplicationCurrencyUnderX)) | Some (VCvmCondition (Some CvmCondition_InApplicationCurrencyOverX))
  | Some (VCvmCondition (Some CvmCondition_InApplicationCurrencyUnderY)) | Some (VCvmCondition (Some CvmCondition_InApplicationCurrencyOverY)) => true
  | _ => false
  end.
Definition cvm_list_lines (v : cvm_list) (i : N) : list line :=
  (if negb (cl_x v =? 0) || negb (cl_y v =? 0) || existsb compares_amount (cl_rules v)
   then let w := N.max 3 (N.max (len (dec (cl_x v))) (len (dec (cl_y v)))) in
        [titled i heading (lit "X Value:") (32 :: padded w (cl_x v) ++ lit " (implicit decimal point based on application currency)");
         titled i heading (lit "Y Value:") (32 :: padded w (cl_y v))]
   else [])
  ++ heading_row i (lit "Cardholder Verification Rules:") :: numbered_rules i 1 (cl_rules v).

Definition cvm_result_ranges (v : cvm_results) : list bit_range :=
  map (fun x => mkRange (r_offset x + 8) (r_len x) (r_text x) (r_sev x)) (bf_ranges cv_rule_schema (cr_rule v))
  ++ [mkRange 7 8 (lit "Result: " ++ cvm_result_text (cr_result v))
              (match cr_result v with CvmResult_Failed => SevError | _ => SevNormal end)].

Definition bits_diagram (n : N) (sch : schema) (x : list fval) : N -> bool -> list line :=
  diagram n (bf_repr sch x) (bf_ranges sch x).

Definition iad_lines (v : iad) (i : N) (show : bool) : list line :=
  heading_row i (lit "Common Core Identifier:") :: bits_diagram 1 cci_schema (iad_cci v) (i + 1) show
  ++ titled i heading (lit "Derivation Key Index:") (lit " 0x" ++ byte_text (iad_dki v))
  :: heading_row i (lit "Card Verification Results:") :: bits_diagram 5 cvr_schema (iad_cvr v) (i + 1) show
  ++ heading_row i (lit "Counters: (Payment System-Specific)") :: hex_dump (i + 1) (iad_counters v)
  ++ heading_row i (lit "Issuer-Discretionary Data") :: hex_dump (i + 1) (iad_discretionary v).

Definition iac_lines (intro : string) (tvr : list fval) (i : N) : list line :=
  heading_row i (lit intro) :: bits_diagram 5 tvr_schema tvr i false.

(* Three digits with a line from each digit to its meanings. *)
Definition service_code_lines (v : service_code) (i : N) : list line :=
  let entry (arms : str) (title : string) (text : str) := row i [(None, arms ++ [32]); (bold, lit title); (None, text)] in
  [bold_row i (padded 3 (sc_number v));
   entry [0x2502; 0x2502; 0x251C] "Allowed Services:"%string (lit "         " ++ allowed_services_text (sc_services v));
   entry [0x2502; 0x2502; 0x2514] "PIN Requirements:"%string (lit "         " ++ pin_requirements_text (sc_pin v));
   entry [0x2502; 0x2514; 0x2500] "Authorisation Processing:"%string (lit " " ++ authorisation_processing_text (sc_auth v));
   entry [0x251C; 0x2500; 0x2500] "Interchange:"%string (lit "              " ++ interchange_text (sc_interchange v));
   entry [0x2514; 0x2500; 0x2500] "Technology:"%string (lit "               " ++ technology_text (sc_technology v))].

Definition shown_name (o : option str) : str := match o with Some s => s | None => lit "<Unknown>" end.
Definition class_word (c : tag_class) : str :=
  match c with
  | TagClass_Universal => lit "Universal"
  | TagClass_Application => lit "Application"
  | TagClass_ContextSpecific => lit "Context-Specific"
  | TagClass_Private => lit "Private"
  end.
Definition type_word (t : data_object_type) : str :=
  match t with Primitive => lit "Primitive" | Constructed => lit "Constructed" end.
Definition tag_info_lines (v : tag_info) (i : N) : list line :=
  [titled i heading (lit "Name:") (lit "             " ++ shown_name (ti_name v));
   row i [(heading, lit "Tag:"); (None, lit "              0x"); (bold, flat_map byte_text (ti_tag v))];
   titled i heading (lit "Class:") (lit "            " ++ class_word (ti_class v));
   titled i heading (lit "Data Object Type:") (lit " " ++ type_word (ti_type v))].

Definition value_lines (v : value) (i : N) (show : bool) : list line :=
  match v with
  | ValTvr x => bits_diagram 5 tvr_schema x i show
  | ValTsi x => bits_diagram 2 tsi_schema x i show
  | ValTermCap x => bits_diagram 3 termcap_schema x i show
  | ValAddTermCap x => bits_diagram 5 addtermcap_schema x i show
  | ValCvr x => bits_diagram 5 cvr_schema x i show
  | ValCvmResults x => diagram 3 (cvm_results_repr x) (cvm_result_ranges x) i show
  | ValCvmList x => cvm_list_lines x i
  | ValIad x => iad_lines x i show
  | ValIacDefault x => iac_lines "If not an online transaction and any of the following match the TVR, reject the transaction:" x i
  | ValIacDenial x => iac_lines "If any of the following match the TVR, deny the transaction without even going online:" x i
  | ValIacOnline x => iac_lines "If any of the following match the TVR, complete the transaction online:" x i
  | ValServiceCode x => service_code_lines x i
  | ValArc x => [row i [(None, authorisation_response_code_text x)]]
  | ValTransactionType x => [row i [(None, transaction_type_text x)]]
  | ValTerminalType x => [row i [(None, terminal_type_text x)]]
  | ValPosEntryMode x => [row i [(None, pos_entry_mode_text x)]]
  | ValTagInfo x => tag_info_lines x i
  end.

(* Values the parsers return. *)
Inductive parsed_value : value -> Prop :=
| parsed_tvr d x : bytes_ok d -> tvr_try_from d = Ok x -> parsed_value (ValTvr x)
| parsed_tsi d x : bytes_ok d -> tsi_try_from d = Ok x -> parsed_value (ValTsi x)
| parsed_termcap d x : bytes_ok d -> termcap_try_from d = Ok x -> parsed_value (ValTermCap x)
| parsed_addtermcap d x : bytes_ok d -> addtermcap_try_from d = Ok x -> parsed_value (ValAddTermCap x)
| parsed_cvr d x : bytes_ok d -> cvr_try_from d = Ok x -> parsed_value (ValCvr x)
| parsed_cvm_results d x : bytes_ok d -> cvm_results_try_from d = Ok x -> parsed_value (ValCvmResults x)
| parsed_cvm_list d x : bytes_ok d -> cvm_list_try_from d = Ok x -> parsed_value (ValCvmList x)
| parsed_iad d x : bytes_ok d -> iad_try_from d = Ok x -> parsed_value (ValIad x)
| parsed_iac_default d x : bytes_ok d -> iac_default_try_from d = Ok x -> parsed_value (ValIacDefault x)
| parsed_iac_denial d x : bytes_ok d -> iac_denial_try_from d = Ok x -> parsed_value (ValIacDenial x)
| parsed_iac_online d x : bytes_ok d -> iac_online_try_from d = Ok x -> parsed_value (ValIacOnline x)
| parsed_service_code n x : service_code_try_from_u16 n = Ok x -> parsed_value (ValServiceCode x)
| parsed_arc x : parsed_value (ValArc x)
| parsed_transaction_type x : parsed_value (ValTransactionType x)
| parsed_terminal_type x : parsed_value (ValTerminalType x)
| parsed_pos_entry_mode x : parsed_value (ValPosEntryMode x)
| parsed_tag_info d x : bytes_ok d -> tag_info_try_from d = Ok x -> parsed_value (ValTagInfo x).

(** ** Blocks *)

Definition length_text (d : emv_data) : str :=
  match d with
  | Masked => lit "?? bytes"
  | Normal l => dec (len l) ++ (if len l =? 1 then lit " byte" else lit " bytes")
  end.
Definition tag_row (i : N) (t : raw_tag) (name : str) : line :=
  row i [(heading, lit "Tag:"); (None, lit " 0x"); (bold, flat_map byte_text (rt_tag t));
         (None, lit " - " ++ length_text (rt_data t) ++ lit " - " ++ name)].
Definition data_lines (i : N) (t : raw_tag) : list line :=
  match rt_data t with
  | Masked => [heading_row i (lit "* Masked *")]
  | Normal [] => []
  | Normal d => heading_row i (lit "Raw:") :: wide_dump (i + 1) d
  end.
Definition ptag_lines (t : ptag) (i : N) (show : bool) : list line :=
  match t with
  | PRaw r => tag_row i r (lit "<Unknown>") :: data_lines i r
  | PAnnotated s r => tag_row i r s :: data_lines i r
  | PParsed s v r => tag_row i r s :: data_lines i r ++ heading_row i (lit "Parsed:") :: value_lines v (i + 1) show
  end.
(* Entries separated by blank lines. *)
Fixpoint separated (l : list (list line)) : list line :=
  match l with [] => [] | [x] => x | x :: t => x ++ blank :: separated t end.
Fixpoint node_lines (show : bool) (n : pnode) (i : N) : list line :=
  match n with
  | PNode t c =>
      ptag_lines t i show
      ++ match c with
         | [] => []
         | _ :: _ => heading_row i (lit "Constructed Data Object's Child Tags:")
                     :: separated (map (fun n => node_lines show n (i + 1)) c)
         end
  end.
Definition block_lines (l : list pnode) (i : N) (show : bool) : list line :=
  separated (map (fun n => node_lines show n i) l).

(* Blocks whose decoded values come from the parsers, with byte tags and data. *)
Definition good_ptag (t : ptag) : Prop :=
  match t with
  | PRaw r => bytes_ok (rt_tag r) /\ match rt_data r with Normal d => bytes_ok d | Masked => True end
  | PAnnotated s r => visible s /\ bytes_ok (rt_tag r) /\ match rt_data r with Normal d => bytes_ok d | Masked => True end
  | PParsed s v r => visible s /\ parsed_value v /\ bytes_ok (rt_tag r) /\ match rt_data r with Normal d => bytes_ok d | Masked => True end
  end.
Inductive good_node : pnode -> Prop :=
| good_node_intro t c : good_ptag t -> Forall good_node c -> good_node (PNode t c).

(** ** Indentation *)

(* How many levels deeper than its own indentation a value is printed. *)
Definition value_levels (v : value) : N :=
  match v with
  | ValIad _ => 1
  | ValCvmList l => match cl_rules l with [] => 0 | _ => 1 end
  | _ => 0
  end.
Definition ptag_levels (t : ptag) : N :=
  let data r := match rt_data r with Normal (_ :: _) => 1 | _ => 0 end in
  match t with
  | PRaw r => data r
  | PAnnotated _ r => data r
  | PParsed _ v r => N.max (data r) (1 + value_levels v)
  end.
Fixpoint node_levels (n : pnode) : N :=
  match n with
  | PNode t c => N.max (ptag_levels t)
                       (match c with [] => 0 | _ => 1 + fold_right N.max 0 (map node_levels c) end)
  end.
Definition block_levels (l : list pnode) : N := fold_right N.max 0 (map node_levels l).

(* Nesting depth: 0 for an empty block, 1 for tags without children. *)
Fixpoint nesting (n : pnode) : N := match n with PNode _ c => 1 + fold_right N.max 0 (map nesting c) end.
Definition block_nesting (l : list pnode) : N := fold_right N.max 0 (map nesting l).

(* The target either wraps or the indentation stays within a u8. *)
Definition fits (p : platform) (m : N) : Prop := overflow_checks p = true -> m < 256.

(** ** Layout *)

(* A blank line, or one indented by [lo] to [hi] tabs and otherwise visible. *)
Definition line_between (lo hi : N) (l : line) : Prop :=
  l = blank \/ lo <= l_tabs l /\ l_tabs l <= hi /\ Forall (fun sp => visible (snd sp)) (l_spans l).

(* Each colour is set before and reset after one run of text. *)
Inductive closed : list event -> Prop :=
| closed_nil : closed []
| closed_text s l : closed l -> closed (Txt s :: l)
| closed_style c texts l : closed l -> closed (SetColor c :: map Txt texts ++ ResetColor :: l).

(* The text shown in a colour. *)
Definition has_colour (c : color) (x : style * N) : bool :=
  match fst x with
  | Some (mkSpec _ (Some f)) => match f, c with Cyan, Cyan => true | Yellow, Yellow => true | Red, Red => true | _, _ => false end
  | _ => false
  end.
Definition coloured (c : color) (l : list event) : str := map snd (filter (has_colour c) (screen None l)).

(* Bytes cut into lines of [w], the last one possibly shorter. *)
Inductive cut (w : N) : list N -> list (list N) -> Prop :=
| cut_nil : cut w [] []
| cut_last l : 1 <= len l -> len l <= w -> cut w l [l]
| cut_more l rest ls : len l = w -> rest <> [] -> cut w rest ls -> cut w (l ++ rest) (l :: ls).
