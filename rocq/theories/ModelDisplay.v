(** Model of all terminal output: the printing half of src/util.rs, src/output_colours.rs and
    every [DisplayBreakdown] implementation.

    Simplifications: consecutive [print!] calls of single characters in a loop may be one
    [Txt] event; writing to stdout does not fail (the code ignores errors of the colour
    calls, and [print!] panics only on an I/O error). *)

From Coq Require Import NArith List String Bool.
From Verif Require Import Base ModelUtil ModelEnums ModelBitflag ModelSchemas ModelTags ModelTlv
  ModelValues ModelProcess.
Import ListNotations.
Local Open Scope N_scope.

(** ** Output *)

(* The termcolor colours used (src/output_colours.rs:19, src/emv/bitflag_values.rs:168-169)
   and the two attributes of [ColorSpec] used. *)
Inductive color : Type := Cyan | Yellow | Red.
(* src/output_colours.rs:9-21: the attributes of termcolor [ColorSpec] the program sets. *)
Record color_spec : Type := mkSpec { cs_bold : bool; cs_fg : option color }.

(* What reaches the terminal, in order: text from [print!]/[println!], and the
   [set_color]/[reset] calls on the termcolor stream
   (src/emv/bitflag_values.rs:88-106 and the other [display_breakdown]s). *)
Inductive event : Type :=
| Txt (s : str)
| SetColor (c : color_spec)
| ResetColor.

(* Output of a piece of code: the events, and whether it ended in a panic (src/main.rs:93-98). *)
Record disp : Type := mkDisp { evs : list event; dead : bool }.

(* src/main.rs:93-98: no output. *)
Definition dnil : disp := mkDisp [] false.
(* src/main.rs:93-98: a single event. *)
Definition dev (e : event) : disp := mkDisp [e] false.
(* src/util.rs:124: [print!]. *)
Definition dtxt (s : str) : disp := dev (Txt s).
(* src/util.rs:145: [println!]. *)
Definition dln (s : str) : disp := dev (Txt (s ++ [10])). (* println! *)
(* src/emv/bitflag_values.rs:89: [stdout.set_color(...).ok()]. *)
Definition dset (c : color_spec) : disp := dev (SetColor c).
(* src/emv/bitflag_values.rs:106: [stdout.reset().ok()]. *)
Definition dreset : disp := dev ResetColor.

(* Sequencing: nothing happens after a panic (src/main.rs:93-98). *)
Definition dthen (a b : disp) : disp :=
  if dead a then a else mkDisp (evs a ++ evs b) (dead b).
Infix ">>>" := dthen (at level 62, right associativity).

(* Use the result of a computation that may panic (src/emv/bitflag_values.rs:83). *)
Definition dlet {A : Type} (r : res A) (k : A -> disp) : disp :=
  match r with Ok a => k a | _ => mkDisp [] true end.

(* [for x in l { f(x) }] (src/emv/bitflag_values.rs:111, 122, 150). *)
Fixpoint dfor {A : Type} (l : list A) (f : A -> disp) : disp :=
  match l with
  | [] => dnil
  | x :: t => f x >>> dfor t f
  end.

(* The integers a, a+1, ..., b-1 ([a..b]) (src/emv/bitflag_values.rs:123, 133, 153). *)
Definition nrange (a b : N) : list N :=
  map (fun k => a + N.of_nat k) (seq 0 (N.to_nat (b - a))).

(* [u8] subtraction, and [1u64 << k] (the amount is masked without overflow checks)
   (src/emv/bitflag_values.rs:112, 120, 153-154). *)
Definition u8_sub (p : platform) (a b : N) : res N :=
  if b <=? a then Ok (a - b) else if overflow_checks p then Panic else Ok (a + 256 - b).
(* src/emv/bitflag_values.rs:112, 154: [1 << k] in [u64]. *)
Definition shl1_u64 (p : platform) (k : N) : res N :=
  if k <? 64 then Ok (N.shiftl 1 k)
  else if overflow_checks p then Panic else Ok (N.shiftl 1 (k mod 64)).

(** ** src/output_colours.rs and src/util.rs *)

(* src/output_colours.rs:9-13 *)
Definition bold_colour_spec : color_spec := mkSpec true None.
(* src/output_colours.rs:17-21 *)
Definition header_colour_spec : color_spec := mkSpec true (Some Cyan).

(* src/util.rs:122-126 *)
Definition print_indentation (ind : N) : disp := dtxt (repeat 9 (N.to_nat ind)).

(* src/util.rs:134-142 (and 156-164): the bytes of a line, separated by spaces. *)
Fixpoint hex_line (l : list N) : str :=
  match l with
  | [] => []
  | b :: t => hex2 b ++ match t with [] => [] | _ :: _ => 32 :: hex_line t end
  end.

(* src/util.rs:130-147; [chunks(0)] panics. *)
Definition print_bytes (bytes : list N) (per_line ind : N) : disp :=
  if per_line =? 0 then mkDisp [] true
  else dfor (chunks (N.to_nat per_line) bytes) (fun line =>
         print_indentation ind >>> dtxt (hex_line line) >>> dln []).

(* src/util.rs:175-179 *)
Definition printable_char (b : N) : N := if (0x20 <=? b) && (b <=? 0x7E) then b else 46.

(* src/util.rs:152-186; [bytes_per_line - line.len()] cannot underflow for a chunk. *)
Definition print_bytes_pretty (bytes : list N) (per_line ind : N) : disp :=
  if per_line =? 0 then mkDisp [] true
  else dfor (chunks (N.to_nat per_line) bytes) (fun line =>
         print_indentation ind
         >>> dtxt (hex_line line)
         >>> dtxt (List.concat (repeat (lit "   ") (N.to_nat per_line - List.length line)))
         >>> dtxt (lit "  ")
         >>> dtxt (map printable_char line)
         >>> dln []).

(* src/util.rs:193-197 *)
Definition print_bytes_small (bytes : list N) : disp := dtxt (flat_map hex2 bytes).

(** ** Bit field breakdown (src/emv/bitflag_values.rs:68-179) *)

(* src/emv/bitflag_values.rs:97-103 *)
Definition bits_of_byte (b : N) : str :=
  map (fun o => if 0 <? N.land b (N.shiftl 1 o) then 49 else 48) [7; 6; 5; 4; 3; 2; 1; 0].

(* src/emv/bitflag_values.rs:90-104 *)
Fixpoint binary_line (l : list N) : str :=
  match l with
  | [] => []
  | b :: t => bits_of_byte b ++ match t with [] => [] | _ :: _ => 32 :: binary_line t end
  end.

(* src/emv/bitflag_values.rs:109-116 *)
Fixpoint arm_bits (p : platform) (l : list bit_range) (acc : N) : res N :=
  match l with
  | [] => Ok acc
  | r :: t => m <- shl1_u64 p (r_offset r);; arm_bits p t (N.lor acc m)
  end.

(* Box drawing characters of the source (src/emv/bitflag_values.rs:132). *)
Definition ch_tee : N := 0x251C.
(* src/emv/bitflag_values.rs:134 *)
Definition ch_dash : N := 0x2500.
(* src/emv/bitflag_values.rs:136 *)
Definition ch_corner_r : N := 0x2518.
(* src/emv/bitflag_values.rs:138, 155 *)
Definition ch_bar : N := 0x2502.
(* src/emv/bitflag_values.rs:163 *)
Definition ch_corner_l : N := 0x2514.

(* src/emv/bitflag_values.rs:122-147 *)
Fixpoint header_arms (p : platform) (num_bits : N) (l : list bit_range) (current : N) : disp :=
  match l with
  | [] => dnil
  | r :: t =>
      dfor (nrange (r_offset r) (current + 1)) (fun i =>
        dlet (u8_add p i 1) (fun i1 =>
          (if (i1 mod 8 =? 0) && (i1 <? num_bits) then dtxt [32] else dnil)
          >>> (if i =? r_offset r then dnil else dtxt [32])))
      >>> (if 1 <? r_len r
           then dtxt [ch_tee]
                >>> dlet (u8_sub p (r_len r) 2) (fun k => dtxt (repeat ch_dash (N.to_nat k)))
                >>> dtxt [ch_corner_r]
           else dtxt [ch_bar])
      >>> (if r_len r <? r_offset r
           then dlet (u8_sub p (r_offset r) (r_len r)) (fun c => header_arms p num_bits t c)
           else header_arms p num_bits t 0)
  end.

(* src/emv/bitflag_values.rs:165-173 *)
Definition severity_colour (show : bool) (s : severity) : color_spec :=
  mkSpec false (if show
                then match s with
                     | SevNormal => None
                     | SevWarning => Some Yellow
                     | SevError => Some Red
                     end
                else None).

(* src/emv/bitflag_values.rs:150-177: one explanation line. *)
Definition explanation_line (p : platform) (num_bits arms ind : N) (show : bool) (r : bit_range)
  : disp :=
  print_indentation ind
  >>> dlet (u8_sub p num_bits (r_offset r)) (fun e =>
        dfor (nrange 1 e) (fun i =>
          dlet (u8_sub p num_bits i) (fun b =>
            dlet (shl1_u64 p b) (fun m =>
              dtxt (if 0 <? N.land arms m then [ch_bar] else [32])
              >>> (if b mod 8 =? 0 then dtxt [32] else dnil)))))
  >>> dtxt [ch_corner_l; 32]
  >>> dset (severity_colour show (r_sev r))
  >>> dln (r_text r)
  >>> dreset.

(* src/emv/bitflag_values.rs:73-178 *)
Definition display_bits (p : platform) (num_bytes : N) (repr : list N) (ranges : list bit_range)
           (ind : N) (show : bool) : disp :=
  dlet (checked p 256 ((num_bytes mod 256) * 8)) (fun num_bits =>
    print_indentation ind
    >>> dset bold_colour_spec
    >>> dtxt (binary_line repr)
    >>> dln []
    >>> dreset
    >>> dlet (arm_bits p (rev ranges) 0) (fun arms =>
          (if existsb (fun r => 1 <? r_len r) ranges
           then dlet (u8_sub p num_bits 1) (fun current =>
                  print_indentation ind
                  >>> header_arms p num_bits ranges current
                  >>> dln [])
           else dnil)
          >>> dfor (rev ranges) (explanation_line p num_bits arms ind show))).

(* [display_breakdown] of a [bitflag_value!] struct (src/emv/bitflag_values.rs:73-178). *)
Definition display_bitflag (p : platform) (sch : schema) (v : list fval) (ind : N) (show : bool)
  : disp :=
  display_bits p (s_count sch) (bf_repr sch v) (bf_ranges sch v) ind show.

(* [display_breakdown] of CVM results (blanket impl over src/emv/cvm_results.rs:52-82). *)
Definition display_cvm_results (p : platform) (v : cvm_results) (ind : N) (show : bool) : disp :=
  dlet (cvm_results_ranges p v) (fun ranges =>
    display_bits p cvm_results_num_bytes (cvm_results_repr v) ranges ind show).

(** ** Other values *)

(* A header or bold label without line end: indentation, colour on, text, colour off
   (e.g. src/emv/tlv_parsing/mod.rs:295-298). *)
Definition label (ind : N) (c : color_spec) (s : str) : disp :=
  print_indentation ind >>> dset c >>> dtxt s >>> dreset.
(* The same with the line end inside the coloured part ([println!])
   (e.g. src/emv/tlv_parsing/mod.rs:365-368). *)
Definition label_ln (ind : N) (c : color_spec) (s : str) : disp :=
  print_indentation ind >>> dset c >>> dln s >>> dreset.

(* src/emv/cvm_list.rs:75-80 *)
Definition rule_references_x_or_y (rule : list fval) : bool :=
  match get_field cv_rule_schema rule "condition" with
  | Some (VCvmCondition (Some c)) => references_x_or_y_value c
  | _ => false
  end.

(* [Display] of a field of a CV rule (src/emv/cvm_list.rs:122, 129). *)
Definition rule_field_text (rule : list fval) (name : string) : str :=
  match get_field cv_rule_schema rule name with
  | Some v => fval_text v
  | None => []
  end.

(* src/emv/cvm_list.rs:110-144: rule number [i] (from 0).  [i + 1] counts list elements
   and cannot overflow. *)
Definition display_cv_rule_entry (p : platform) (ind : N) (i : N) (rule : list fval) : disp :=
  label_ln ind bold_colour_spec (lit "CVM " ++ dec (i + 1) ++ lit ":")
  >>> dlet (u8_add p ind 1) (fun ind1 => label ind1 bold_colour_spec (lit "Method:         "))
  >>> dln (32 :: rule_field_text rule "method")
  >>> dlet (u8_add p ind 1) (fun ind1 => label ind1 bold_colour_spec (lit "Condition:      "))
  >>> dln (32 :: rule_field_text rule "condition")
  >>> dlet (u8_add p ind 1) (fun ind1 => label ind1 bold_colour_spec (lit "If Unsuccessful:"))
  >>> dln (32 :: match get_field cv_rule_schema rule "continue_if_unsuccessful" with
                 | Some (VBool true) => lit "Next CVM"
                 | _ => lit "Fail"
                 end).

(* src/emv/cvm_list.rs:110-144: the loop over the rules. *)
Fixpoint display_cv_rules (p : platform) (ind : N) (i : N) (rules : list (list fval)) : disp :=
  match rules with
  | [] => dnil
  | r :: t => display_cv_rule_entry p ind i r >>> display_cv_rules p ind (i + 1) t
  end.

(* src/emv/cvm_list.rs:60-146 *)
Definition display_cvm_list (p : platform) (v : cvm_list) (ind : N) : disp :=
  (if negb (cl_x v =? 0) || negb (cl_y v =? 0) || existsb rule_references_x_or_y (cl_rules v)
   then let w := N.max (N.max (num_dec_digits (cl_x v)) (num_dec_digits (cl_y v))) 3 in
        label ind header_colour_spec (lit "X Value:")
        >>> dln (32 :: pad0 w (dec (cl_x v))
                 ++ lit " (implicit decimal point based on application currency)")
        >>> label ind header_colour_spec (lit "Y Value:")
        >>> dln (32 :: pad0 w (dec (cl_y v)))
   else dnil)
  >>> label_ln ind header_colour_spec (lit "Cardholder Verification Rules:")
  >>> display_cv_rules p ind 0 (cl_rules v).

(* src/emv/ccd/iad.rs:102-156; [{dki:#04X}] of a u8 is 0x and two digits. *)
Definition display_iad (p : platform) (v : iad) (ind : N) (show : bool) : disp :=
  label_ln ind header_colour_spec (lit "Common Core Identifier:")
  >>> dlet (u8_add p ind 1) (fun ind1 => display_bitflag p cci_schema (iad_cci v) ind1 show)
  >>> label ind header_colour_spec (lit "Derivation Key Index:")
  >>> dln (lit " 0x" ++ hex2 (iad_dki v))
  >>> label_ln ind header_colour_spec (lit "Card Verification Results:")
  >>> dlet (u8_add p ind 1) (fun ind1 => display_bitflag p cvr_schema (iad_cvr v) ind1 show)
  >>> label_ln ind header_colour_spec (lit "Counters: (Payment System-Specific)")
  >>> dlet (u8_add p ind 1) (fun ind1 => print_bytes (iad_counters v) 16 ind1)
  >>> label_ln ind header_colour_spec (lit "Issuer-Discretionary Data")
  >>> dlet (u8_add p ind 1) (fun ind1 => print_bytes (iad_discretionary v) 16 ind1).

(* src/emv/iac/default.rs:71-86 *)
Definition display_iac_default (p : platform) (tvr : list fval) (ind : N) : disp :=
  label_ln ind header_colour_spec
    (lit "If not an online transaction and any of the following match the TVR, reject the transaction:")
  >>> display_bitflag p tvr_schema tvr ind false.
(* src/emv/iac/denial.rs:65-80 *)
Definition display_iac_denial (p : platform) (tvr : list fval) (ind : N) : disp :=
  label_ln ind header_colour_spec
    (lit "If any of the following match the TVR, deny the transaction without even going online:")
  >>> display_bitflag p tvr_schema tvr ind false.
(* src/emv/iac/online.rs:69-81 *)
Definition display_iac_online (p : platform) (tvr : list fval) (ind : N) : disp :=
  label_ln ind header_colour_spec
    (lit "If any of the following match the TVR, complete the transaction online:")
  >>> display_bitflag p tvr_schema tvr ind false.

(* src/non_emv/service_code.rs:138-172: one entry. *)
Definition service_code_entry (ind : N) (arms : str) (title : str) (text : str) : disp :=
  print_indentation ind
  >>> dtxt (arms ++ [32])
  >>> dset bold_colour_spec >>> dtxt title >>> dreset
  >>> dln text.

(* src/non_emv/service_code.rs:121-174 *)
Definition display_service_code (v : service_code) (ind : N) : disp :=
  label_ln ind bold_colour_spec (pad0 3 (dec (sc_number v)))
  >>> service_code_entry ind [ch_bar; ch_bar; ch_tee] (lit "Allowed Services:")
        (lit "         " ++ allowed_services_text (sc_services v))
  >>> service_code_entry ind [ch_bar; ch_bar; ch_corner_l] (lit "PIN Requirements:")
        (lit "         " ++ pin_requirements_text (sc_pin v))
  >>> service_code_entry ind [ch_bar; ch_corner_l; ch_dash] (lit "Authorisation Processing:")
        (lit " " ++ authorisation_processing_text (sc_auth v))
  >>> service_code_entry ind [ch_tee; ch_dash; ch_dash] (lit "Interchange:")
        (lit "              " ++ interchange_text (sc_interchange v))
  >>> service_code_entry ind [ch_corner_l; ch_dash; ch_dash] (lit "Technology:")
        (lit "               " ++ technology_text (sc_technology v)).

(* src/emv/authorisation_response_code.rs:107-113, src/emv/terminal_type.rs:71-77,
   src/emv/transaction_type.rs:49-55, src/emv/pos_entry_mode.rs:58-64 *)
Definition display_line (s : str) (ind : N) : disp := print_indentation ind >>> dln s.

(* src/emv/tag_basic_info.rs:55-91 *)
Definition display_tag_info (v : tag_info) (ind : N) : disp :=
  label ind header_colour_spec (lit "Name:")
  >>> dln (lit "             " ++ match ti_name v with Some n => n | None => lit "<Unknown>" end)
  >>> label ind header_colour_spec (lit "Tag:")
  >>> dtxt (lit "              0x")
  >>> dset bold_colour_spec >>> print_bytes_small (ti_tag v) >>> dreset
  >>> dln []
  >>> label ind header_colour_spec (lit "Class:")
  >>> dln (lit "            " ++ tag_class_text (ti_class v))
  >>> label ind header_colour_spec (lit "Data Object Type:")
  >>> dln (32 :: data_object_type_text (ti_type v)).

(* Dynamic dispatch of [display_breakdown] (src/main.rs:88-99, src/emv/tlv_parsing/mod.rs:369). *)
Definition display_value (p : platform) (v : value) (ind : N) (show : bool) : disp :=
  match v with
  | ValTvr x => display_bitflag p tvr_schema x ind show
  | ValTsi x => display_bitflag p tsi_schema x ind show
  | ValTermCap x => display_bitflag p termcap_schema x ind show
  | ValAddTermCap x => display_bitflag p addtermcap_schema x ind show
  | ValCvr x => display_bitflag p cvr_schema x ind show
  | ValCvmResults x => display_cvm_results p x ind show
  | ValCvmList x => display_cvm_list p x ind
  | ValIad x => display_iad p x ind show
  | ValIacDefault x => display_iac_default p x ind
  | ValIacDenial x => display_iac_denial p x ind
  | ValIacOnline x => display_iac_online p x ind
  | ValServiceCode x => display_service_code x ind
  | ValArc x => display_line (authorisation_response_code_text x) ind
  | ValTransactionType x => display_line (transaction_type_text x) ind
  | ValTerminalType x => display_line (terminal_type_text x) ind
  | ValPosEntryMode x => display_line (pos_entry_mode_text x) ind
  | ValTagInfo x => display_tag_info x ind
  end.

(** ** TLV blocks *)

(* src/emv/tlv_parsing/mod.rs:440-464 *)
Definition display_raw_tag (p : platform) (t : raw_tag) (ind : N) : disp :=
  match rt_data t with
  | Normal [] => dnil
  | Normal data => label_ln ind header_colour_spec (lit "Raw:")
                   >>> dlet (u8_add p ind 1) (fun ind1 => print_bytes_pretty data 16 ind1)
  | Masked => label_ln ind header_colour_spec (lit "* Masked *")
  end.

(* src/emv/tlv_parsing/mod.rs:502-508 *)
Definition emv_data_len (d : emv_data) : option N :=
  match d with Normal data => Some (len data) | Masked => None end.

(* src/emv/tlv_parsing/mod.rs:283-313 *)
Definition print_tag_name (ind : N) (tag : list N) (length : option N) (name : option str) : disp :=
  let name := match name with Some n => n | None => lit "<Unknown>" end in
  label ind header_colour_spec (lit "Tag:")
  >>> dtxt (lit " 0x")
  >>> dset bold_colour_spec >>> print_bytes_small tag >>> dreset
  >>> match length with
      | Some l => dln (lit " - " ++ dec l ++ lit " byte" ++ (if l =? 1 then [] else lit "s")
                       ++ lit " - " ++ name)
      | None => dln (lit " - ?? bytes - " ++ name)
      end.

(* src/emv/tlv_parsing/mod.rs:275-373 *)
Definition display_ptag (p : platform) (t : ptag) (ind : N) (show : bool) : disp :=
  match t with
  | PRaw r => print_tag_name ind (rt_tag r) (emv_data_len (rt_data r)) None
              >>> display_raw_tag p r ind
  | PAnnotated name r => print_tag_name ind (rt_tag r) (emv_data_len (rt_data r)) (Some name)
                         >>> display_raw_tag p r ind
  | PParsed name v r => print_tag_name ind (rt_tag r) (emv_data_len (rt_data r)) (Some name)
                        >>> display_raw_tag p r ind
                        >>> label_ln ind header_colour_spec (lit "Parsed:")
                        >>> dlet (u8_add p ind 1) (fun ind1 => display_value p v ind1 show)
  end.

(* src/emv/tlv_parsing/mod.rs:67-82: nodes separated by empty lines. *)
Definition display_nodes (f : pnode -> disp) : bool -> list pnode -> disp :=
  fix go (first : bool) (l : list pnode) : disp :=
    match l with
    | [] => dnil
    | n :: t => (if first then dnil else dln []) >>> f n >>> go false t
    end.

(* src/emv/tlv_parsing/mod.rs:118-143 *)
Fixpoint display_pnode (p : platform) (show : bool) (n : pnode) (ind : N) : disp :=
  match n with
  | PNode t children =>
      display_ptag p t ind show
      >>> match children with
          | [] => dnil
          | _ :: _ =>
              label_ln ind header_colour_spec (lit "Constructed Data Object's Child Tags:")
              >>> dlet (u8_add p ind 1) (fun ind1 =>
                    display_nodes (fun c => display_pnode p show c ind1) true children)
          end
  end.

(* src/emv/tlv_parsing/mod.rs:65-83 *)
Definition display_block (p : platform) (l : list pnode) (ind : N) (show : bool) : disp :=
  display_nodes (fun n => display_pnode p show n ind) true l.
