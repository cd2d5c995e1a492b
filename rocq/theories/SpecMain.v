(** Specification of the program as a whole: what is shown for which command, which settings
    apply, and what the command line may look like. *)

From Coq Require Import NArith List String Bool.
From Verif Require Import Base ModelUtil ModelEnums ModelBitflag ModelTlv ModelValues ModelProcess ModelDisplay ModelMain
  SpecUtil SpecCodes SpecValues SpecTlv SpecIngenico SpecTags SpecProcess SpecDisplay PropertiesValues.
Import ListNotations.
Local Open Scope N_scope.

(** ** Operations *)

Inductive operation : Type :=
| OpTvr | OpIad | OpCvr | OpTsi | OpCvmResults | OpCvmList | OpIdentify | OpAuto | OpBer | OpIngenico | OpServiceCode.
Definition all_operations : list operation :=
  [OpTvr; OpIad; OpCvr; OpTsi; OpCvmResults; OpCvmList; OpIdentify; OpAuto; OpBer; OpIngenico; OpServiceCode].

(* The argument of an operation, if it was asked for. *)
Definition given (m : matches) (op : operation) : option str :=
  match op with
  | OpTvr => m_tvr m | OpIad => m_ccd_iad m | OpCvr => m_ccd_cvr m | OpTsi => m_tsi m
  | OpCvmResults => m_cvm_results m | OpCvmList => m_cvm_list m | OpIdentify => m_identify m
  | OpAuto => m_auto_tlv m | OpBer => m_ber_tlv m | OpIngenico => m_ingenico_tlv m
  | OpServiceCode => m_service_code m
  end.

(* [op] is asked for and none of the operations before it. *)
Definition chosen (m : matches) (op : operation) (s : str) : Prop :=
  given m op = Some s
  /\ exists before after, all_operations = before ++ op :: after /\ Forall (fun o => given m o = None) before.
(* Only [op] is asked for. *)
Definition only (m : matches) (op : operation) (s : str) : Prop :=
  given m op = Some s /\ forall o, o <> op -> given m o = None.
Definition no_operation (m : matches) : Prop := forall o, given m o = None.

(** ** What an argument means *)

(* The bytes of a text: its hex digits in pairs, everything else ignored. *)
Definition hex_bytes (s : str) : list N := bytes_of_digits (filter is_hex_digitb s).

Inductive meaning : operation -> str -> value -> Prop :=
| meaning_tvr s v : value_of [0x95] (hex_bytes s) v -> meaning OpTvr s v
| meaning_iad s v : value_of [0x9F; 0x10] (hex_bytes s) v -> meaning OpIad s v
| meaning_cvr s v : bits_value 5 cvr_bits (hex_bytes s) v -> meaning OpCvr s (ValCvr v)
| meaning_tsi s v : value_of [0x9B] (hex_bytes s) v -> meaning OpTsi s v
| meaning_cvm_results s v : value_of [0x9F; 0x34] (hex_bytes s) v -> meaning OpCvmResults s v
| meaning_cvm_list s v : value_of [0x8E] (hex_bytes s) v -> meaning OpCvmList s v
| meaning_identify s b t i : hex_bytes s = b :: t -> ti_tag i = b :: t -> ti_class i = class_of b -> ti_type i = type_of b ->
    (forall x, ti_name i = Some x <-> known_name (b :: t) x) -> meaning OpIdentify s (ValTagInfo i)
| meaning_service_code s n sc : denotes_number s n -> n <= 999 -> service_code_of n (n / 100) (n / 10 mod 10) (n mod 10) sc ->
    meaning OpServiceCode s (ValServiceCode sc).

(* The texts of the two TLV formats and their trees. *)
Definition ber_block (masks : list N) (s : str) (ns : list raw_node) : Prop :=
  exists objs, ber_objects (hex_bytes s) objs [] /\ ber_trees masks objs ns.
Definition ingenico_block (masks : list N) (s : str) (ns : list raw_node) : Prop :=
  ascii_text s /\ exists es, ing_text masks s es /\ ing_nodes masks es ns.

(* The tree an operation shows, and the format it names if it has found that out itself. *)
Inductive tlv_block (masks : list N) : operation -> str -> option tlv_format -> list raw_node -> Prop :=
| block_ber s ns : ber_block masks s ns -> tlv_block masks OpBer s None ns
| block_ingenico s ns : ingenico_block masks s ns -> tlv_block masks OpIngenico s None ns
| block_auto_ingenico s ns : s <> [] -> ingenico_block masks s ns -> tlv_block masks OpAuto s (Some Ingenico) ns
| block_auto_ber s ns : s <> [] -> (forall ns', ~ ingenico_block masks s ns') -> ber_block masks s ns ->
    tlv_block masks OpAuto s (Some BerTlv) ns.

(* The lines shown, and how deep they are indented at most. *)
Definition format_lines (f : option tlv_format) : list line :=
  match f with
  | None => []
  | Some BerTlv => [row 0 [(heading, lit "TLV Format: "); (None, lit "BER-TLV")]; blank]
  | Some Ingenico => [row 0 [(heading, lit "TLV Format: "); (None, lit "Ingenico")]; blank]
  end.
Inductive breakdown (masks : list N) (sort : bool) (op : operation) (s : str) : list line -> N -> Prop :=
| breakdown_value v : meaning op s v -> breakdown masks sort op s (value_lines v 0 true) (value_levels v)
| breakdown_block f ns r r' : tlv_block masks op s f ns -> processed_forest ns r ->
    (if sort then arranged r r' else r' = r) ->
    breakdown masks sort op s (format_lines f ++ block_lines r' 0 true) (block_levels r').

(* Why nothing is shown. *)
Definition ber_too_long (s : str) : Prop :=
  exists objs t l0 rest, ber_objects (hex_bytes s) objs (t ++ l0 :: rest) /\ ber_tag t /\ 132 < l0.
Definition ingenico_too_long (masks : list N) (s : str) : Prop :=
  ascii_text s /\ exists before es ty td tag ld rest, s = before ++ ty :: td ++ colon :: ld ++ colon :: rest
    /\ ing_prefix masks before es /\ tag_digits td tag /\ Forall is_hex_digit ld /\ (10 <= List.length ld)%nat.
Inductive refused (masks : list N) : operation -> str -> parse_error -> Prop :=
| refused_tvr s e : rejected [0x95] (hex_bytes s) e -> refused masks OpTvr s e
| refused_iad s : ~ (exists cci dki cvr counters rest, iad_layout (hex_bytes s) cci dki cvr counters rest /\ (cci = 0xA5 \/ cci = 0xA6)) ->
    refused masks OpIad s NonCcdCompliant
| refused_cvr s : len (hex_bytes s) <> 5 -> refused masks OpCvr s (ByteCountIncorrect Eq 5 (len (hex_bytes s)))
| refused_tsi s e : rejected [0x9B] (hex_bytes s) e -> refused masks OpTsi s e
| refused_cvm_results s e : rejected [0x9F; 0x34] (hex_bytes s) e -> refused masks OpCvmResults s e
| refused_cvm_list s e : rejected [0x8E] (hex_bytes s) e -> refused masks OpCvmList s e
| refused_identify s : hex_bytes s = [] -> refused masks OpIdentify s (ByteCountIncorrect Gt 1 0)
| refused_service_code s : (forall n, denotes_number s n -> 999 < n) -> refused masks OpServiceCode s InvalidNumber
| refused_ber_unsupported s : ber_too_long s -> refused masks OpBer s Unsupported
| refused_ber s : (forall ns, ~ ber_block masks s ns) -> ~ ber_too_long s -> refused masks OpBer s NonCompliant
| refused_ingenico_unsupported s : ingenico_too_long masks s -> refused masks OpIngenico s Unsupported
| refused_ingenico s : (forall ns, ~ ingenico_block masks s ns) -> ~ ingenico_too_long masks s -> refused masks OpIngenico s NonCompliant
| refused_auto s : s = [] \/ (forall ns, ~ ingenico_block masks s ns) /\ (forall ns, ~ ber_block masks s ns) ->
    refused masks OpAuto s Unrecognised
| refused_tag op s f ns before t after e : tlv_block masks op s f ns -> flat_map preorder ns = before ++ t :: after ->
    (forall x e', In x before -> ~ tag_fails x e') -> tag_fails t e -> refused masks op s e.

(** ** What the user sees *)

(* The complete lines and nothing else. *)
Definition displays (o : outcome) (ls : list line) : Prop :=
  o_panic o = false /\ o_help o = false /\ o_stderr o = []
  /\ screen None (o_stdout o) = render ls /\ style_after None (o_stdout o) = None.
(* One message on stderr and nothing else. *)
Definition complains (o : outcome) (e : parse_error) : Prop :=
  o_panic o = false /\ o_help o = false /\ o_stdout o = [] /\ o_stderr o = error_text e ++ [10].
(* The help text and nothing else. *)
Definition helps (o : outcome) : Prop :=
  o_panic o = false /\ o_help o = true /\ o_stdout o = [] /\ o_stderr o = [].

(* Arguments that fit into memory of a 64-bit target. *)
Definition arguments64 (p : platform) (m : matches) : Prop := forall op s, given m op = Some s -> text64 p s.

(** ** Settings *)

(* What the user typed, as configuration values. *)
Definition colour_names : list (colour_choice * string) :=
  [(CAlways, "always"); (CAlwaysAnsi, "ansi"); (CAuto, "auto"); (CNever, "never")]%string.
Definition typed {A : Type} (o : option (A * value_source)) (a : A) : Prop :=
  exists src, o = Some (a, src) /\ src <> SrcDefault.
Definition not_typed {A : Type} (o : option (A * value_source)) : Prop := forall a, ~ typed o a.

(* The same name up to the case of letters. *)
Definition upper_or_lower (c x : N) : Prop :=
  c = x \/ 97 <= x /\ x <= 122 /\ c + 32 = x.
Definition same_letters (s t : str) : Prop := Forall2 upper_or_lower s t.

(* [asks m k v]: the command line asks for the value v of the setting k. *)
Inductive asks (m : matches) : string -> cvalue -> Prop :=
| asks_colour s c n : typed (m_colour m) s -> In (c, n) colour_names -> same_letters s (lit n) ->
    asks m "cli_colour" (CStr (lit n))
| asks_masking cs : typed (m_masking m) cs -> asks m "masking_characters" (CArr (map CChar cs))
| asks_sort b : not_typed (m_no_sort m) -> typed (m_sort m) b -> asks m "sort_parsed_tags" (CBool b)
| asks_no_sort b : typed (m_no_sort m) b -> asks m "sort_parsed_tags" (CBool (negb b)).

(* A layer: what one place says about a setting. *)
Definition layer : Type := string -> cvalue -> Prop.
Definition says (d : dict) : layer := fun k v => dict_get d k = Some v.
Definition silent (l : layer) (k : string) : Prop := forall v, ~ l k v.
(* The first layer that says something about a setting decides. *)
Inductive decided : list layer -> string -> cvalue -> Prop :=
| decided_here (l : layer) ls k v : l k v -> decided (l :: ls) k v
| decided_later (l : layer) ls k v : silent l k -> decided ls k v -> decided (l :: ls) k v.

Definition built_in : dict :=
  [("cli_colour", CStr (lit "auto")); ("masking_characters", CArr [CChar 42]); ("sort_parsed_tags", CBool true)]%string.
(* The layers, strongest first: command line, environment variables, the file's [global]
   table, its table of the selected profile, its [default] table, built-in values. *)
Definition selected_layers (e : environment) (file : profile -> dict) : list layer :=
  match e_profile e with ProfCustom n => [says (file (ProfCustom n))] | _ => [] end.
Definition layers (e : environment) (file : profile -> dict) (m : matches) : list layer :=
  asks m :: says (e_vars e) :: says (file ProfGlobal) :: selected_layers e file ++ [says (file ProfDefault); says built_in].
(* The same if the program's (key, value) pairs go into the default profile. *)
Definition layers_default (e : environment) (file : profile -> dict) (m : matches) : list layer :=
  says (e_vars e) :: says (file ProfGlobal) :: selected_layers e file ++ [asks m; says (file ProfDefault); says built_in].

(* Values of the right kind. *)
Definition colour_numbers : list (colour_choice * N) := [(CAlways, 0); (CAlwaysAnsi, 1); (CAuto, 2); (CNever, 3)].
Definition colour_value (v : cvalue) (c : colour_choice) : Prop :=
  (exists n, In (c, n) colour_names /\ v = CStr (lit n)) \/ exists i, In (c, i) colour_numbers /\ v = CNum i.
Definition masking_value (v : cvalue) (cs : list N) : Prop :=
  exists vs, v = CArr vs /\ Forall2 (fun x c => x = CChar c \/ x = CStr [c]) vs cs.
Definition sort_value (v : cvalue) (b : bool) : Prop := v = CBool b.

(* What termcolor is told. *)
Definition terminal_choice (tty : bool) (c : colour_choice) : term_color_choice :=
  match c with
  | CAlways => TAlways | CAlwaysAnsi => TAlwaysAnsi | CNever => TNever
  | CAuto => if tty then TAuto else TNever
  end.

(* The settings in force. *)
Definition in_force (ls : list layer) (tty : bool) (st : settings) : Prop :=
  exists v1 v2 v3 c, decided ls "cli_colour" v1 /\ colour_value v1 c /\ set_colour st = terminal_choice tty c
    /\ decided ls "masking_characters" v2 /\ masking_value v2 (set_masking st)
    /\ decided ls "sort_parsed_tags" v3 /\ sort_value v3 (set_sort st).

(* The colour typed, if any, is a colour name. *)
Definition colour_typed_ok (m : matches) : Prop :=
  forall s, typed (m_colour m) s -> exists c n, In (c, n) colour_names /\ same_letters s (lit n).
