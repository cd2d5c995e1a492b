(** Model of src/main.rs, src/config/mod.rs and src/config/colour_choice.rs. *)

From Coq Require Import NArith List String Bool.
From Verif Require Import Base ModelUtil ModelEnums ModelBitflag ModelSchemas ModelTags ModelTlv
  ModelValues ModelProcess ModelDisplay.
Import ListNotations.
Local Open Scope N_scope.

(** ** Colour choice *)

(* src/config/colour_choice.rs:12-30 *)
Inductive colour_choice : Type := CAlways | CAlwaysAnsi | CAuto | CNever.
(* termcolor [ColorChoice] (src/config/colour_choice.rs:49-58). *)
Inductive term_color_choice : Type := TAlways | TAlwaysAnsi | TAuto | TNever.

(* src/config/colour_choice.rs:32-36 *)
Definition colour_choice_default : colour_choice := CAuto.

(* src/config/colour_choice.rs:38-47 *)
Definition colour_choice_from_term (c : term_color_choice) : colour_choice :=
  match c with TAlways => CAlways | TAlwaysAnsi => CAlwaysAnsi | TAuto => CAuto | TNever => CNever end.
(* src/config/colour_choice.rs:49-58 *)
Definition colour_choice_to_term (c : colour_choice) : term_color_choice :=
  match c with CAlways => TAlways | CAlwaysAnsi => TAlwaysAnsi | CAuto => TAuto | CNever => TNever end.

(* [str::to_lowercase], restricted to what can affect the comparison below: ASCII letters,
   and U+212A (KELVIN SIGN), the only non-ASCII character whose lower case is a single
   ASCII letter.  Simplified: other non-ASCII characters are left unchanged (their lower
   case always contains a non-ASCII character, so they cannot match either way)
   (src/config/colour_choice.rs:64). *)
Definition lower_char (c : N) : N :=
  if (65 <=? c) && (c <=? 90) then c + 32 else if c =? 0x212A then 107 else c.
(* src/config/colour_choice.rs:64: [str::to_lowercase]. *)
Definition to_lowercase (s : str) : str := map lower_char s.

(* src/config/colour_choice.rs:60-72 *)
Definition colour_choice_try_from (s : str) : res colour_choice :=
  let l := to_lowercase s in
  if leqb l (lit "always") then Ok CAlways
  else if leqb l (lit "ansi") then Ok CAlwaysAnsi
  else if leqb l (lit "auto") then Ok CAuto
  else if leqb l (lit "never") then Ok CNever
  else Err Unsupported.

(* src/config/colour_choice.rs:74-83; also the serde names of the variants (16-28). *)
Definition colour_choice_text (c : colour_choice) : str :=
  match c with
  | CAlways => lit "always" | CAlwaysAnsi => lit "ansi" | CAuto => lit "auto" | CNever => lit "never"
  end.

(* src/config/colour_choice.rs:89-101; [tty]: whether stdout is a terminal. *)
Definition change_based_on_tty (tty : bool) (c : colour_choice) : colour_choice :=
  match c with CAuto => if tty then CAuto else CNever | _ => c end.

(** ** Configuration *)

(* A configuration value as figment holds it; [CNum] is a number that [Num::to_u32] converts,
   [COther] stands for every other kind (other numbers, tables), none of which can be extracted
   by this program (src/main.rs:109-119). *)
Inductive cvalue : Type :=
| CStr (s : str) | CChar (c : N) | CBool (b : bool) | CArr (l : list cvalue) | CNum (n : N) | COther.

(* A figment dictionary: the first entry for a key counts (src/config/mod.rs:95-97). *)
Definition dict := list (string * cvalue).
(* src/main.rs:109-119: the value of a key. *)
Fixpoint dict_get (d : dict) (k : string) : option cvalue :=
  match d with
  | [] => None
  | (k', v) :: t => if String.eqb k' k then Some v else dict_get t k
  end.
(* figment [merge] of dictionaries: the right one wins per key (src/config/mod.rs:71, 78). *)
Definition dict_merge (a b : dict) : dict := b ++ a.

(* figment [Profile]; the names "default" and "global" are the two special ones.  Profile
   names are compared without regard to ASCII case: a name stands for its lower-case form
   (src/config/mod.rs:52). *)
Inductive profile : Type := ProfDefault | ProfGlobal | ProfCustom (name : str).
(* src/config/mod.rs:52: equality of profiles. *)
Definition profile_eqb (a b : profile) : bool :=
  match a, b with
  | ProfDefault, ProfDefault => true
  | ProfGlobal, ProfGlobal => true
  | ProfCustom x, ProfCustom y => leqb x y
  | _, _ => false
  end.

(* figment [Figment]: the selected profile and one dictionary per profile, or [None] once a
   provider has failed (src/config/mod.rs:69). *)
Record figment : Type := mkFigment { fg_profile : profile; fg_values : option (profile -> dict) }.
(* src/config/mod.rs:70: [Figment::new]. *)
Definition fg_empty : figment := mkFigment ProfDefault (Some (fun _ => [])).

(* figment [merge] of a provider that puts [d] into profile [pr] (src/config/mod.rs:70-71, 78). *)
Definition fg_merge (f : figment) (pr : profile) (d : dict) : figment :=
  mkFigment (fg_profile f)
            (option_map (fun v q => if profile_eqb q pr then dict_merge (v q) d else v q) (fg_values f)).
(* figment [merge] of a provider with several profiles, which may fail (src/config/mod.rs:71-77). *)
Definition fg_merge_all (f : figment) (m : option (profile -> dict)) : figment :=
  mkFigment (fg_profile f)
            (match fg_values f, m with Some v, Some w => Some (fun q => dict_merge (v q) (w q)) | _, _ => None end).
(* figment [select] (src/config/mod.rs:83). *)
Definition fg_select (f : figment) (pr : profile) : figment := mkFigment pr (fg_values f).

(* figment's merged view used for extraction: default, then the selected profile if it is
   a custom one, then global (src/main.rs:109-119). *)
Definition fg_merged (f : figment) : option dict :=
  option_map (fun v => match fg_profile f with
                       | ProfCustom _ => dict_merge (dict_merge (v ProfDefault) (v (fg_profile f))) (v ProfGlobal)
                       | _ => dict_merge (v ProfDefault) (v ProfGlobal)
                       end) (fg_values f).

(* src/config/mod.rs:38-47 as serialised by [Serialized::defaults]. *)
Definition config_defaults : dict :=
  [("cli_colour"%string, CStr (colour_choice_text colour_choice_default));
   ("masking_characters"%string, CArr [CChar 42]);
   ("sort_parsed_tags"%string, CBool true)].

(* What the program finds outside: the configuration file (one dictionary per profile,
   empty if there is none; [None] if it is not valid TOML made of profile tables), the PEMV_ variables as a dictionary (without CONFIG
   and PROFILE), the profile named by PEMV_PROFILE (default if unset), and whether stdout
   is a terminal.  [cli_profile] is the profile figment uses for a (key, value) pair
   provider; the program does not choose it
   (src/config/mod.rs:69-87, src/config/colour_choice.rs:93). *)
Record environment : Type := mkEnv {
  e_file : option (profile -> dict); e_vars : dict; e_profile : profile; e_tty : bool;
  e_cli_profile : profile }.

(* src/config/mod.rs:69-87 *)
Definition config_figment (e : environment) : figment :=
  fg_select
    (fg_merge (fg_merge_all (fg_merge fg_empty ProfDefault config_defaults) (e_file e))
              ProfGlobal (e_vars e))
    (e_profile e).

(* clap [ValueSource], and a matched argument with the source of its value
   (src/config/mod.rs:112). *)
Inductive value_source : Type := SrcDefault | SrcEnv | SrcCommandLine.
(* src/config/mod.rs:112: [== ValueSource::DefaultValue]. *)
Definition is_default_source (s : value_source) : bool :=
  match s with SrcDefault => true | _ => false end.

(* The [ArgMatches] of src/cli.rs as far as main reads them. *)
Record matches : Type := mkMatches {
  m_tvr : option str; m_ccd_iad : option str; m_ccd_cvr : option str; m_tsi : option str;
  m_cvm_results : option str; m_cvm_list : option str; m_identify : option str;
  m_auto_tlv : option str; m_ber_tlv : option str; m_ingenico_tlv : option str;
  m_service_code : option str;
  m_colour : option (str * value_source);
  m_masking : option (list N * value_source);
  m_sort : option (bool * value_source);
  m_no_sort : option (bool * value_source) }.

(* src/config/mod.rs:110-119; the [expect] is a potential panic. *)
Definition apply_colour (cp : profile) (f : figment) (m : matches) : res figment :=
  match m_colour m with
  | Some (s, src) => if is_default_source src then Ok f
                     else c <- expect (colour_choice_try_from s);;
                          Ok (fg_merge f cp [("cli_colour"%string, CStr (colour_choice_text c))])
  | None => Ok f
  end.

(* src/config/mod.rs:121-129 *)
Definition apply_masking (cp : profile) (f : figment) (m : matches) : figment :=
  match m_masking m with
  | Some (cs, src) => if is_default_source src then f
                      else fg_merge f cp [("masking_characters"%string, CArr (map CChar cs))]
  | None => f
  end.

(* src/config/mod.rs:131-142 *)
Definition cli_sort_preference (m : matches) : option bool :=
  let first := match m_sort m with
               | Some (b, src) => if is_default_source src then None else Some b
               | None => None
               end in
  match m_no_sort m with
  | Some (b, src) => if is_default_source src then first else Some (negb b)
  | None => first
  end.

(* src/config/mod.rs:143-145 *)
Definition apply_sort (cp : profile) (f : figment) (m : matches) : figment :=
  match cli_sort_preference m with
  | Some b => fg_merge f cp [("sort_parsed_tags"%string, CBool b)]
  | None => f
  end.

(* src/config/mod.rs:109-148 *)
Definition apply_cli_arguments (cp : profile) (f : figment) (m : matches) : res figment :=
  f1 <- apply_colour cp f m;;
  Ok (apply_sort cp (apply_masking cp f1 m) m).

(* [extract_inner::<ColourChoice>]: the serde names exactly (lower case); figment also takes the
   number of a variant ([deserialize_enum], the variants in the order of the source)
   (src/main.rs:110, src/config/colour_choice.rs:12-30). *)
Definition extract_colour (v : option cvalue) : option colour_choice :=
  match v with
  | Some (CStr s) => if leqb s (lit "always") then Some CAlways
                     else if leqb s (lit "ansi") then Some CAlwaysAnsi
                     else if leqb s (lit "auto") then Some CAuto
                     else if leqb s (lit "never") then Some CNever
                     else None
  | Some (CNum n) => if n =? 0 then Some CAlways
                     else if n =? 1 then Some CAlwaysAnsi
                     else if n =? 2 then Some CAuto
                     else if n =? 3 then Some CNever
                     else None
  | _ => None
  end.

(* [extract_inner::<Vec<char>>]: an array of characters or one-character strings
   (src/main.rs:115). *)
Definition extract_char (v : cvalue) : option N :=
  match v with
  | CChar c => Some c
  | CStr [c] => Some c
  | _ => None
  end.
(* src/main.rs:115: the items of the array. *)
Fixpoint extract_chars (l : list cvalue) : option (list N) :=
  match l with
  | [] => Some []
  | v :: t => match extract_char v, extract_chars t with
              | Some c, Some r => Some (c :: r)
              | _, _ => None
              end
  end.
(* src/main.rs:115: [Vec<char>]. *)
Definition extract_masking (v : option cvalue) : option (list N) :=
  match v with Some (CArr l) => extract_chars l | _ => None end.

(* [extract_inner::<bool>] (src/main.rs:118). *)
Definition extract_bool (v : option cvalue) : option bool :=
  match v with Some (CBool b) => Some b | _ => None end.

(* [.unwrap()] of an extraction (src/main.rs:111, 116, 119). *)
Definition unwrap {A : Type} (o : option A) : res A :=
  match o with Some a => Ok a | None => Panic end.

(* src/main.rs:109-119: the three values extracted. *)
Record settings : Type := mkSettings {
  set_colour : term_color_choice; set_masking : list N; set_sort : bool }.

(* src/main.rs:107-119 *)
Definition load_settings (e : environment) (m : matches) : res settings :=
  f <- apply_cli_arguments (e_cli_profile e) (config_figment e) m;;
  d <- unwrap (fg_merged f);;
  c <- unwrap (extract_colour (dict_get d "cli_colour"));;
  k <- unwrap (extract_masking (dict_get d "masking_characters"));;
  s <- unwrap (extract_bool (dict_get d "sort_parsed_tags"));;
  Ok (mkSettings (colour_choice_to_term (change_based_on_tty (e_tty e) c)) k s).

(** ** Main *)

(* What running the program does: events on stdout, text on stderr, whether it panicked,
   and whether it printed the help (src/main.rs:103-219). *)
Record outcome : Type := mkOutcome {
  o_stdout : list event; o_stderr : str; o_panic : bool; o_help : bool }.

(* src/main.rs:111, 116, 119: a panic before any output. *)
Definition out_panic : outcome := mkOutcome [] [] true false.
(* src/main.rs:211-212: the help and nothing else. *)
Definition out_help : outcome := mkOutcome [] [] false true.

(* src/main.rs:123-218 for one operation: [.map(display).err()], then printing the error. *)
Definition run_op {A : Type} (r : res A) (display : A -> disp) : outcome :=
  match r with
  | Ok v => let d := display v in mkOutcome (evs d) [] (dead d) false
  | Err e => mkOutcome [] (error_text e ++ [10]) false false
  | Panic | NoFuel => out_panic
  end.

(* src/main.rs:127: [v.display_breakdown(&mut stdout, 0, true)]. *)
Definition show_value (p : platform) (v : value) : disp := display_value p v 0 true.

(* src/main.rs:168-174 (also 182-188, 193-199) *)
Definition show_block (p : platform) (sort : bool) (b : list pnode) : disp :=
  display_block p (if sort then sort_nodes b else b) 0 true.

(* src/main.rs:156-164 *)
Definition auto_header (f : tlv_format) : disp :=
  dset header_colour_spec >>> dtxt (lit "TLV Format: ") >>> dreset
  >>> dln (tlv_format_text f) >>> dln [].

(* src/main.rs:103-219 *)
Definition run_main (p : platform) (e : environment) (m : matches) : outcome :=
  match load_settings e m with
  | Ok st =>
      match m_tvr m with Some s => run_op (rmap ValTvr (tvr_try_from (parse_hex_str s))) (show_value p) | None =>
      match m_ccd_iad m with Some s => run_op (rmap ValIad (iad_try_from (parse_hex_str s))) (show_value p) | None =>
      match m_ccd_cvr m with Some s => run_op (rmap ValCvr (cvr_try_from (parse_hex_str s))) (show_value p) | None =>
      match m_tsi m with Some s => run_op (rmap ValTsi (tsi_try_from (parse_hex_str s))) (show_value p) | None =>
      match m_cvm_results m with Some s => run_op (rmap ValCvmResults (cvm_results_try_from (parse_hex_str s))) (show_value p) | None =>
      match m_cvm_list m with Some s => run_op (rmap ValCvmList (cvm_list_try_from (parse_hex_str s))) (show_value p) | None =>
      match m_identify m with Some s => run_op (rmap ValTagInfo (tag_info_try_from (parse_hex_str s))) (show_value p) | None =>
      match m_auto_tlv m with
      | Some s => run_op (fb <- auto_parse p (set_masking st) s;;
                          b <- process_block (snd fb);;
                          Ok (fst fb, b))
                         (fun fb => auto_header (fst fb) >>> show_block p (set_sort st) (snd fb))
      | None =>
      match m_ber_tlv m with
      | Some s => run_op (b <- ber_parse p (set_masking st) (parse_hex_str s);; process_block b)
                         (show_block p (set_sort st))
      | None =>
      match m_ingenico_tlv m with
      | Some s => run_op (b <- ingenico_parse p (set_masking st) s;; process_block b)
                         (show_block p (set_sort st))
      | None =>
      match m_service_code m with
      | Some s => run_op (n <- parse_str_to_u16 s;; rmap ValServiceCode (service_code_try_from_u16 n))
                         (show_value p)
      | None => out_help
      end end end end end end end end end end end
  | _ => out_panic
  end.
