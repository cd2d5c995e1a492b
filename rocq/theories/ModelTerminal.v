(** Model of the stream the program writes to: termcolor's [StandardStream] (version 1.1.3,
    Cargo.lock:301-302) as used by src/main.rs:121 and the [display_breakdown]s.  The
    library's source is not part of the repository; this follows its documented behaviour on
    systems other than Windows. *)

From Coq Require Import NArith List String Bool.
From Verif Require Import Base ModelUtil ModelEnums ModelBitflag ModelTlv ModelDisplay ModelMain.
Import ListNotations.
Local Open Scope N_scope.

(* The environment variables termcolor looks at: TERM and whether NO_COLOR is set
   (src/main.rs:121). *)
Record term_vars : Type := mkVars { v_term : option str; v_no_color : bool }.

(* termcolor [ColorChoice::env_allows_color] (src/main.rs:121). *)
Definition env_allows_color (v : term_vars) : bool :=
  match v_term v with
  | None => false
  | Some t => if leqb t (lit "dumb") then false else negb (v_no_color v)
  end.
(* termcolor [ColorChoice::should_attempt_color]; src/main.rs:121 *)
Definition should_attempt_color (v : term_vars) (c : term_color_choice) : bool :=
  match c with
  | TAlways | TAlwaysAnsi => true
  | TNever => false
  | TAuto => env_allows_color v
  end.

(* termcolor [Ansi::write_color] for a foreground colour without intensity
   (src/output_colours.rs:9-21, src/emv/bitflag_values.rs:165-170). *)
Definition color_digit (c : color) : N := match c with Cyan => 54 | Yellow => 51 | Red => 49 end.
(* termcolor, src/output_colours.rs:9-21: the sequence for a foreground colour. *)
Definition write_fg (c : color) : list N := [27; 91; 51; color_digit c; 109].
(* termcolor [Ansi::reset] (src/main.rs:162). *)
Definition write_reset : list N := [27; 91; 48; 109].
(* termcolor [Ansi::set_color]: [ColorSpec::new] asks for a reset first.  Simplified: only
   the attributes the program uses (bold and foreground) (src/main.rs:160). *)
Definition write_spec (c : color_spec) : list N :=
  write_reset ++ (if cs_bold c then [27; 91; 49; 109] else [])
  ++ (match cs_fg c with Some f => write_fg f | None => [] end).

(* The bytes of an event: [print!] writes UTF-8 to the same buffered stdout; without
   colours [set_color] and [reset] do nothing (src/main.rs:160-164). *)
Definition write_event (colours : bool) (e : event) : list N :=
  match e with
  | Txt s => utf8 s
  | SetColor c => if colours then write_spec c else []
  | ResetColor => if colours then write_reset else []
  end.
(* src/main.rs:160-164: all events. *)
Definition write_events (colours : bool) (l : list event) : list N := flat_map (write_event colours) l.

(* What a run writes to stdout, given the settings; src/main.rs:108-121.  Simplified: the help
   text is clap's and is left out. *)
Definition stdout_bytes (v : term_vars) (st : settings) (o : outcome) : list N :=
  write_events (should_attempt_color v (set_colour st)) (o_stdout o).
(* src/main.rs:211-217: the message. *)
Definition stderr_bytes (o : outcome) : list N := utf8 (o_stderr o).
