(** Model of what the program finds outside (src/config/mod.rs:19-25 and 69-87): the
    environment variables and the configuration file they name, as figment 0.10.7 reads them
    ([providers::Env], [value::parse], [Profile::from_env_or]).

    Simplified: names and texts of variables are Unicode strings; a key other than the three
    settings of [Config] is dropped at once (nothing ever extracts it); a table, or a number
    that is not a u32, is [COther] without its contents (nothing extracts one). *)

From Coq Require Import NArith List String Bool.
From Verif Require Import Base ModelUtil ModelMain ModelCli ModelWords ModelTerminal.
Import ListNotations.
Local Open Scope N_scope.

(** ** Constants *)

(* src/config/mod.rs:20 *)
Definition file_name : str := lit "pemv.toml".
(* src/config/mod.rs:22 *)
Definition env_prefix : str := lit "PEMV_".
(* src/config/mod.rs:24 *)
Definition env_file_name_override : str := lit "CONFIG".
(* src/config/mod.rs:25 *)
Definition env_profile : str := lit "PROFILE".

(** ** Names *)

(* crate uncased: comparison up to the case of ASCII letters
   (used by figment for src/config/mod.rs:70-86). *)
Definition ascii_lower (c : N) : N := if (65 <=? c) && (c <=? 90) then c + 32 else c.
(* used by figment for src/config/mod.rs:70-86: [UncasedStr] equality. *)
Definition uncased_eqb (a b : str) : bool := leqb (map ascii_lower a) (map ascii_lower b).
(* [UncasedStr::starts_with] together with the rest of the text (src/config/mod.rs:79). *)
Fixpoint uncased_strip (prefix s : str) : option str :=
  match prefix, s with
  | [], _ => Some s
  | a :: p, b :: t => if ascii_lower a =? ascii_lower b then uncased_strip p t else None
  | _ :: _, [] => None
  end.

(* The environment: names and texts in the order of [std::env::vars_os]
   (src/config/mod.rs:72, 79, 83). *)
Definition variables := list (str * str).

(* [Env::var]: the first variable of this name; spaces around name and text do not count
   (src/config/mod.rs:72, 83). *)
Fixpoint env_var (vars : variables) (name : str) : option str :=
  match vars with
  | [] => None
  | (k, v) :: t => if uncased_eqb (trim k) name then Some (trim v) else env_var t name
  end.
(* [Env::var_or] (src/config/mod.rs:72-75, 83-86). *)
Definition env_var_or (vars : variables) (name default : str) : str :=
  match env_var vars name with Some v => v | None => default end.

(* [str::split('.')]: the first part and the others
   (used by figment for src/config/mod.rs:79-81). *)
Fixpoint split_dots (s : str) : str * list str :=
  match s with
  | [] => ([], [])
  | c :: t => let '(a, r) := split_dots t in if c =? 46 then ([], a :: r) else (c :: a, r)
  end.
(* used by figment for src/config/mod.rs:79-81: [is_empty]. *)
Definition is_nil (s : str) : bool := match s with [] => true | _ :: _ => false end.

(* [Env::prefixed], [Env::ignore] and [Env::iter] for one name: the parts of the key it sets
   (src/config/mod.rs:78-80). *)
Definition env_key (name : str) : option (str * list str) :=
  match uncased_strip env_prefix (trim name) with
  | None => None
  | Some k =>
      if uncased_eqb k env_file_name_override || uncased_eqb k env_profile then None
      else let '(a, r) := split_dots (trim k) in
           if existsb is_nil (a :: r) then None else Some (map ascii_lower a, r)
  end.

(** ** Texts *)

(* [char::is_ascii_whitespace] (used by figment for src/config/mod.rs:79-81). *)
Definition is_ascii_whitespace (c : N) : bool :=
  (c =? 9) || (c =? 10) || (c =? 12) || (c =? 13) || (c =? 32).
(* figment value/parse.rs [is_not_separator]: none of , { } [ ] *)
Definition is_not_separator (c : N) : bool :=
  negb ((c =? 44) || (c =? 123) || (c =? 125) || (c =? 91) || (c =? 93)).
(* figment value/parse.rs [is_ident_char] *)
Definition is_ident_char (c : N) : bool :=
  ((48 <=? c) && (c <=? 57)) || ((65 <=? c) && (c <=? 90)) || ((97 <=? c) && (c <=? 122)) || (c =? 95) || (c =? 45).

(* pear [skip_while] and [take_while] (used by figment for src/config/mod.rs:79-81). *)
Fixpoint span (p : N -> bool) (s : str) : str * str :=
  match s with
  | [] => ([], [])
  | c :: t => if p c then let '(a, b) := span p t in (c :: a, b) else ([], s)
  end.
(* used by figment for src/config/mod.rs:79-81: blanks in front. *)
Definition skip_blanks (s : str) : str := snd (span is_ascii_whitespace s).

(* [str::parse::<f64>]: whether it accepts the text; what [usize] and [isize] accept, it
   accepts too (used by figment for src/config/mod.rs:79-81). *)
Definition is_digit (c : N) : bool := (48 <=? c) && (c <=? 57).
(* used by figment for src/config/mod.rs:79-81: an optional sign. *)
Definition strip_sign (s : str) : str :=
  match s with c :: t => if (c =? 43) || (c =? 45) then t else s | [] => [] end.
(* used by figment for src/config/mod.rs:79-81: the exponent of a number. *)
Definition is_exponent (s : str) : bool :=
  match s with
  | [] => true
  | c :: t => ((c =? 101) || (c =? 69))
              && (let '(a, b) := span is_digit (strip_sign t) in negb (is_nil a) && is_nil b)
  end.
(* used by figment for src/config/mod.rs:79-81: digits with or without a point. *)
Definition is_decimal (s : str) : bool :=
  let '(a, r) := span is_digit s in
  match r with
  | c :: t => if c =? 46 then let '(b, e) := span is_digit t in negb (is_nil a && is_nil b) && is_exponent e
              else negb (is_nil a) && is_exponent r
  | [] => negb (is_nil a)
  end.
(* used by figment for src/config/mod.rs:79-81: what [str::parse::<f64>] accepts. *)
Definition is_number (s : str) : bool :=
  let u := strip_sign s in
  uncased_eqb u (lit "inf") || uncased_eqb u (lit "infinity") || uncased_eqb u (lit "nan") || is_decimal u.

(* [str::parse::<usize>] or else [isize], followed by [Num::to_u32]; a larger or negative number is
   not converted, however it is held
   (used by figment for src/config/mod.rs:79-81, src/main.rs:110). *)
Definition number_u32 (s : str) : option N :=
  let u := strip_sign s in
  if forallb is_digit u && negb (is_nil u) then
    let n := fold_left (fun a c => a * 10 + (c - 48)) u 0 in
    let minus := match s with c :: _ => c =? 45 | [] => false end in
    if (n <? 2 ^ 32) && (negb minus || (n =? 0)) then Some n else None
  else None.

(* A value that is not quoted (used by figment for src/config/mod.rs:79-81). *)
Definition bare_value (s : str) : cvalue :=
  let w := trim s in
  if leqb w (lit "true") then CBool true
  else if leqb w (lit "false") then CBool false
  else if is_number w then match number_u32 w with Some n => CNum n | None => COther end
  else CStr w.

(* figment value/parse.rs [string] after the first '"': the text up to the next '"' that is not
   escaped, and the rest.  Simplified: a text with an escape, or with a control character
   other than a tab, is [None]; figment would read some of these. *)
Fixpoint quoted_text (s : str) : option (str * str) :=
  match s with
  | [] => None
  | c :: t => if c =? 34 then Some ([], t)
              else if (c =? 92) || ((c <? 32) && negb (c =? 9)) || (c =? 127) then None
              else match quoted_text t with Some (a, b) => Some (c :: a, b) | None => None end
  end.

(* figment value/parse.rs [key_value] up to and including the '='. *)
Definition table_key (s : str) : option str :=
  let s := skip_blanks s in
  let k := match s with
           | c :: t => if c =? 34 then option_map snd (quoted_text t)
                       else match span is_ident_char s with ([], _) => None | (_, r) => Some r end
           | [] => None
           end in
  match k with
  | Some r => match skip_blanks r with c :: t => if c =? 61 then Some t else None | [] => None end
  | None => None
  end.

(* figment value/parse.rs [value], [array] and [dict]: the value and the rest of the text.
   [parse_items] reads the elements of an array or a table (with [table = true]) up to its end. *)
Fixpoint parse_value (fuel : nat) (s : str) : option (cvalue * str) :=
  match fuel with
  | O => None
  | S f =>
      let s := skip_blanks s in
      let r := match s with
               | c :: t =>
                   if c =? 123 then match parse_items f true t with Some (_, r) => Some (COther, r) | None => None end
                   else if c =? 91 then match parse_items f false t with Some (l, r) => Some (CArr l, r) | None => None end
                   else if c =? 34 then match quoted_text t with Some (a, b) => Some (CStr a, b) | None => None end
                   else if c =? 39 then match t with
                                        | x :: q :: u => if q =? 39 then Some (CChar x, u) else None
                                        | _ => None
                                        end
                   else let '(a, b) := span is_not_separator s in Some (bare_value a, b)
               | [] => Some (bare_value [], [])
               end in
      match r with Some (v, rest) => Some (v, skip_blanks rest) | None => None end
  end
(* used by figment for src/config/mod.rs:79-81: the items of an array or a table. *)
with parse_items (fuel : nat) (table : bool) (s : str) : option (list cvalue * str) :=
  match fuel with
  | O => None
  | S f =>
      let close := if table then 125 else 93 in
      let items := match (if table then table_key s else Some s) with
                   | Some s1 => match parse_value f s1 with
                                | Some (v, c :: t) =>
                                    if c =? 44 then match parse_items f table t with Some (l, r) => Some (v :: l, r) | None => None end
                                    else if c =? close then Some ([v], t) else None
                                | _ => None
                                end
                   | None => None
                   end in
      match s with
      | c :: t => if c =? close then Some ([], t) else items
      | [] => items
      end
  end.

(* [impl FromStr for Value]: a text that is not a value as a whole is a string
   (used by figment for src/config/mod.rs:79-81). *)
Definition value_of_text (s : str) : cvalue :=
  match parse_value (S (S (2 * List.length s))) s with
  | Some (v, []) => v
  | _ => CStr s
  end.

(** ** What the program starts from *)

(* The keys of [Config] (src/config/mod.rs:51-55). *)
Definition setting_of_key (k : str) : option string :=
  if leqb k (lit "cli_colour") then Some "cli_colour"%string
  else if leqb k (lit "masking_characters") then Some "masking_characters"%string
  else if leqb k (lit "sort_parsed_tags") then Some "sort_parsed_tags"%string
  else None.

(* [Env::data]: one variable after the other, a later one over an earlier one; a key in
   several parts sets a table (src/config/mod.rs:79-81). *)
Definition env_entry (var : str * str) : dict :=
  match env_key (fst var) with
  | None => []
  | Some (a, r) => match setting_of_key a with
                   | None => []
                   | Some k => [(k, match r with [] => value_of_text (snd var) | _ :: _ => COther end)]
                   end
  end.
(* src/config/mod.rs:79-81: all variables. *)
Definition env_dict (vars : variables) : dict := fold_left (fun d var => dict_merge d (env_entry var)) vars [].

(* [Profile::from] (src/config/mod.rs:83-86). *)
Definition profile_named (s : str) : profile :=
  if uncased_eqb s (lit "default") then ProfDefault
  else if uncased_eqb s (lit "global") then ProfGlobal
  else ProfCustom (map ascii_lower s).

(* What is outside: the variables, what figment finds for a file name (see [environment]),
   whether stdout is a terminal, and [e_cli_profile]
   (src/config/mod.rs:69-87, src/config/colour_choice.rs:93). *)
Record world : Type := mkWorld {
  w_vars : variables; w_files : str -> option (profile -> dict); w_tty : bool; w_cli_profile : profile }.

(* src/config/mod.rs:69-87 *)
Definition environment_of (w : world) : environment :=
  mkEnv (w_files w (env_var_or (w_vars w) (env_prefix ++ env_file_name_override) file_name))
        (env_dict (w_vars w))
        (profile_named (env_var_or (w_vars w) (env_prefix ++ env_profile) (lit "default")))
        (w_tty w) (w_cli_profile w).

(* The program started with these words in this world (src/main.rs:103-219). *)
Definition run_outside (p : platform) (w : world) (ws : list str) : run_result := run_words p (environment_of w) ws.

(* std [env::var_os] (systems other than Windows): the first variable of exactly this name
   (termcolor for src/main.rs:121). *)
Fixpoint var_os (vars : variables) (name : str) : option str :=
  match vars with
  | [] => None
  | (k, v) :: t => if leqb k name then Some v else var_os t name
  end.
(* The variables termcolor looks at; see ModelTerminal (src/main.rs:121). *)
Definition term_vars_of (vars : variables) : term_vars :=
  mkVars (var_os vars (lit "TERM")) (match var_os vars (lit "NO_COLOR") with Some _ => true | None => false end).
(* The bytes the run writes to stdout (src/main.rs:103-219), without the texts that are clap's. *)
Definition outside_stdout (p : platform) (w : world) (ws : list str) : list N :=
  match words_parse ws with
  | CliOk m => match load_settings (environment_of w) m with
               | Ok st => stdout_bytes (term_vars_of (w_vars w)) st (run_main p (environment_of w) m)
               | _ => []
               end
  | _ => []
  end.
