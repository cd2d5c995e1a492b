(** Model of clap's splitting of the command line into options and values (clap 4.0.15,
    [Parser::get_matches_with], clap_lex 0.3.0), for the arguments declared in src/cli.rs.

    Simplified: the words are Unicode strings (see ModelOs.v for words that are not valid
    UTF-8); the program's own name is left out; no argument of
    src/cli.rs is positional or uses [require_equals], [allow_hyphen_values],
    [value_delimiter], [value_terminator] or subcommands, so these are left out. *)

From Coq Require Import NArith List String Bool.
From Verif Require Import Base ModelUtil ModelEnums ModelBitflag ModelSchemas ModelTags ModelTlv
  ModelValues ModelProcess ModelDisplay ModelMain ModelCli.
Import ListNotations.
Local Open Scope N_scope.

(* The characters '-' and '=' (clap for src/main.rs:105). *)
Definition hyphen : N := 45.
(* clap for src/main.rs:105: the character '='. *)
Definition equals : N := 61.

(* [RawOsStr::split_once("=")] (clap for src/main.rs:105). *)
Fixpoint split_equals (s : str) : str * option str :=
  match s with
  | [] => ([], None)
  | c :: t => if c =? equals then ([], Some t)
              else let '(a, b) := split_equals t in (c :: a, b)
  end.

(* clap_lex [ParsedArg]: [is_escape], [to_long], [to_short]; what is none of these is a value
   (clap for src/main.rs:105). *)
Inductive word_kind : Type :=
| Escape | LongWord (name : str) (attached : option str) | ShortWord (cluster : str) | ValueWord.
(* clap for src/main.rs:105: which of them a word is. *)
Definition word_kind_of (w : str) : word_kind :=
  match w with
  | c1 :: t1 =>
      if c1 =? hyphen then
        match t1 with
        | [] => ValueWord
        | c2 :: t2 =>
            if c2 =? hyphen then
              match t2 with
              | [] => Escape
              | _ :: _ => let '(a, b) := split_equals t2 in LongWord a b
              end
            else ShortWord t1
        end
      else ValueWord
  | [] => ValueWord
  end.

(* The declared argument with this long or short spelling (clap's key map)
   (clap for src/main.rs:105). *)
Definition find_long (w : str) : option (string * arg) :=
  find (fun xa => leqb (lit (fst xa)) w) (flat_map (fun a => map (fun x => (x, a)) (a_longs a)) cli_args).
(* clap for src/main.rs:105: by its character. *)
Definition find_short (c : N) : option (string * arg) :=
  find (fun xa => leqb (lit (fst xa)) [c]) (flat_map (fun a => map (fun x => (x, a)) (a_shorts a)) cli_args).

(* [Arg::is_takes_value_set]; [ValueRange::accepts_more] (clap for src/main.rs:105). *)
Definition takes_value (a : arg) : bool :=
  match a_action a with ActSet | ActAppend => true | ActHelp | ActVersion => false end.
(* clap for src/main.rs:105: [ValueRange::accepts_more]. *)
Definition accepts_more (a : arg) (n : N) : bool := match a_max a with Some m => n <? m | None => true end.

(* An option waiting for values, with the values so far (clap for src/main.rs:105). *)
Definition pending : Type := option (spelling * arg * list str).
(* clap for src/main.rs:105: the occurrence that is complete. *)
Definition flush (p : pending) : list occurrence :=
  match p with Some (sp, _, vs) => [(sp, vs)] | None => [] end.

(* [Parser::parse_short_arg]: flags in front, then possibly an option with the rest of the word
   as its value, without a leading '='.  [None]: an undeclared character
   (clap for src/main.rs:105). *)
Fixpoint read_cluster (cs : str) : list occurrence * option pending :=
  match cs with
  | [] => ([], Some None)
  | c :: rest =>
      match find_short c with
      | None => ([], None)
      | Some (x, a) =>
          if takes_value a then
            match rest with
            | [] => ([], Some (Some (Short x, a, [])))
            | d :: rest' => ([(Short x, [if d =? equals then rest' else rest])], Some None)
            end
          else let '(l, e) := read_cluster rest in ((Short x, []) :: l, e)
      end
  end.

(* [Parser::get_matches_with]: the occurrences up to the end of the words or up to the first
   word that fits nowhere; whether there was such a word (clap for src/main.rs:105). *)
Fixpoint read_words (p : pending) (ws : list str) : list occurrence * bool :=
  match ws with
  | [] => (flush p, false)
  | w :: t =>
      match word_kind_of w with
      | Escape => (flush p, match t with [] => false | _ :: _ => true end)
      | LongWord name attached =>
          match find_long name with
          | None => (flush p, true)
          | Some (x, a) =>
              match attached with
              | Some v => let '(l, s) := read_words None t in (flush p ++ (Long x, [v]) :: l, s)
              | None => if takes_value a
                        then let '(l, s) := read_words (Some (Long x, a, [])) t in (flush p ++ l, s)
                        else let '(l, s) := read_words None t in (flush p ++ (Long x, []) :: l, s)
              end
          end
      | ShortWord cluster =>
          match read_cluster cluster with
          | (l1, None) => (flush p ++ l1, true)
          | (l1, Some p') => let '(l, s) := read_words p' t in (flush p ++ l1 ++ l, s)
          end
      | ValueWord =>
          match p with
          | None => ([], true)
          | Some (sp, a, vs) =>
              let vs' := vs ++ [w] in
              if accepts_more a (len vs') then read_words (Some (sp, a, vs')) t
              else let '(l, s) := read_words None t in ((sp, vs') :: l, s)
          end
      end
  end.

(* The whole of clap: the occurrences are handled in order, so help, version and errors before
   the misplaced word win; then the misplaced word is an error (clap for src/main.rs:105). *)
Definition words_parse (ws : list str) : cli_result matches :=
  let '(l, stray) := read_words None ws in
  if stray : bool
  then match cli_steps [] l with
       | CliHelp => CliHelp
       | CliVersion => CliVersion
       | _ => CliError
       end
  else cli_parse l.

(* The program started with these words (src/main.rs:103-219). *)
Definition run_words (p : platform) (e : environment) (ws : list str) : run_result :=
  match words_parse ws with
  | CliOk m => Ran (run_main p e m)
  | CliHelp => ShowsHelp
  | CliVersion => ShowsVersion
  | CliError => UsageError
  | CliNothing => NoArguments
  end.
