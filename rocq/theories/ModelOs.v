(** Model of a command line of bytes, as the system hands it over (systems other than Windows):
    clap 4.0.15 splits the words as they are (clap_lex 0.3.0, [RawOsStr]) and decodes values
    only where a value parser reads them.

    [ModelWords.read_words] is used on bytes here: the bytes '-' and '=' and the declared
    spellings are ASCII. Simplified: [ShortFlags] goes through a cluster character by
    character and the model byte by byte; the declared short spellings are ASCII, so both stop
    at the same place. *)

From Coq Require Import NArith List String Bool.
From Verif Require Import Base ModelUtil ModelEnums ModelBitflag ModelSchemas ModelTags ModelTlv
  ModelValues ModelProcess ModelDisplay ModelMain ModelCli ModelWords.
Import ListNotations.
Local Open Scope N_scope.

(* The values of one option as text: clap's [char], [bool], [PossibleValuesParser] and
   [NonEmptyStringValueParser] (src/cli.rs:45-316) all begin with [OsStr::to_str] and report
   [InvalidUtf8]. *)
Fixpoint decode_all (l : list (list N)) : option (list str) :=
  match l with
  | [] => Some []
  | b :: t => match utf8_decode b, decode_all t with
              | Some s, Some r => Some (s :: r)
              | _, _ => None
              end
  end.
(* [Parser::react] for one option, values still bytes (src/main.rs:105). *)
Definition os_step (g : given_args) (o : spelling * list (list N)) : cli_result given_args :=
  match decode_all (snd o) with
  | Some vs => cli_step g (fst o, vs)
  | None => CliError
  end.
(* src/main.rs:105: all occurrences in order. *)
Fixpoint os_steps (g : given_args) (l : list (spelling * list (list N))) : cli_result given_args :=
  match l with
  | [] => CliOk g
  | o :: t => match os_step g o with
              | CliOk g' => os_steps g' t
              | CliHelp => CliHelp
              | CliVersion => CliVersion
              | CliError => CliError
              | CliNothing => CliNothing
              end
  end.
(* [Command::get_matches] on the words of the process (src/main.rs:104-105, src/cli.rs:18-317). *)
Definition os_parse (ws : list (list N)) : cli_result matches :=
  let '(l, stray) := read_words None ws in
  match os_steps [] l with
  | CliOk g => if stray : bool then CliError
               else match g with
                    | [] => CliNothing
                    | _ :: _ => if cli_valid g then CliOk (cli_matches g) else CliError
                    end
  | CliHelp => CliHelp
  | CliVersion => CliVersion
  | CliError => CliError
  | CliNothing => if stray : bool then CliError else CliNothing
  end.
(* The program started with these words (src/main.rs:103-219). *)
Definition run_os (p : platform) (e : environment) (ws : list (list N)) : run_result :=
  match os_parse ws with
  | CliOk m => Ran (run_main p e m)
  | CliHelp => ShowsHelp
  | CliVersion => ShowsVersion
  | CliError => UsageError
  | CliNothing => NoArguments
  end.
