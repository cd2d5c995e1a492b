(** Model of src/cli.rs: the declared arguments as a table, and clap's documented reading of
    such a table.

    Simplified: the model starts after the splitting of the command line into occurrences of
    options with their values (clap's lexer is not modelled), so an occurrence is a spelling
    with the list of its values.  Help texts and the wording of usage errors are left out. *)

From Coq Require Import NArith List String Bool.
From Verif Require Import Base ModelUtil ModelEnums ModelBitflag ModelSchemas ModelTags ModelTlv
  ModelValues ModelProcess ModelDisplay ModelMain.
Import ListNotations.
Local Open Scope N_scope.

(** ** The declaration *)

(* clap [ArgAction] and the value parsers used in src/cli.rs (src/cli.rs:34, 42, 52, 71, 94). *)
Inductive action : Type := ActSet | ActAppend | ActHelp | ActVersion.
(* src/cli.rs:54, 73, 96, 126: the value parsers. *)
Inductive value_parser : Type := AnyOf (l : list string) | OneChar | OneBool | NonEmpty.

(* One [Arg]: identifier, short and long spellings (with aliases), groups, [num_args] (least
   and, if limited, greatest number of values), [default_value]s, [default_missing_value]s,
   action, value parser, [conflicts_with], [requires] (src/cli.rs:28-316). *)
Record arg : Type := mkArg {
  a_id : string; a_shorts : list string; a_longs : list string; a_groups : list string;
  a_min : N; a_max : option N; a_default : list string; a_missing : list string;
  a_action : action; a_parser : value_parser; a_conflicts : list string; a_requires : list string }.

(* src/cli.rs:116-316: the common shape of the operations. *)
Definition operation_arg (id : string) (shorts longs groups : list string) : arg :=
  mkArg id shorts longs groups 1 (Some 1) [] [] ActSet NonEmpty [] [].

Local Open Scope string_scope.

(* src/cli.rs:18-317 (help texts left out) *)
Definition cli_args : list arg := [
  (* src/cli.rs:28-36 *)
  mkArg "help" ["h"; "?"] ["help"] [] 0 (Some 0%N) [] [] ActHelp NonEmpty [] [];
  (* src/cli.rs:37-44 *)
  mkArg "version" ["V"] ["version"] [] 0 (Some 0%N) [] [] ActVersion NonEmpty [] [];
  (* src/cli.rs:45-62 *)
  mkArg "colour" [] ["colour"; "color"] [] 1 (Some 1%N) ["auto"] ["always"] ActSet
        (AnyOf ["auto"; "always"; "ansi"; "never"]) [] [];
  (* src/cli.rs:63-86 *)
  mkArg "masking-character" ["m"] ["masking-character"; "masking-char"; "masking"] [] 1 None ["*"] [] ActAppend
        OneChar [] ["tlv-parsers"];
  (* src/cli.rs:87-100 *)
  mkArg "sort-parsed-tags" [] ["sort-parsed-tags"; "sort"] [] 0 (Some 1%N) ["true"] ["true"] ActSet
        OneBool ["no-sort-parsed-tags"] ["tlv-parsers"];
  (* src/cli.rs:101-116 *)
  mkArg "no-sort-parsed-tags" [] ["no-sort-parsed-tags"; "no-sort"] [] 0 (Some 1%N) ["false"] ["true"] ActSet
        OneBool [] ["tlv-parsers"];
  (* src/cli.rs:118-134 *)
  operation_arg "identify" [] ["identify"; "id"] ["operations"];
  (* src/cli.rs:135-149 *)
  operation_arg "auto-tlv" ["a"] ["auto-tlv"; "auto"; "parse-tlv"; "parse"] ["operations"; "tlv-parsers"];
  (* src/cli.rs:150-168 *)
  operation_arg "ber-tlv" ["b"] ["ber-tlv"; "ber"] ["operations"; "tlv-parsers"];
  (* src/cli.rs:169-185 *)
  operation_arg "ingenico-tlv" ["i"] ["ingenico-tlv"; "ingenico"] ["operations"; "tlv-parsers"];
  (* src/cli.rs:187-207 *)
  operation_arg "tvr" ["t"] ["tvr"; "95"; "iac"; "tac"] ["operations"];
  (* src/cli.rs:208-227 *)
  operation_arg "ccd-iad" [] ["ccd-iad"; "9F10"; "9f10"; "iad"] ["operations"];
  (* src/cli.rs:228-244 *)
  operation_arg "ccd-cvr" [] ["ccd-cvr"; "cvr"] ["operations"];
  (* src/cli.rs:245-261 *)
  operation_arg "tsi" [] ["tsi"; "9B"; "9b"] ["operations"];
  (* src/cli.rs:262-279 *)
  operation_arg "cvm-results" ["r"] ["cvm-results"; "9F34"; "9f34"; "cvm-result"] ["operations"];
  (* src/cli.rs:280-298 *)
  operation_arg "cvm-list" [] ["cvm-list"; "8E"; "8e"] ["operations"];
  (* src/cli.rs:300-316 *)
  operation_arg "service-code" [] ["service-code"; "5F30"; "5f30"] ["operations"]].

Local Close Scope string_scope.

(** ** clap *)

(* One option on the command line with its values (src/cli.rs:30-31). *)
Inductive spelling : Type := Short (s : string) | Long (s : string).
(* src/cli.rs:28-316: an option as given. *)
Definition occurrence : Type := spelling * list str.

(* src/cli.rs:54: membership in a list of spellings or values. *)
Definition member (s : string) (l : list string) : bool := existsb (String.eqb s) l.
(* src/cli.rs:28-316: [short], [long] and the aliases. *)
Definition spelt (sp : spelling) (a : arg) : bool :=
  match sp with Short s => member s (a_shorts a) | Long s => member s (a_longs a) end.

(* clap's [PossibleValuesParser], [char], [bool] and [NonEmptyStringValueParser]
   (src/cli.rs:54, 73, 96, 126). *)
Definition value_ok (vp : value_parser) (s : str) : bool :=
  match vp with
  | AnyOf l => existsb (fun x => leqb s (lit x)) l
  | OneChar => len s =? 1
  | OneBool => leqb s (lit "true") || leqb s (lit "false")
  | NonEmpty => match s with [] => false | _ :: _ => true end
  end.

(* The explicitly given values, newest argument first (src/main.rs:105). *)
Definition given_args : Type := list (string * list str).
(* src/main.rs:105: the values of one argument. *)
Fixpoint given_values (g : given_args) (id : string) : option (list str) :=
  match g with
  | [] => None
  | (k, v) :: t => if String.eqb k id then Some v else given_values t id
  end.
(* src/main.rs:105: whether an argument was given. *)
Definition is_given (g : given_args) (id : string) : bool :=
  match given_values g id with Some _ => true | None => false end.

(* What clap returns: matches, or it prints help, version, a usage error or (if there are no
   arguments at all) help and exits (src/main.rs:105, src/cli.rs:24). *)
Inductive cli_result (A : Type) : Type := CliOk (a : A) | CliHelp | CliVersion | CliError | CliNothing.
Arguments CliOk {A} a.
Arguments CliHelp {A}.
Arguments CliVersion {A}.
Arguments CliError {A}.
Arguments CliNothing {A}.

(* One occurrence: known option, right number of values, valid values; [Set] once only,
   [Append] adds; help and version act at once (src/main.rs:105). *)
Definition cli_step (g : given_args) (o : occurrence) : cli_result given_args :=
  match find (spelt (fst o)) cli_args with
  | None => CliError
  | Some a =>
      let n := len (snd o) in
      if (n <? a_min a) || match a_max a with Some m => m <? n | None => false end then CliError
      else
        let vals := match snd o with [] => map lit (a_missing a) | _ :: _ => snd o end in
        match a_action a with
        | ActHelp => CliHelp
        | ActVersion => CliVersion
        | ActSet => if negb (forallb (value_ok (a_parser a)) vals) then CliError
                    else if is_given g (a_id a) then CliError
                    else CliOk ((a_id a, vals) :: g)
        | ActAppend => if negb (forallb (value_ok (a_parser a)) vals) then CliError
                       else CliOk ((a_id a, match given_values g (a_id a) with Some v => v | None => [] end ++ vals) :: g)
        end
  end.
(* src/main.rs:105: all occurrences in order. *)
Fixpoint cli_steps (g : given_args) (l : list occurrence) : cli_result given_args :=
  match l with
  | [] => CliOk g
  | o :: t => match cli_step g o with
              | CliOk g' => cli_steps g' t
              | CliHelp => CliHelp
              | CliVersion => CliVersion
              | CliError => CliError
              | CliNothing => CliNothing
              end
  end.

(* Whether an identifier names the argument or one of its groups (src/cli.rs:120, 137-138). *)
Definition named (id : string) (a : arg) : bool := String.eqb id (a_id a) || member id (a_groups a).
(* Two arguments exclude each other: declared so, or both in one group (the groups of
   src/cli.rs do not allow [multiple]). *)
Definition excludes (a b : arg) : bool :=
  negb (String.eqb (a_id a) (a_id b))
  && (existsb (fun c => named c b) (a_conflicts a) || existsb (fun c => named c a) (a_conflicts b)
      || existsb (fun gr => member gr (a_groups b)) (a_groups a)).

(* clap's validation of what was given explicitly (src/cli.rs:97-98, 111). *)
Definition cli_valid (g : given_args) : bool :=
  let present := filter (fun a => is_given g (a_id a)) cli_args in
  forallb (fun a => forallb (fun b => negb (excludes a b)) present) present
  && forallb (fun a => forallb (fun r => existsb (named r) present) (a_requires a)) present.

(* Values with their source: given, or the defaults (src/cli.rs:50, 70, 92, 106). *)
Definition lookup (g : given_args) (id : string) : option (list str * value_source) :=
  match given_values g id with
  | Some v => Some (v, SrcCommandLine)
  | None => match find (fun a => String.eqb (a_id a) id) cli_args with
            | Some a => match a_default a with [] => None | d => Some (map lit d, SrcDefault) end
            | None => None
            end
  end.
(* [get_one::<String>] and [get_one::<bool>], [get_many::<char>] with [value_source]
   (src/main.rs:125-203). *)
Definition get_text (g : given_args) (id : string) : option str :=
  match lookup g id with Some (s :: _, _) => Some s | _ => None end.
(* src/config/mod.rs:111-112: the value with its source. *)
Definition get_sourced (g : given_args) (id : string) : option (str * value_source) :=
  match lookup g id with Some (s :: _, src) => Some (s, src) | _ => None end.
(* src/config/mod.rs:133-140: a boolean with its source. *)
Definition get_bool (g : given_args) (id : string) : option (bool * value_source) :=
  match lookup g id with Some (s :: _, src) => Some (leqb s (lit "true"), src) | _ => None end.
(* src/config/mod.rs:122-127: characters with their source. *)
Definition get_chars (g : given_args) (id : string) : option (list N * value_source) :=
  match lookup g id with Some (v, src) => Some (List.concat v, src) | None => None end.

(* src/main.rs:105: [get_matches]. *)
Definition cli_matches (g : given_args) : matches :=
  mkMatches (get_text g "tvr") (get_text g "ccd-iad") (get_text g "ccd-cvr") (get_text g "tsi")
            (get_text g "cvm-results") (get_text g "cvm-list") (get_text g "identify")
            (get_text g "auto-tlv") (get_text g "ber-tlv") (get_text g "ingenico-tlv")
            (get_text g "service-code") (get_sourced g "colour") (get_chars g "masking-character")
            (get_bool g "sort-parsed-tags") (get_bool g "no-sort-parsed-tags").

(* [Command::get_matches] with [arg_required_else_help] (src/cli.rs:24, src/main.rs:104-105). *)
Definition cli_parse (l : list occurrence) : cli_result matches :=
  match cli_steps [] l with
  | CliOk [] => CliNothing
  | CliOk g => if cli_valid g then CliOk (cli_matches g) else CliError
  | CliHelp => CliHelp
  | CliVersion => CliVersion
  | CliError => CliError
  | CliNothing => CliNothing
  end.

(** ** The whole program *)

(* What a run does: the outcome of main after clap, or clap's own exits (src/main.rs:103-219). *)
Inductive run_result : Type := Ran (o : outcome) | ShowsHelp | ShowsVersion | UsageError | NoArguments.
(* src/main.rs:103-219: clap, then the rest of [main]. *)
Definition run_program (p : platform) (e : environment) (l : list occurrence) : run_result :=
  match cli_parse l with
  | CliOk m => Ran (run_main p e m)
  | CliHelp => ShowsHelp
  | CliVersion => ShowsVersion
  | CliError => UsageError
  | CliNothing => NoArguments
  end.

(* The exit status: main returns unit (src/main.rs:103-219), a panic gives 101, clap exits
   with 2 after a usage error and when it prints help for want of arguments. *)
Definition exit_status (r : run_result) : N :=
  match r with
  | Ran o => if o_panic o then 101 else 0
  | ShowsHelp | ShowsVersion => 0
  | UsageError | NoArguments => 2
  end.
