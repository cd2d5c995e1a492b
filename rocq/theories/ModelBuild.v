(** Model of the build script (build.rs), which writes the man page and the shell completions
    of a release build.

    Simplified: variables and paths are text; the entries of the .env file are those dotenv
    0.15.0 reads before its first syntax error (the search for the file and its syntax are not
    modelled); what clap_mangen 0.2.2 and clap_complete 4.0.2 render is a parameter; a path
    stands for one file (no links); printing to cargo does not fail. *)

From Coq Require Import NArith List String Bool.
From Verif Require Import Base ModelMain ModelCli ModelWords ModelEnv ModelFiles.
Import ListNotations.
Local Open Scope N_scope.

(* std [env::var] on the variables of the process (build.rs:39, 70 use [var_os]). *)
Definition variables : Type := list (str * str).
(* build.rs:39, 70: [var_os]. *)
Fixpoint get_var (vars : variables) (key : str) : option str :=
  match vars with
  | [] => None
  | (k, v) :: t => if leqb k key then Some v else get_var t key
  end.
(* build.rs:22 with dotenv's [Iter::load]: a variable that is already set is left alone. *)
Fixpoint load_dotenv (vars entries : variables) : variables :=
  match entries with
  | [] => vars
  | (k, v) :: t => match get_var vars k with
                   | Some _ => load_dotenv vars t
                   | None => load_dotenv (vars ++ [(k, v)]) t
                   end
  end.

(* build.rs:13-14 *)
Definition man_page_var : str := lit "MAN_PAGE_OUT_DIR".
(* build.rs:14: [COMPLETION_SCRIPTS_OUT_DIR_VAR]. *)
Definition completion_scripts_var : str := lit "COMPLETION_SCRIPTS_OUT_DIR".
(* src/cli.rs:8 *)
Definition application_bin_name : str := lit "pemv".

(* build.rs:4-8; clap_complete's [Generator::file_name] of each. *)
Inductive shell : Type := Bash | Elvish | Fish | PowerShell | Zsh.
(* build.rs:106: the name under which clap_complete's [generate_to] writes the script. *)
Definition script_name (sh : shell) : str :=
  match sh with
  | Bash => application_bin_name ++ lit ".bash"
  | Elvish => application_bin_name ++ lit ".elv"
  | Fish => application_bin_name ++ lit ".fish"
  | PowerShell => lit "_" ++ application_bin_name ++ lit ".ps1"
  | Zsh => lit "_" ++ application_bin_name
  end.

(* What is rendered from the command line definition (build.rs:27). *)
Record rendered : Type := mkRendered { page : list N; script : shell -> list N }.
(* What happens to a file that is written: it cannot be created, or there is room for so many bytes
   (build.rs:58, 106). *)
Inductive room : Type := Refused | Room (n : N).
(* build.rs:58, 106: one answer per path. *)
Definition rooms : Type := str -> room.
(* The files of the system with their contents (build.rs:58, 106 write them). *)
Definition files : Type := str -> option (list N).
(* build.rs:58, 106: the files after one has been written. *)
Definition put (d : files) (path : str) (bytes : list N) : files := fun q => if leqb q path then Some bytes else d q.

(* The lines [cargo:warning=...] printed (build.rs:42-46, 60-63, 73-77, 107-110). *)
Inductive notice : Type := NoManDirectory | NoScriptDirectory | ManGenerated (path : str) | ScriptGenerated (sh : shell) (path : str).
(* build.rs:20-35: how [main] ends. *)
Inductive ending : Type := Finished | Failed | Panicked.
(* build.rs:20-35: what a build leaves. *)
Record building : Type := mkBuilding { b_files : files; b_notices : list notice; b_ending : ending }.

(* std [fs::write]: create or truncate the file, then write all of it (build.rs:58, 106). *)
Definition write_file (rm : rooms) (d : files) (path : str) (bytes : list N) : files * bool :=
  match rm path with
  | Refused => (d, false)
  | Room n => if len bytes <=? n then (put d path bytes, true) else (put d path (firstn (N.to_nat n) bytes), false)
  end.
(* build.rs:58, 106: creating the file fails. *)
Definition file_refused (rm : rooms) (path : str) : bool := match rm path with Refused => true | Room _ => false end.

(* [?] (build.rs:30-31, 83-92). *)
Definition followed_by (b : building) (next : files -> building) : building :=
  match b_ending b with
  | Finished => let b' := next (b_files b) in mkBuilding (b_files b') (b_notices b ++ b_notices b') (b_ending b')
  | _ => b
  end.

(* build.rs:37-66 *)
Definition generate_man_page (r : rendered) (vars : variables) (rm : rooms) (d : files) : building :=
  match get_var vars man_page_var with
  | None => mkBuilding d [NoManDirectory] Finished
  | Some out_dir =>
      let output_path := path_join out_dir (application_bin_name ++ lit ".1") in
      let '(d', ok) := write_file rm d output_path (page r) in
      if ok : bool then mkBuilding d' [ManGenerated output_path] Finished else mkBuilding d' [] Failed
  end.
(* build.rs:97-113; [generate_to] returns the error of [File::create] and panics if writing fails. *)
Definition generate_shell_completion (r : rendered) (rm : rooms) (out_dir : str) (sh : shell) (d : files) : building :=
  let output_path := path_join out_dir (script_name sh) in
  let '(d', ok) := write_file rm d output_path (script r sh) in
  if ok : bool then mkBuilding d' [ScriptGenerated sh output_path] Finished
  else mkBuilding d' [] (if file_refused rm output_path then Failed else Panicked).
(* build.rs:68-95 *)
Definition generate_shell_completions (r : rendered) (vars : variables) (rm : rooms) (d : files) : building :=
  match get_var vars completion_scripts_var with
  | None => mkBuilding d [NoScriptDirectory] Finished
  | Some out_dir =>
      followed_by (generate_shell_completion r rm out_dir Bash d) (fun d =>
      followed_by (generate_shell_completion r rm out_dir Elvish d) (fun d =>
      followed_by (generate_shell_completion r rm out_dir Fish d) (fun d =>
      followed_by (generate_shell_completion r rm out_dir PowerShell d) (fun d =>
      generate_shell_completion r rm out_dir Zsh d))))
  end.
(* build.rs:20-35; [debug]: cfg!(debug_assertions). *)
Definition build_script (debug : bool) (r : rendered) (vars dotenv : variables) (rm : rooms) (d : files) : building :=
  let vars := load_dotenv vars dotenv in
  if debug then mkBuilding d [] Finished
  else followed_by (generate_man_page r vars rm d) (fun d => generate_shell_completions r vars rm d).
