(** A run of the process as a whole: from the bytes of the command line, the variables and the files to the bytes that
    stdout and stderr take and the exit status.  Runs in which clap answers (help, version, usage errors) are not among
    them; their texts are not modelled. *)

From Coq Require Import NArith List String Bool.
From Verif Require Import Base ModelUtil ModelEnums ModelTlv ModelValues ModelProcess ModelDisplay ModelMain ModelCli ModelWords ModelEnv
  ModelTerminal ModelFiles ModelOs ModelStdout.
Import ListNotations.
Local Open Scope N_scope.

(* src/main.rs:103-219.  The colour setting is loaded before anything is printed (lines 107-121), and [load_settings] panics
   without output if it fails. *)
Inductive ends (p : platform) (pl : place) (ws : list (list N)) (out err : device) : delivery -> Prop :=
| ends_run m st actions message : os_parse ws = CliOk m -> load_settings (environment_of (world_of pl)) m = Ok st ->
    let o := run_main p (environment_of (world_of pl)) m in
    o_help o = false ->
    Forall2 (acts (should_attempt_color (term_vars_of (pl_vars pl)) (set_colour st))) (o_stdout o) actions ->
    List.concat message = stderr_bytes o ->
    ends p pl ws out err (deliver out err o actions message)
| ends_unset m : os_parse ws = CliOk m -> (forall st, load_settings (environment_of (world_of pl)) m <> Ok st) ->
    ends p pl ws out err (mkDelivery [] [] 101).
