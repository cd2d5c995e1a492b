(** Specification of words that are not text. *)

From Coq Require Import NArith List Bool.
From Verif Require Import Base ModelCli.
Import ListNotations.
Local Open Scope N_scope.

(* The bytes of a text. *)
Definition text_bytes (s : str) (b : list N) : Prop := str_ok s /\ b = utf8 s.
(* Bytes that are the text [a] followed by something no character starts with. *)
Definition broken_after (a : str) (b : list N) : Prop :=
  str_ok a /\ exists rest, b = utf8 a ++ rest /\ rest <> [] /\ forall c r, is_scalar c -> rest <> utf8_char c ++ r.
(* What is left of a run when it must not do anything. *)
Definition help_or_error (r : run_result) : run_result :=
  match r with ShowsHelp => ShowsHelp | ShowsVersion => ShowsVersion | _ => UsageError end.
