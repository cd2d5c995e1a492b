(** Which card verification results are warnings and which are errors. *)

From Coq Require Import NArith List String Bool.
From Verif Require Import Base ModelUtil ModelDisplay SpecUtil SpecDisplay.
Import ListNotations.
Local Open Scope N_scope.

(* Yellow for what deserves attention, red for what failed. *)
Definition results_alarms : list (color * string) := [
  (Yellow, "Issuer authentication not performed");
  (Red, "Issuer authentication failed");
  (Red, "Offline PIN verification performed and PIN not successfully verified");
  (Red, "PIN try limit exceeded");
  (Yellow, "Last online transaction not completed");
  (Red, "Issuer script processing failed");
  (Yellow, "Offline data authentication failed on previous transaction");
  (Yellow, "Unable to go online")]%string.
(* The colour of a text: none unless it is one of these. *)
Definition results_colour (w : str) (c : option color) : Prop :=
  match c with
  | Some a => exists x, In (a, x) results_alarms /\ w = lit x
  | None => forall a x, In (a, x) results_alarms -> w <> lit x
  end.
