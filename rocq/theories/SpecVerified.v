(** Cardholder verification in words: which methods, conditions and results the program names, and how. *)

From Coq Require Import NArith List String Bool.
From Verif Require Import Base ModelUtil ModelDisplay SpecUtil SpecDisplay SpecStatements SpecRules.
Import ListNotations.
Local Open Scope N_scope.

(* Methods, conditions and results (EMV Book 3, Annex C3, and Book 4, Annex A4). *)
Definition method_words : list (N * string) := [
  (0, "Fail CVM processing");
  (1, "Plaintext PIN verification performed by ICC");
  (2, "Enciphered PIN verified online");
  (3, "Plaintext PIN verification performed by ICC and signature (paper)");
  (4, "Enciphered PIN verification performed by ICC");
  (5, "Enciphered PIN verification performed by ICC and signature (paper)");
  (30, "Signature (paper)");
  (31, "No CVM required");
  (63, "No CVM performed")]%string.
Definition condition_words : list (N * string) := [
  (0, "Always");
  (1, "If unattended cash");
  (2, "If not unattended cash and not manual cash and not purchase with cashback");
  (3, "If terminal supports the CVM");
  (4, "If manual cash");
  (5, "If purchase with cashback");
  (6, "If transaction is in the application currency and is under X value");
  (7, "If transaction is in the application currency and is over X value");
  (8, "If transaction is in the application currency and is under Y value");
  (9, "If transaction is in the application currency and is over Y value")]%string.
Definition result_words : list (N * option color * string) := [(0, None, "Unknown"); (1, Some Red, "Failed"); (2, None, "Successful")]%string.
(* The words for a code; what is not in the table belongs to the issuer or the payment system. *)
Fixpoint worded (table : list (N * string)) (unknown : string) (v : N) : str :=
  match table with [] => lit unknown | (k, w) :: t => if k =? v then lit w else worded t unknown v end.
(* The method is the lower six bits of the first byte of a rule, the condition the second byte; bit 7 of the first byte continues with the next rule. *)
Definition method_said (x : N) : str := worded method_words "Unknown (likely issuer or payment system-specific)" (N.land x 0x3F).
Definition condition_said (y : N) : str := worded condition_words "Unknown (likely payment system-specific)" y.
Definition continues (x : N) : bool := N.testbit x 6.
(* What the results [a b c] say, and in which colour. *)
Definition results_said (a b c : N) (col : option color) (w : str) : Prop :=
  (continues a = true /\ col = None /\ w = lit "Apply succeeding CV Rule if this CVM is unsuccessful")
  \/ (col = None /\ w = lit "Method: " ++ method_said a)
  \/ (col = None /\ w = lit "Condition: " ++ condition_said b)
  \/ (exists x, In (c, col, x) result_words /\ w = lit "Result: " ++ lit x).
(* A rule stands under number [k]. *)
Definition rule_shown (ls : list line) (k : N) (m c : str) (next : bool) : Prop := exists i before after, ls = before ++ rule_block i k m c next ++ after.
(* The rules of a list are exactly these. *)
Definition rules_said (d : list N) (ls : list line) : Prop :=
  forall k m c next, rule_shown ls k m c next <-> exists x y, rule_at d k x y /\ m = method_said x /\ c = condition_said y /\ next = continues x.
