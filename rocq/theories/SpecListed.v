(** CVM lists rule by rule: which lines each rule and the two amounts have on the screen. *)

From Coq Require Import NArith List String Bool.
From Verif Require Import Base ModelUtil SpecUtil SpecCodes SpecValues SpecDisplay SpecPictures SpecRules.
Import ListNotations.
Local Open Scope N_scope.

(* Conditions 06 to 09 of the EMV books compare the transaction with the amounts X and Y. *)
Definition compares (y : N) : Prop := y = 6 \/ y = 7 \/ y = 8 \/ y = 9.
(* The amounts of a list: two numbers of four bytes. *)
Definition amount_x (d : list N) : N := be_value (firstn 4 d).
Definition amount_y (d : list N) : N := be_value (firstn 4 (skipn 4 d)).
(* The amounts matter: there is one, or a rule compares with them. *)
Definition has_amounts (d : list N) : Prop := amount_x d <> 0 \/ amount_y d <> 0 \/ exists k x y, rule_at d k x y /\ compares y.
(* The four lines of rule [k]. *)
Definition rule_lines (i k x y : N) : list line := rule_block i k (code_text Method x 6 1) (code_text Condition y 8 1) (bits_of x 7 7 =? 1).
(* The lines of the rules from rule [k] on. *)
Inductive rules_lines (i : N) : N -> list N -> list line -> Prop :=
| rules_end k : rules_lines i k [] []
| rules_next k x y d ls : rules_lines i (k + 1) d ls -> rules_lines i k (x :: y :: d) (rule_lines i k x y ++ ls).
(* The lines above the heading of the rules. *)
Definition top_lines (i : N) (d : list N) (ls : list line) : Prop :=
  has_amounts d /\ ls = amounts_picture (amount_x d) (amount_y d) i \/ ~ has_amounts d /\ ls = [].
Definition rules_heading (i : N) : line := heading_row i (lit "Cardholder Verification Rules:").
