(** Reading CVM results against a CVM list: which rule of the list on one screen the explanations on another name. *)

From Coq Require Import NArith List String Bool.
From Verif Require Import Base ModelUtil SpecUtil SpecCodes SpecValues SpecDisplay SpecPictures SpecMatch SpecExplain.
Import ListNotations.
Local Open Scope N_scope.

(* Rule [k] of a list, with its method and condition in words, and whether the next rule applies if it is unsuccessful. *)
Definition rule_block (i k : N) (m c : str) (next : bool) : list line :=
  [bold_row i (lit "CVM " ++ dec k ++ lit ":");
   titled (i + 1) bold (lit "Method:         ") (32 :: m);
   titled (i + 1) bold (lit "Condition:      ") (32 :: c);
   titled (i + 1) bold (lit "If Unsuccessful:") (if next then lit " Next CVM" else lit " Fail")].
(* The explanations on the second screen say the same as rule [k] on the first. *)
Definition names (ls : list line) (k : N) (rs : list line) : Prop :=
  exists i before m c next after, ls = before ++ rule_block i k m c next ++ after
    /\ tells rs (lit "Method: " ++ m) /\ tells rs (lit "Condition: " ++ c)
    /\ (tells rs (lit "Apply succeeding CV Rule if this CVM is unsuccessful") <-> next = true).
(* The two bytes of rule [k] of a list, counted from 1; the first eight bytes are the amounts. *)
Definition rule_at (d : list N) (k x y : N) : Prop :=
  1 <= k /\ nth_error d (N.to_nat (2 * k + 6)) = Some x /\ nth_error d (N.to_nat (2 * k + 7)) = Some y.
(* The same rule, up to the reserved bit and which unknown method or condition it is. *)
Definition same_rule (x y a b : N) : Prop :=
  bits_of x 7 7 = bits_of a 7 7 /\ same_code cv_method_codes (bits_of x 6 1) (bits_of a 6 1) /\ same_code cvm_condition_codes y b.
