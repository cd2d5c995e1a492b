(** Service codes in words: what each digit makes the screen say, title by title (ISO/IEC 7813). *)

From Coq Require Import NArith List String Bool.
From Verif Require Import Base ModelUtil SpecUtil SpecDisplay SpecPictures.
Import ListNotations.
Local Open Scope N_scope.

(* The three digits of a code. *)
Inductive position : Type := First | Second | Third.
Definition digit (n : N) (p : position) : N :=
  match p with First => n / 100 | Second => n / 10 mod 10 | Third => n mod 10 end.
(* Below a title stands this text: behind the lines of the drawing the title in bold, blanks and the text. *)
Definition says (ls : list line) (title text : string) : Prop :=
  exists i arms k, In (row i [(None, arms); (bold, lit title); (None, repeat 32 k ++ lit text)]) ls.
(* Title, text, and for which digits at which place it is shown. *)
Definition service_words : list (string * string * position * list N) := [
  ("Interchange:", "International", First, [1; 2]);
  ("Interchange:", "National", First, [5; 6]);
  ("Interchange:", "Private", First, [7]);
  ("Interchange:", "Test", First, [9]);
  ("Interchange:", "RFU", First, [0; 3; 4; 8]);
  ("Technology:", "Integrated circuit card (ICC)", First, [2; 6]);
  ("Technology:", "Magnetic stripe only (MSR)", First, [0; 1; 3; 4; 5; 7; 8; 9]);
  ("Authorisation Processing:", "Normal", Second, [0]);
  ("Authorisation Processing:", "By issuer only (no offline authorisation)", Second, [2]);
  ("Authorisation Processing:", "By issuer only unless an explicit bilateral agreement applies (no offline authorisation)", Second, [4]);
  ("Authorisation Processing:", "RFU", Second, [1; 3; 5; 6; 7; 8; 9]);
  ("Allowed Services:", "No restrictions", Third, [0; 1; 6]);
  ("Allowed Services:", "Goods and services only", Third, [2; 5; 7]);
  ("Allowed Services:", "ATM only", Third, [3]);
  ("Allowed Services:", "Cash only", Third, [4]);
  ("Allowed Services:", "RFU", Third, [8; 9]);
  ("PIN Requirements:", "PIN required", Third, [0; 3; 5]);
  ("PIN Requirements:", "Prompt for PIN if PIN pad is present", Third, [6; 7]);
  ("PIN Requirements:", "None", Third, [1; 2; 4; 8; 9])]%string.
(* Digits without a meaning. *)
Definition reserved_digits (p : position) : list N :=
  match p with First => [0; 3; 4; 8] | Second => [1; 3; 5; 6; 7; 8; 9] | Third => [8; 9] end.
Definition same_digit (p : position) (a b : N) : Prop := a = b \/ In a (reserved_digits p) /\ In b (reserved_digits p).
(* Two screens say the same. *)
Definition say_same (ls ls' : list line) : Prop := forall title text, says ls title text <-> says ls' title text.
