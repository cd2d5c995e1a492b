(** Taking colour sequences out of what was written, as pagers, editors and sed do. *)

From Coq Require Import NArith List Bool.
From Verif Require Import Base.
Import ListNotations.
Local Open Scope N_scope.

(* A sequence is ESC [, digits and semicolons, and m; every other byte stays. *)
Inductive stripped : list N -> list N -> Prop :=
| stripped_nil : stripped [] []
| stripped_byte b l r : b <> 27 -> stripped l r -> stripped (b :: l) (b :: r)
| stripped_sequence ps l r : Forall (fun b => 48 <= b <= 57 \/ b = 59) ps -> stripped l r -> stripped (27 :: 91 :: ps ++ 109 :: l) r.
(* The lines, without their ends; behind the last end is one more. *)
Fixpoint byte_lines (l : list N) : list (list N) :=
  match l with
  | [] => [[]]
  | b :: t => if b =? 10 then [] :: byte_lines t else match byte_lines t with h :: r => (b :: h) :: r | [] => [[b]] end
  end.
(* The bytes [x] stand in a row in [l]. *)
Definition found (x l : list N) : Prop := exists a b, l = a ++ x ++ b.
