(** What the screen tells about the data: how much of an argument can be read back from the
    characters shown for it. *)

From Coq Require Import NArith List String Bool.
From Verif Require Import Base ModelUtil ModelEnums SpecUtil SpecCodes SpecValues SpecDisplay ModelMain SpecMain.
Import ListNotations.
Local Open Scope N_scope.

(* The characters on the screen, whatever their style. *)
Definition characters (ls : list line) : str := flat_map (fun l => line_text l ++ [10]) ls.

(* A code the program knows; all the others look alike. *)
Definition recognised {A : Type} (table : list (N * A * string)) (c : N) : option N :=
  match find_code table c with Some _ => Some c | None => None end.
(* CV rules: the flag in bit 7, the method in bits 6 to 1, the condition. *)
Fixpoint rules_told (d : list N) : list (option N) :=
  match d with
  | a :: b :: t => Some (bits_of a 7 7) :: recognised cv_method_codes (bits_of a 6 1) :: recognised cvm_condition_codes b :: rules_told t
  | _ => []
  end.
(* Everything but the reserved bits of the card verification results. *)
Definition iad_used : list N := [0xFF; 0xFF; 0xFF] ++ cvr_used ++ repeat 0xFF 24.

(* What the screen tells about the bytes given to an operation. *)
Definition told : list (operation * (list N -> list (option N))) := [
  (OpTvr, fun d => map Some (keep_bits d tvr_used));
  (OpIad, fun d => map Some (keep_bits d iad_used));
  (OpCvr, fun d => map Some (keep_bits d cvr_used));
  (OpTsi, fun d => map Some (keep_bits d tsi_used));
  (OpCvmResults, fun d => rules_told (firstn 2 d) ++ map Some (skipn 2 d));
  (OpCvmList, fun d => map Some (firstn 8 d) ++ rules_told (skipn 8 d));
  (OpIdentify, fun d => map Some d)].
