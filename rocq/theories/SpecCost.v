(** What the cost of reading an input is compared with: the tree that comes out. *)

From Coq Require Import NArith List.
From Verif Require Import Base ModelEnums ModelTlv SpecTlv.
Import ListNotations.
Local Open Scope N_scope.

Definition total (l : list N) : N := fold_right N.add 0 l.

(* The bytes inside [n] that are read again, one level down: the value of a constructed
   object, unless it is masked, and what is read again inside it. *)
Fixpoint reread (n : raw_node) : N :=
  match n with
  | RawNode t c => match rt_type t, rt_data t with
                   | Constructed, Normal v => len v
                   | _, _ => 0
                   end + total (map reread c)
  end.

(* [d] constructed objects in one another, the innermost of them empty. *)
Fixpoint chain (d : nat) : list tlv := match d with O => [] | S d => [TCons [0x6F] (chain d)] end.
