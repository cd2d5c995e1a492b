(** Specification of what matters in the text of an argument. *)

From Coq Require Import NArith List PeanoNat.
From Verif Require Import Base ModelMain SpecUtil SpecMain.
Import ListNotations.
Local Open Scope N_scope.

(* The hex digits of a text in upper case, up to the last complete pair. *)
Definition whole_digits (s : str) : list N :=
  let ds := map upper_hex (filter is_hex_digitb s) in
  if Nat.even (List.length ds) then ds else removelast ds.

(* The operations that read hex digits. *)
Definition hex_operation (op : operation) : Prop :=
  In op [OpTvr; OpIad; OpCvr; OpTsi; OpCvmResults; OpCvmList; OpIdentify; OpBer].

(* Two texts that mean the same to an operation. *)
Definition same_reading (op : operation) (s s' : str) : Prop :=
  hex_operation op /\ whole_digits s = whole_digits s'
  \/ op = OpServiceCode /\ (exists n, denotes_number s n /\ denotes_number s' n).
