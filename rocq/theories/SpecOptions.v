(** Specification of values given to an option they are not meant for. *)

From Coq Require Import NArith String List Bool.
From Verif Require Import Base ModelUtil ModelEnums SpecUtil SpecTlv ModelMain SpecMain SpecPictures.
Import ListNotations.
Local Open Scope N_scope.

(* The options for values of a fixed size in bytes. *)
Definition sizes : list (operation * N) :=
  [(OpTvr, 5); (OpIad, 32); (OpCvr, 5); (OpTsi, 2); (OpCvmResults, 3)].
(* The hex digits of a text, wherever they stand. *)
Definition digits (s : str) : N := len (filter is_hex_digitb s).
(* The complaint about [k] bytes given to [op]. *)
Definition wrong_size (op : operation) (n k : N) : parse_error :=
  match op with OpIad => NonCcdCompliant | _ => ByteCountIncorrect Eq n k end.

(* Pairs of options whose values cannot be told apart by their size. *)
Definition alike (a b : operation) : Prop :=
  a = b \/ (a = OpTvr /\ b = OpCvr) \/ (a = OpCvr /\ b = OpTvr) \/ (a = OpIad /\ b = OpCvmList) \/ (a = OpCvmList /\ b = OpIad).
Definition takes_value (op : operation) : Prop := In op [OpTvr; OpIad; OpCvr; OpTsi; OpCvmResults; OpCvmList].

(* [w] is the text of a whole object with the value [v], of any tag. *)
Definition object_text (t l v : list N) (w : str) : Prop :=
  ber_tag t /\ ber_len l (len v) /\ hex_bytes w = t ++ l ++ v.
