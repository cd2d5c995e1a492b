(** Specification of the data a text holds, however it is written. *)

From Coq Require Import NArith String List Bool.
From Verif Require Import Base ModelUtil ModelEnums ModelTlv SpecUtil SpecTlv SpecIngenico ModelMain SpecMain.
Import ListNotations.
Local Open Scope N_scope.

(* The objects written one after the other in a BER-TLV or an Ingenico text: the tag of each,
   and its value or that it is masked. Ingenico fields of another type than 'T' are no objects. *)
Definition ber_holds (masks : list N) (s : str) (os : list (list N * emv_data)) : Prop :=
  exists objs, ber_objects (hex_bytes s) objs [] /\ Forall2 (fun o x => fst x = fst o /\ reported masks (snd o) (snd x)) objs os.
Definition ingenico_holds (masks : list N) (s : str) (os : list (list N * emv_data)) : Prop :=
  ascii_text s /\ exists es, ing_text masks s es
    /\ os = map (fun e => (ie_tag e, ie_data e)) (filter (fun e => ie_type e =? letter_T) es).
(* The objects an operation finds, and the format it announces. *)
Inductive holds (masks : list N) : operation -> str -> option tlv_format -> list (list N * emv_data) -> Prop :=
| holds_ber s os : ber_holds masks s os -> holds masks OpBer s None os
| holds_ingenico s os : ingenico_holds masks s os -> holds masks OpIngenico s None os
| holds_auto_ingenico s os : s <> [] -> ingenico_holds masks s os -> holds masks OpAuto s (Some Ingenico) os
| holds_auto_ber s os : s <> [] -> (forall os', ~ ingenico_holds masks s os') -> ber_holds masks s os ->
    holds masks OpAuto s (Some BerTlv) os.
