(** Which data deserve a warning or an error colour. *)

From Coq Require Import NArith List String Bool.
From Verif Require Import Base ModelUtil ModelTlv ModelDisplay ModelMain SpecUtil SpecTlv SpecProcess SpecDisplay SpecMain.
Import ListNotations.
Local Open Scope N_scope.

(* Characters on the screen in a colour. *)
Definition in_colour (c : color) (l : list (style * N)) : Prop := exists b x, In (Some (mkSpec b (Some c)), x) l.

(* A bit of [m] is set. *)
Definition hits (m d : list N) : Prop := exists k, N.land (nth k d 0) (nth k m 0) <> 0.

(* The alarming bits of the terminal verification results: failed authentications, cards on
   an exception file, expired or not yet effective applications, services not allowed, exceeded
   PIN tries and failed scripts in red; version mismatches, new cards and unsuccessful
   cardholder verifications in yellow. *)
Definition tvr_alarm (c : color) : list N :=
  match c with
  | Red => [0x7C; 0x70; 0x30; 0x00; 0x70]
  | Yellow => [0x00; 0x88; 0xC8; 0x00; 0x00]
  | Cyan => []
  end.
(* Those of the card verification results. *)
Definition cvr_alarm (c : color) : list N :=
  match c with
  | Red => [0x01; 0x06; 0x00; 0x08; 0x00]
  | Yellow => [0x02; 0x01; 0x00; 0x05; 0x00]
  | Cyan => []
  end.

(* The value of a tag is alarming. *)
Inductive alarming (c : color) : list N -> list N -> Prop :=
| alarming_tvr d : len d = 5 -> hits (tvr_alarm c) d -> alarming c [0x95] d
| alarming_iad cci dki cvr counters rest : cci = 0xA5 \/ cci = 0xA6 -> len cvr = 5 -> len counters = 8 -> len rest = 15 ->
    hits (cvr_alarm c) cvr -> alarming c [0x9F; 0x10] (0x0F :: cci :: dki :: cvr ++ counters ++ 0x0F :: rest)
| alarming_cvm_results a b : c = Red -> alarming c [0x9F; 0x34] [a; b; 1].

(* What the operations show is alarming. *)
Inductive alarm (c : color) (masks : list N) : operation -> str -> Prop :=
| alarm_value op t s : In (op, t) [(OpTvr, [0x95]); (OpIad, [0x9F; 0x10]); (OpCvmResults, [0x9F; 0x34])] ->
    alarming c t (hex_bytes s) -> alarm c masks op s
| alarm_cvr s : hits (cvr_alarm c) (hex_bytes s) -> alarm c masks OpCvr s
| alarm_block op s f ns t d : tlv_block masks op s f ns -> In t (flat_map preorder ns) -> rt_data t = Normal d ->
    alarming c (rt_tag t) d -> alarm c masks op s.
