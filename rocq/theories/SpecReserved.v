(** Which data are reported as reserved for use (RFU). *)

From Coq Require Import NArith List String Bool.
From Verif Require Import Base ModelUtil ModelTlv ModelMain SpecUtil SpecTlv SpecProcess SpecDisplay SpecMain.
Import ListNotations.
Local Open Scope N_scope.

Definition mentions (w s : str) : Prop := exists a b, s = a ++ w ++ b.
(* The lines that explain bits or digits are those with a box-drawing arm; hex dumps, which
   repeat the data as text, have none. *)
Definition explains (l : line) : Prop := exists c, In c (line_text l) /\ 0x2500 <= c.
Definition reports_rfu (ls : list line) : Prop := exists l, In l ls /\ explains l /\ mentions (lit "RFU") (line_text l).

(* Service codes with a reserved digit (ISO/IEC 7813). *)
Definition reserved_code (n : N) : Prop :=
  In (n / 100) [0; 3; 4; 8] \/ In (n / 10 mod 10) [1; 3; 5; 6; 7; 8; 9] \/ In (n mod 10) [8; 9].
(* Card verification results with a reserved cryptogram type (EMV Book 3, Annex C9.3). *)
Definition reserved_cvr (d : list N) : Prop := nth 0 d 0 / 64 = 3 \/ nth 0 d 0 / 16 mod 4 = 3.

(* The value of a tag. *)
Inductive reserved : list N -> list N -> Prop :=
| reserved_service a x y : a < 10 -> x < 10 -> y < 10 -> reserved_code (100 * a + 10 * x + y) -> reserved [0x5F; 0x30] [a; 16 * x + y]
| reserved_iad cci dki cvr counters rest : cci = 0xA5 \/ cci = 0xA6 -> len cvr = 5 -> len counters = 8 -> len rest = 15 ->
    reserved_cvr cvr -> reserved [0x9F; 0x10] (0x0F :: cci :: dki :: cvr ++ counters ++ 0x0F :: rest).

(* The argument of an operation. *)
Inductive has_reserved (masks : list N) : operation -> str -> Prop :=
| reserved_value s : reserved [0x9F; 0x10] (hex_bytes s) -> has_reserved masks OpIad s
| reserved_results s : reserved_cvr (hex_bytes s) -> has_reserved masks OpCvr s
| reserved_number s n : denotes_number s n -> reserved_code n -> has_reserved masks OpServiceCode s
| reserved_block op s f ns t d : tlv_block masks op s f ns -> In t (flat_map preorder ns) -> rt_data t = Normal d ->
    reserved (rt_tag t) d -> has_reserved masks op s.
