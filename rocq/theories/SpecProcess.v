(** Specification of tag processing, sorting and block equality. *)

From Coq Require Import NArith List String Bool Permutation Sorting.
From Verif Require Import Base ModelUtil ModelEnums ModelBitflag ModelTlv ModelValues ModelProcess
  SpecUtil SpecCodes SpecValues SpecTags SpecTlv PropertiesValues.
Import ListNotations.
Local Open Scope N_scope.

(** ** Names *)

Definition known_name (t : list N) (s : str) : Prop :=
  exists n x, In (n, x) emv_tag_names /\ t = number_tag n /\ s = lit x.
Definition unknown_tag (t : list N) : Prop := forall s, ~ known_name t s.

(** ** Interpreted tags *)

(* A service code: three digits in the last three half bytes, the first one zero. *)
Definition three_digits (d : list N) (d1 d2 d3 : N) : Prop :=
  d = [d1; 16 * d2 + d3] /\ d1 < 10 /\ d2 < 10 /\ d3 < 10.
Definition service_code_of (n d1 d2 d3 : N) (sc : service_code) : Prop :=
  sc_number sc = n
  /\ In (d1, (sc_interchange sc, sc_technology sc)) service_digit_1
  /\ In (d2, sc_auth sc) service_digit_2
  /\ In (d3, (sc_services sc, sc_pin sc)) service_digit_3.

Definition listed {A : Type} (table : list (N * A * string)) (c : N) (x : A) : Prop := exists s, In (c, x, s) table.
Definition bits_value (n : N) (t : list bit_field) (d : list N) (v : list fval) : Prop :=
  len d = n /\ decode_all t d = Some v.

(* [value_of t d v]: the tag t has a parser, and v is the meaning of its data d. *)
Inductive value_of : list N -> list N -> value -> Prop :=
| value_5F30 d d1 d2 d3 sc : three_digits d d1 d2 d3 -> service_code_of (100 * d1 + 10 * d2 + d3) d1 d2 d3 sc ->
    value_of [0x5F; 0x30] d (ValServiceCode sc)
| value_8A d x : arc_text_code d x -> value_of [0x8A] d (ValArc x)
| value_8E x y rules vs : List.length x = 4%nat -> List.length y = 4%nat -> rules_of rules vs ->
    value_of [0x8E] (x ++ y ++ rules) (ValCvmList (mkCvmList (be_value x) (be_value y) vs))
| value_95 d v : bits_value 5 tvr_bits d v -> value_of [0x95] d (ValTvr v)
| value_9B d v : bits_value 2 tsi_bits d v -> value_of [0x9B] d (ValTsi v)
| value_9C b x : listed transaction_type_codes b x -> value_of [0x9C] [b] (ValTransactionType x)
| value_9F0D d v : bits_value 5 tvr_bits d v -> value_of [0x9F; 0x0D] d (ValIacDefault v)
| value_9F0E d v : bits_value 5 tvr_bits d v -> value_of [0x9F; 0x0E] d (ValIacDenial v)
| value_9F0F d v : bits_value 5 tvr_bits d v -> value_of [0x9F; 0x0F] d (ValIacOnline v)
| value_9F10 d cci dki cvr counters rest vcci vcvr : iad_layout d cci dki cvr counters rest ->
    bits_value 1 cci_bits [cci] vcci -> bits_value 5 cvr_bits cvr vcvr ->
    value_of [0x9F; 0x10] d (ValIad (mkIad vcci dki vcvr counters rest))
| value_9F33 d v : bits_value 3 termcap_bits d v -> value_of [0x9F; 0x33] d (ValTermCap v)
| value_9F34 a b c rule x : bits_value 2 cv_rule_bits [a; b] rule -> listed cvm_result_codes c x ->
    value_of [0x9F; 0x34] [a; b; c] (ValCvmResults (mkCvmResults rule x))
| value_9F35 b x : listed terminal_type_codes b x -> value_of [0x9F; 0x35] [b] (ValTerminalType x)
| value_9F39 b x : listed pos_entry_mode_codes b x -> value_of [0x9F; 0x39] [b] (ValPosEntryMode x)
| value_9F40 d v : bits_value 5 addtermcap_bits d v -> value_of [0x9F; 0x40] d (ValAddTermCap v).

(* Tags with a parser. *)
Definition interpreted_tags : list (list N) :=
  [[0x5F; 0x30]; [0x8A]; [0x8E]; [0x95]; [0x9B]; [0x9C]; [0x9F; 0x0D]; [0x9F; 0x0E]; [0x9F; 0x0F];
   [0x9F; 0x10]; [0x9F; 0x33]; [0x9F; 0x34]; [0x9F; 0x35]; [0x9F; 0x39]; [0x9F; 0x40]].

(* Data that has no meaning to the program but is tolerated, and the name then shown. *)
Inductive tolerated : list N -> list N -> string -> Prop :=
| tolerated_8A a b : utf8_pair a b -> (forall x, ~ arc_text_code [a; b] x) ->
    tolerated [0x8A] [a; b] "Authorisation Response Code (Unrecognised - likely payment system-specific)"
| tolerated_9C b : (forall x, ~ listed transaction_type_codes b x) ->
    tolerated [0x9C] [b] "Transaction Type (Unrecognised - likely payment system-specific)"
| tolerated_9F10 d :
    ~ (exists cci dki cvr counters rest, iad_layout d cci dki cvr counters rest /\ (cci = 0xA5 \/ cci = 0xA6)) ->
    tolerated [0x9F; 0x10] d "Issuer Application Data (Not CCD-Compliant)".

(* Tags whose data must have a fixed number of bytes. *)
Definition fixed_lengths : list (list N * N) :=
  [([0x5F; 0x30], 2); ([0x8A], 2); ([0x95], 5); ([0x9B], 2); ([0x9C], 1); ([0x9F; 0x0D], 5); ([0x9F; 0x0E], 5);
   ([0x9F; 0x0F], 5); ([0x9F; 0x33], 3); ([0x9F; 0x34], 3); ([0x9F; 0x35], 1); ([0x9F; 0x39], 1); ([0x9F; 0x40], 5)].

(* Data that makes processing fail, and the error. *)
Inductive rejected : list N -> list N -> parse_error -> Prop :=
| rejected_length t n d : In (t, n) fixed_lengths -> len d <> n -> rejected t d (ByteCountIncorrect Eq n (len d))
| rejected_5F30 d : len d = 2 -> (forall d1 d2 d3, ~ three_digits d d1 d2 d3) -> rejected [0x5F; 0x30] d InvalidNumber
| rejected_8A a b : ~ utf8_pair a b -> rejected [0x8A] [a; b] InvalidNumber
| rejected_8E_short d : len d < 8 -> rejected [0x8E] d (ByteCountIncorrect Gt 8 (len d))
| rejected_8E_odd d : 8 <= len d -> len d mod 2 = 1 -> rejected [0x8E] d ByteCountNotDivisibleIntoComponents
| rejected_9F34 a b c : 2 < c -> rejected [0x9F; 0x34] [a; b; c] NonCompliant
| rejected_9F35 b : (forall x, ~ listed terminal_type_codes b x) -> rejected [0x9F; 0x35] [b] Unrecognised
| rejected_9F39 b : (forall x, ~ listed pos_entry_mode_codes b x) -> rejected [0x9F; 0x39] [b] Unrecognised.

(* The processed form of a raw tag. *)
Inductive processed (raw : raw_tag) : ptag -> Prop :=
| processed_unknown : unknown_tag (rt_tag raw) -> processed raw (PRaw raw)
| processed_named s : known_name (rt_tag raw) s -> (rt_data raw = Masked \/ ~ In (rt_tag raw) interpreted_tags) ->
    processed raw (PAnnotated s raw)
| processed_parsed s d v : known_name (rt_tag raw) s -> rt_data raw = Normal d -> value_of (rt_tag raw) d v ->
    processed raw (PParsed s v raw)
| processed_tolerated s d : rt_data raw = Normal d -> tolerated (rt_tag raw) d s ->
    processed raw (PAnnotated (lit s) raw).

(** ** Blocks *)

(* The raw tag of a processed tag and the raw tree of a processed tree. *)
Definition raw_of (t : ptag) : raw_tag :=
  match t with PRaw r => r | PAnnotated _ r => r | PParsed _ _ r => r end.
Fixpoint strip (n : pnode) : raw_node := match n with PNode t c => RawNode (raw_of t) (map strip c) end.

(* The tags of a forest, a parent before its children. *)
Fixpoint preorder (n : raw_node) : list raw_tag := match n with RawNode t c => t :: flat_map preorder c end.

(* All data of a forest are bytes. *)
Definition data_ok (t : raw_tag) : Prop := match rt_data t with Normal d => bytes_ok d | Masked => True end.
Definition forest_data_ok (l : list raw_node) : Prop := Forall data_ok (flat_map preorder l).
Definition tag_ok (t : raw_tag) : Prop := bytes_ok (rt_tag t) /\ data_ok t.
Definition forest_ok (l : list raw_node) : Prop := Forall tag_ok (flat_map preorder l).

(* The tag cannot be processed. *)
Definition tag_fails (t : raw_tag) (e : parse_error) : Prop :=
  exists d, rt_data t = Normal d /\ rejected (rt_tag t) d e.

(* Every tag of a forest in its processed form, in place. *)
Inductive processed_node : raw_node -> pnode -> Prop :=
| processed_node_intro t pt c pc : processed t pt -> processed_forest c pc ->
    processed_node (RawNode t c) (PNode pt pc)
with processed_forest : list raw_node -> list pnode -> Prop :=
| processed_forest_nil : processed_forest [] []
| processed_forest_cons n pn l pl : processed_node n pn -> processed_forest l pl ->
    processed_forest (n :: l) (pn :: pl).

(** ** Sorting *)

(* Dictionary order of byte strings. *)
Inductive dict_lt : list N -> list N -> Prop :=
| dict_prefix b l : dict_lt [] (b :: l)
| dict_head a b l m : a < b -> dict_lt (a :: l) (b :: m)
| dict_tail a l m : dict_lt l m -> dict_lt (a :: l) (a :: m).

Definition tag_bytes (n : pnode) : list N := match n with PNode t _ => rt_tag (raw_of t) end.
Definition tag_le (a b : pnode) : Prop := dict_lt (tag_bytes a) (tag_bytes b) \/ tag_bytes a = tag_bytes b.
Definition with_tag (t : list N) (l : list pnode) : list pnode :=
  filter (fun n => if list_eq_dec N.eq_dec (tag_bytes n) t then true else false) l.

(* [l'] is [l] with the siblings of every level in tag order: [m] is the top level
   reordered, nodes of equal tag staying in their order; then each child block is
   arranged in place. *)
Inductive arranged : list pnode -> list pnode -> Prop :=
| arranged_intro l m l' :
    Permutation l m -> StronglySorted tag_le m -> (forall t, with_tag t m = with_tag t l) ->
    each_arranged m l' -> arranged l l'
with each_arranged : list pnode -> list pnode -> Prop :=
| each_nil : each_arranged [] []
| each_cons t c c' m l' : arranged c c' -> each_arranged m l' ->
    each_arranged (PNode t c :: m) (PNode t c' :: l').
