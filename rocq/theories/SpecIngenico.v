(** Specification of the Ingenico text format, independent of the parser's indices. *)

From Coq Require Import NArith List String Ascii Bool.
From Verif Require Import Base ModelEnums ModelTlv SpecUtil SpecTlv.
Import ListNotations.
Local Open Scope N_scope.

Definition colon : N := 58. (* ':' *)
Definition letter_a : N := 97.
Definition letter_h : N := 104.
Definition letter_T : N := 84.

Definition ascii_text (s : list N) : Prop := Forall (fun c => c < 128) s.

(* The tag written by the hex digits [td]: their bytes without leading zero bytes, at
   least one byte remaining. *)
Definition tag_digits (td tag : list N) : Prop :=
  Forall is_hex_digit td
  /\ exists k, bytes_of_digits td = repeat 0 k ++ tag /\ tag <> [] /\ forall t, tag = 0 :: t -> t = [].

(* The length written by the hex digits [ld]: at most four bytes, an odd last digit is
   dropped. *)
Definition length_digits (ld : list N) (n : N) : Prop :=
  Forall is_hex_digit ld /\ (List.length ld <= 9)%nat /\ n = be_value (bytes_of_digits ld).

(* The value written by format letter and text, for the announced length [n]. *)
Inductive ing_data (masks : list N) (n : N) : N -> list N -> emv_data -> Prop :=
| ing_data_ascii txt d : len txt = n -> reported masks txt d -> ing_data masks n letter_a txt d
| ing_data_masked txt : len txt = 2 * n -> masked masks txt -> ing_data masks n letter_h txt Masked
| ing_data_hex txt : len txt = 2 * n -> ~ masked masks txt -> Forall is_hex_digit txt ->
    ing_data masks n letter_h txt (Normal (bytes_of_digits txt)).

Record ing_entry : Type := mkEntry { ie_type : N; ie_tag : list N; ie_data : emv_data }.

(* One field: type tag ':' length ':' format data. *)
Inductive ing_field (masks : list N) : list N -> ing_entry -> Prop :=
| ing_field_intro ty td tag ld n fmt txt d :
    tag_digits td tag -> length_digits ld n -> ing_data masks n fmt txt d ->
    ing_field masks (ty :: td ++ colon :: ld ++ colon :: fmt :: txt) (mkEntry ty tag d).

(* Fields separated by one character each, the last separator being optional. *)
Inductive ing_text (masks : list N) : list N -> list ing_entry -> Prop :=
| ing_text_nil : ing_text masks [] []
| ing_text_last f e : ing_field masks f e -> ing_text masks f [e]
| ing_text_more f e sep rest es :
    ing_field masks f e -> ing_text masks rest es -> ing_text masks (f ++ sep :: rest) (e :: es).

(* Fields each followed by a separator. *)
Inductive ing_prefix (masks : list N) : list N -> list ing_entry -> Prop :=
| ing_prefix_nil : ing_prefix masks [] []
| ing_prefix_cons f e sep rest es :
    ing_field masks f e -> ing_prefix masks rest es -> ing_prefix masks (f ++ sep :: rest) (e :: es).

(* The node of one EMV field; children as for BER-TLV. *)
Inductive ing_node (masks : list N) (tag : list N) : emv_data -> raw_node -> Prop :=
| ing_node_leaf d :
    (type_of (first_byte tag) = Primitive \/ d = Masked
     \/ exists v, d = Normal v /\ ~ (exists objs, ber_objects v objs [])) ->
    ing_node masks tag d (RawNode (mkRawTag tag (class_of (first_byte tag)) (type_of (first_byte tag)) d) [])
| ing_node_cons v objs children :
    type_of (first_byte tag) = Constructed -> ber_objects v objs [] -> ber_trees masks objs children ->
    ing_node masks tag (Normal v)
             (RawNode (mkRawTag tag (class_of (first_byte tag)) Constructed (Normal v)) children).

(* The nodes of the fields of type 'T'. *)
Inductive ing_nodes (masks : list N) : list ing_entry -> list raw_node -> Prop :=
| ing_nodes_nil : ing_nodes masks [] []
| ing_nodes_skip e es ns : ie_type e <> letter_T -> ing_nodes masks es ns -> ing_nodes masks (e :: es) ns
| ing_nodes_take e es n ns : ie_type e = letter_T -> ing_node masks (ie_tag e) (ie_data e) n ->
    ing_nodes masks es ns -> ing_nodes masks (e :: es) (n :: ns).

(* The number written by hex digits. *)
Definition hex_number (ds : list N) : N := fold_left (fun acc d => 16 * acc + hex_value d) ds 0.

(** ** Writing *)

(* Field texts of type [ty] for a tag and a value, in all permitted spellings: any digit
   case, leading zero bytes in the tag, two to eight length digits, hex or text form. *)
Inductive ing_writes (masks : list N) (ty : N) (tag v : list N) : list N -> Prop :=
| ing_writes_intro td ld fmt txt k :
    Forall is_hex_digit td -> bytes_of_digits td = repeat 0 k ++ tag ->
    Forall is_hex_digit ld -> Nat.even (List.length ld) = true -> (List.length ld <= 8)%nat ->
    hex_number ld = len v ->
    ~ masked masks txt ->
    (fmt = letter_a /\ txt = v
     \/ fmt = letter_h /\ Forall is_hex_digit txt /\ bytes_of_digits txt = v /\ Nat.even (List.length txt) = true) ->
    ing_writes masks ty tag v (ty :: td ++ colon :: ld ++ colon :: fmt :: txt).

(* Texts of a list of tag/value pairs, with any separators. *)
Inductive ing_writes_all (masks : list N) : list (list N * list N) -> list N -> Prop :=
| iwa_nil : ing_writes_all masks [] []
| iwa_last t v f : ing_writes masks letter_T t v f -> ing_writes_all masks [(t, v)] f
| iwa_more t v f sep os rest :
    ing_writes masks letter_T t v f -> ing_writes_all masks os rest ->
    ing_writes_all masks ((t, v) :: os) (f ++ sep :: rest).

(* The tag of a field as the parser can return it: no leading zero byte. *)
Definition plain_tag (t : list N) : Prop := t <> [] /\ forall r, t = 0 :: r -> r = [].

(* Standard writing in hex form, fields ended by a line feed. *)
Definition std_field (t v : list N) : list N :=
  letter_T :: hex_text t ++ colon :: hex_text (be_bytes (len v)) ++ colon :: letter_h :: hex_text v.
Definition std_text (os : list (list N * list N)) : list N :=
  flat_map (fun o => std_field (fst o) (snd o) ++ [10]) os.

(* A text on a 64-bit target. *)
Definition text64 (p : platform) (s : list N) : Prop := usize_bits p = 64 /\ len s < 2 ^ 63.
