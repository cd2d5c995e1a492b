(** Specification of the TLV formats: grammars and expected trees, written without
    reference to the parsers of ModelTlv.  Only the result types (raw_tag, raw_node,
    ...) and the big-endian value of SpecUtil are reused. *)

From Coq Require Import NArith List String Ascii Bool.
From Verif Require Import Base ModelEnums ModelTlv SpecUtil.
Import ListNotations.
Local Open Scope N_scope.

(** ** Tags *)

(* A complete BER tag: one byte, unless its five low bits are all ones; then more bytes
   follow, the last being the first one below 128. *)
Inductive ber_tag : list N -> Prop :=
| ber_tag_short b : b mod 32 <> 31 -> ber_tag [b]
| ber_tag_long b more last :
    b mod 32 = 31 -> Forall (fun c => 128 <= c) more -> last < 128 ->
    ber_tag (b :: more ++ [last]).

(* Class: the two top bits; constructed: the next bit. *)
Definition class_of (b : N) : tag_class :=
  match b / 64 with
  | 0 => TagClass_Universal
  | 1 => TagClass_Application
  | 2 => TagClass_ContextSpecific
  | _ => TagClass_Private
  end.
Definition type_of (b : N) : data_object_type := if N.odd (b / 32) then Constructed else Primitive.

(** ** Lengths *)

(* A length field and the value it announces. *)
Inductive ber_len : list N -> N -> Prop :=
| ber_len_short n : n < 128 -> ber_len [n] n
| ber_len_long l : (List.length l <= 4)%nat -> ber_len (128 + len l :: l) (be_value l).

Definition long_form (l : list N) : Prop := exists b r, l = b :: r /\ 128 <= b.

(** ** Objects *)

(* [bytes] starts with the object of tag [t] and value [v]; [rest] follows.  The code
   demands one more input byte after a length field in long form. *)
Inductive ber_object : list N -> list N -> list N -> list N -> Prop :=
| ber_object_intro t l v rest :
    ber_tag t -> ber_len l (len v) -> (long_form l -> v ++ rest <> []) ->
    ber_object (t ++ l ++ v ++ rest) t v rest.

(* [bytes] starts with the objects [objs]; [rest] follows. *)
Inductive ber_objects : list N -> list (list N * list N) -> list N -> Prop :=
| ber_objects_nil rest : ber_objects rest [] rest
| ber_objects_cons bytes t v mid objs rest :
    ber_object bytes t v mid -> ber_objects mid objs rest ->
    ber_objects bytes ((t, v) :: objs) rest.

(** ** Masking *)

Definition masked (masks : list N) (v : list N) : Prop :=
  (2 <= List.length v)%nat /\ exists m, In m masks /\ Forall (fun b => b = m) v.

(* What the parser reports as the value. *)
Definition reported (masks v : list N) (d : emv_data) : Prop :=
  (masked masks v /\ d = Masked) \/ (~ masked masks v /\ d = Normal v).

(** ** Trees *)

Definition first_byte (t : list N) : N := match t with b :: _ => b | [] => 0 end.

(* The object (t, v) is represented by the node: its children are the objects of the
   value when it is constructed, not masked and a sequence of objects. *)
Inductive ber_tree (masks : list N) : list N * list N -> raw_node -> Prop :=
| ber_tree_leaf t v d :
    reported masks v d ->
    (type_of (first_byte t) = Primitive \/ masked masks v \/ ~ (exists objs, ber_objects v objs [])) ->
    ber_tree masks (t, v) (RawNode (mkRawTag t (class_of (first_byte t)) (type_of (first_byte t)) d) [])
| ber_tree_node t v objs children :
    type_of (first_byte t) = Constructed -> ~ masked masks v -> ber_objects v objs [] ->
    ber_trees masks objs children ->
    ber_tree masks (t, v) (RawNode (mkRawTag t (class_of (first_byte t)) Constructed (Normal v)) children)
with ber_trees (masks : list N) : list (list N * list N) -> list raw_node -> Prop :=
| ber_trees_nil : ber_trees masks [] []
| ber_trees_cons o n os ns : ber_tree masks o n -> ber_trees masks os ns -> ber_trees masks (o :: os) (n :: ns).

(** ** Parts of trees *)

Definition node_children (n : raw_node) : list raw_node := match n with RawNode _ c => c end.
Definition node_tag (n : raw_node) : raw_tag := match n with RawNode t _ => t end.

(* [n] occurs in the forest at some depth. *)
Inductive occurs (n : raw_node) : list raw_node -> Prop :=
| occurs_here ns : In n ns -> occurs n ns
| occurs_below m ns : In m ns -> occurs n (node_children m) -> occurs n ns.

Fixpoint node_count (n : raw_node) : nat :=
  match n with RawNode _ c => S (list_sum (map node_count c)) end.
Definition forest_count (ns : list raw_node) : nat := list_sum (map node_count ns).

Fixpoint node_depth (n : raw_node) : nat :=
  match n with RawNode _ c => S (list_max (map node_depth c)) end.
Definition forest_depth (ns : list raw_node) : nat := list_max (map node_depth ns).

(** ** Forests to encode *)

Inductive tlv : Type :=
| TPrim (t v : list N)
| TCons (t : list N) (children : list tlv).

(* Encodings of a forest, with any permitted choice of length forms, and the nodes
   expected for them. *)
Inductive encodes (masks : list N) : list tlv -> list N -> list raw_node -> Prop :=
| encodes_nil : encodes masks [] [] []
| encodes_prim t v l fs rest ns :
    ber_tag t -> type_of (first_byte t) = Primitive -> ~ masked masks v ->
    ber_len l (len v) -> encodes masks fs rest ns -> (long_form l -> v ++ rest <> []) ->
    encodes masks (TPrim t v :: fs) (t ++ l ++ v ++ rest)
            (RawNode (mkRawTag t (class_of (first_byte t)) Primitive (Normal v)) [] :: ns)
| encodes_cons t cs v cns l fs rest ns :
    ber_tag t -> type_of (first_byte t) = Constructed -> ~ masked masks v ->
    encodes masks cs v cns ->
    ber_len l (len v) -> encodes masks fs rest ns -> (long_form l -> v ++ rest <> []) ->
    encodes masks (TCons t cs :: fs) (t ++ l ++ v ++ rest)
            (RawNode (mkRawTag t (class_of (first_byte t)) Constructed (Normal v)) cns :: ns).

(* The standard encoding: shortest length field. *)
Definition be_bytes (n : N) : list N :=
  if n <? 256 then [n]
  else if n <? 256 ^ 2 then [n / 256; n mod 256]
  else if n <? 256 ^ 3 then [n / 256 ^ 2; n / 256 mod 256; n mod 256]
  else [n / 256 ^ 3; n / 256 ^ 2 mod 256; n / 256 mod 256; n mod 256].
Definition std_len (n : N) : list N :=
  if n <? 128 then [n] else 128 + len (be_bytes n) :: be_bytes n.
Definition std_object (t v : list N) : list N := t ++ std_len (len v) ++ v.
Fixpoint std_encode (x : tlv) : list N :=
  match x with
  | TPrim t v => std_object t v
  | TCons t cs => std_object t (flat_map std_encode cs)
  end.
Definition std_forest (fs : list tlv) : list N := flat_map std_encode fs.

(* Well-formed forests: bytes, complete tags of the right type, encodable sizes. *)
Inductive tlv_ok : tlv -> Prop :=
| tlv_ok_prim t v : bytes_ok t -> ber_tag t -> type_of (first_byte t) = Primitive ->
    bytes_ok v -> len v < 2 ^ 32 -> tlv_ok (TPrim t v)
| tlv_ok_cons t cs : bytes_ok t -> ber_tag t -> type_of (first_byte t) = Constructed ->
    (forall c, In c cs -> tlv_ok c) -> len (std_forest cs) < 2 ^ 32 -> tlv_ok (TCons t cs).

(* The tree expected for the standard encoding. *)
Fixpoint std_node (x : tlv) : raw_node :=
  match x with
  | TPrim t v => RawNode (mkRawTag t (class_of (first_byte t)) Primitive (Normal v)) []
  | TCons t cs => RawNode (mkRawTag t (class_of (first_byte t)) Constructed (Normal (std_forest cs)))
                          (map std_node cs)
  end.

(** ** Reading nodes back *)

(* [bytes] is the sequence of tag, length field and value of the nodes. *)
Inductive written (masks : list N) : list raw_node -> list N -> Prop :=
| written_nil : written masks [] []
| written_cons t c ty d children v l ns rest :
    reported masks v d -> ber_len l (len v) -> written masks ns rest ->
    written masks (RawNode (mkRawTag t c ty d) children :: ns) (t ++ l ++ v ++ rest).

(** ** Inputs on a 64-bit target *)

(* A byte slice on a 64-bit target (no Rust slice has 2^63 bytes or more). *)
Definition input64 (p : platform) (bytes : list N) : Prop :=
  usize_bits p = 64 /\ bytes_ok bytes /\ len bytes < 2 ^ 63.
