(** Specification of data that sorting leaves as they are. *)

From Coq Require Import NArith List.
From Verif Require Import Base ModelUtil ModelTlv SpecUtil SpecTlv SpecProcess SpecPictures.
Import ListNotations.
Local Open Scope N_scope.

(* At every level no object is directly followed by one of a smaller tag. *)
Inductive settled : list raw_node -> Prop :=
| settled_intro l : (forall a n m b, l = a ++ n :: m :: b -> ~ dict_lt (node_tag_bytes m) (node_tag_bytes n)) ->
    (forall t c, In (RawNode t c) l -> settled c) -> settled l.
