(** Specification of damage somewhere in BER-TLV data. *)

From Coq Require Import NArith String List Bool.
From Verif Require Import Base ModelUtil ModelEnums ModelTlv SpecUtil SpecTlv.
Import ListNotations.
Local Open Scope N_scope.

(* In the bytes [l] the object at the place [path] is [n], and [upto] are the bytes up to its end.
   A place counts the objects before it, level by level; the templates around it are those whose
   objects are shown. *)
Inductive stands (masks : list N) : list N -> list nat -> list N -> raw_node -> Prop :=
| stands_here l objs mid t v rest upto n : ber_objects l objs mid -> ber_object mid t v rest -> l = upto ++ rest ->
    ber_tree masks (t, v) n -> stands masks l [List.length objs] upto n
| stands_inside l objs mid t v rest head path upto n : ber_objects l objs mid -> ber_object mid t v rest -> l = head ++ v ++ rest ->
    type_of (first_byte t) = Constructed -> ~ masked masks v -> (exists os, ber_objects v os []) ->
    stands masks v path upto n -> stands masks l (List.length objs :: path) (head ++ upto) n.

(* An object stands there. *)
Definition place (masks l : list N) (path : list nat) : Prop := exists upto n, stands masks l path upto n.
