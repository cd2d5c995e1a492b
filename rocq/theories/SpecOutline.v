(** The outline of TLV data on the screen: which lines begin with the words that mark an object. *)

From Coq Require Import NArith List String Bool.
From Verif Require Import Base ModelUtil ModelTlv ModelDisplay SpecUtil SpecDisplay SpecPictures.
Import ListNotations.
Local Open Scope N_scope.

(* The text of a line behind its indentation begins with these words. *)
Fixpoint prefixed (w s : str) : bool :=
  match w, s with [], _ => true | a :: w', b :: s' => (a =? b) && prefixed w' s' | _ :: _, [] => false end.
Definition begins (w : str) (l : line) : bool := prefixed w (flat_map snd (l_spans l)).
(* The objects in the order of the data, each before those inside: its depth, the object, and whether there are objects inside. *)
Definition item : Type := N * raw_tag * bool.
Fixpoint items (i : N) (n : raw_node) : list item :=
  match n with RawNode t c => (i, t, match c with [] => false | _ => true end) :: flat_map (items (i + 1)) c end.
(* The words that mark an object, which objects they mark, and the line. *)
Definition sign : Type := str * (raw_tag -> bool -> bool) * (N -> raw_tag -> line).
Definition signs : list sign := [
  (lit "Tag: 0x", fun _ _ => true, fun i t => tag_row i t (tag_title t));
  (lit "* Masked *", fun t _ => match rt_data t with Masked => true | Normal _ => false end, fun i _ => heading_row i (lit "* Masked *"));
  (lit "Raw:", fun t _ => match rt_data t with Normal (_ :: _) => true | _ => false end, fun i _ => heading_row i (lit "Raw:"));
  (lit "Parsed:", fun t _ => match rt_data t with Normal d => match picture_of (rt_tag t) d with Some _ => true | None => false end | Masked => false end, fun i _ => heading_row i (lit "Parsed:"));
  (lit "Constructed Data Object's Child Tags:", fun _ inside => inside, fun i _ => heading_row i (lit "Constructed Data Object's Child Tags:"))].
Definition marked (g : raw_tag -> bool -> bool) (x : item) : bool := match x with (_, t, inside) => g t inside end.
Definition mark (r : N -> raw_tag -> line) (x : item) : line := match x with (i, t, _) => r i t end.
(* A text cut at its line ends, a line without its indentation, and the number of lines that begin with some words. *)
Fixpoint cut_lines (s : str) : list str :=
  match s with
  | [] => []
  | c :: t => if c =? 10 then [] :: cut_lines t else match cut_lines t with [] => [[c]] | x :: l => (c :: x) :: l end
  end.
Fixpoint untabbed (s : str) : str := match s with c :: t => if c =? 9 then untabbed t else s | [] => [] end.
Definition lines_with (w s : str) : nat := List.length (filter (fun x => prefixed w (untabbed x)) (cut_lines s)).
