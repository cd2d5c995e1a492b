(** A terminal: what a stream of bytes looks like on a screen that understands UTF-8 and the
    ECMA-48 "select graphic rendition" sequences. *)

From Coq Require Import NArith List String Bool.
From Verif Require Import Base ModelUtil ModelEnums ModelBitflag ModelTlv ModelDisplay ModelMain SpecDisplay.
Import ListNotations.
Local Open Scope N_scope.

(* How a character looks: bold or not, and one of eight colours or the default. *)
Record look : Type := mkLook { lk_bold : bool; lk_colour : option N }.
Definition plain_look : look := mkLook false None.

(* Where the terminal is in its input: between characters, in a character of which some bytes
   are still missing, after ESC, or in the parameters after ESC [.  [Confused] after anything
   it does not understand. *)
Inductive phase : Type :=
| Ground
| Partial (missing : N) (value : N)
| Escaped
| Parameters (done : list N) (current : N)
| Confused.
Record terminal : Type := mkTerm { t_phase : phase; t_look : look; t_cells : list (look * N) }.
Definition fresh : terminal := mkTerm Ground plain_look [].

(* One parameter of a rendition sequence. *)
Definition rendition (l : look) (k : N) : look :=
  if k =? 0 then plain_look
  else if k =? 1 then mkLook true (lk_colour l)
  else if k =? 22 then mkLook false (lk_colour l)
  else if (30 <=? k) && (k <=? 37) then mkLook (lk_bold l) (Some (k - 30))
  else if k =? 39 then mkLook (lk_bold l) None
  else l.

(* One byte. *)
Definition put (t : terminal) (c : N) : terminal := mkTerm Ground (t_look t) (t_cells t ++ [(t_look t, c)]).
Definition go (t : terminal) (q : phase) : terminal := mkTerm q (t_look t) (t_cells t).
Definition receive (t : terminal) (b : N) : terminal :=
  match t_phase t with
  | Ground =>
      if b =? 27 then go t Escaped
      else if b <? 128 then put t b
      else if (192 <=? b) && (b <? 224) then go t (Partial 1 (b - 192))
      else if (224 <=? b) && (b <? 240) then go t (Partial 2 (b - 224))
      else if (240 <=? b) && (b <? 248) then go t (Partial 3 (b - 240))
      else go t Confused
  | Partial k x =>
      if (128 <=? b) && (b <? 192)
      then if k =? 1 then put t (x * 64 + (b - 128)) else go t (Partial (k - 1) (x * 64 + (b - 128)))
      else go t Confused
  | Escaped => if b =? 91 then go t (Parameters [] 0) else go t Confused
  | Parameters done n =>
      if (48 <=? b) && (b <=? 57) then go t (Parameters done (n * 10 + (b - 48)))
      else if b =? 59 then go t (Parameters (done ++ [n]) 0)
      else if b =? 109 then mkTerm Ground (fold_left rendition (done ++ [n]) (t_look t)) (t_cells t)
      else go t Confused
  | Confused => t
  end.
Definition receives (t : terminal) (bs : list N) : terminal := fold_left receive bs t.

(* The bytes are understood to the end, show these characters and leave the look plain. *)
Definition terminal_shows (bs : list N) (cells : list (look * N)) : Prop :=
  receives fresh bs = mkTerm Ground plain_look cells.

(* The look of a style: 6 is cyan, 3 yellow and 1 red. *)
Definition colour_number (c : color) : N := match c with Cyan => 6 | Yellow => 3 | Red => 1 end.
Definition look_of (st : style) : look :=
  match st with
  | None => plain_look
  | Some c => mkLook (cs_bold c) (option_map colour_number (cs_fg c))
  end.
Definition dressed (l : list (style * N)) : list (look * N) := map (fun x => (look_of (fst x), snd x)) l.
Definition undressed (l : list (style * N)) : list (look * N) := map (fun x => (plain_look, snd x)) l.

(* Characters that do nothing but appear or move on: visible ones, tabs and line ends. *)
Definition harmless (c : N) : Prop := visible [c] \/ c = 9 \/ c = 10.

(* Colours are used if they are asked for, or if nothing else is said and stdout is a
   terminal whose kind is known, not "dumb", and NO_COLOR is not set. *)
Definition wants_colours (tty : bool) (term : option str) (no_color : bool) (c : colour_choice) : Prop :=
  c = CAlways \/ c = CAlwaysAnsi
  \/ c = CAuto /\ tty = true /\ no_color = false /\ exists t, term = Some t /\ t <> lit "dumb".
