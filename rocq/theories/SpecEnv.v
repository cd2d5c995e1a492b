(** Specification of the environment variables: which name means what, and what their texts
    say. *)

From Coq Require Import NArith List String Bool.
From Verif Require Import Base ModelMain ModelCli ModelEnv SpecUtil SpecMain SpecCli.
Import ListNotations.
Local Open Scope N_scope.

(** ** Names *)

(* [stripped s t]: t is s without the white space around it. *)
Definition no_space_around (t : str) : Prop :=
  (forall c r, t = c :: r -> ~ is_white_space c) /\ (forall c r, t = r ++ [c] -> ~ is_white_space c).
Definition stripped (s t : str) : Prop :=
  no_space_around t /\ exists a b, s = a ++ t ++ b /\ Forall is_white_space a /\ Forall is_white_space b.

(* The variable with this name (written in small letters here). *)
Definition named (name : str) (n : string) : Prop := exists s, stripped name s /\ same_letters s (lit n).

(* The variable for a setting, and variables that make a table of it. *)
Definition setting_keys : list string := ["cli_colour"; "masking_characters"; "sort_parsed_tags"]%string.
Definition prefixed (name rest : str) : Prop := exists p, stripped name (p ++ rest) /\ same_letters p (lit "pemv_").
Definition setting_name (name : str) (k : string) : Prop :=
  exists rest s, prefixed name rest /\ stripped rest s /\ same_letters s (lit k).
(* One or more parts with a dot in front of each. *)
Inductive dotted : str -> Prop :=
| dotted_one part : part <> [] -> ~ In 46 part -> dotted (46 :: part)
| dotted_more part t : part <> [] -> ~ In 46 part -> dotted t -> dotted (46 :: part ++ t).
Definition table_name (name : str) (k : string) : Prop :=
  exists rest s t, prefixed name rest /\ stripped rest (s ++ t) /\ same_letters s (lit k) /\ dotted t.
Definition concerns (name : str) (k : string) : Prop := setting_name name k \/ table_name name k.

(** ** Texts *)

Definition blank_char (c : N) : Prop := In c [9; 10; 12; 13; 32].
Definition separator (c : N) : Prop := In c [44; 91; 93; 123; 125].
Definition digits (s : str) : Prop := Forall is_dec_digit s.

(* Numbers as Rust writes them. *)
Definition sign (s : str) : Prop := s = [] \/ s = [43] \/ s = [45].
Definition exponent (s : str) : Prop :=
  s = [] \/ exists c g d, s = c :: g ++ d /\ (c = 101 \/ c = 69) /\ sign g /\ d <> [] /\ digits d.
Inductive numeral : str -> Prop :=
| numeral_whole g d e : sign g -> d <> [] -> digits d -> exponent e -> numeral (g ++ d ++ e)
| numeral_point g d d' e : sign g -> digits d -> digits d' -> d ++ d' <> [] -> exponent e -> numeral (g ++ d ++ 46 :: d' ++ e)
| numeral_word g w n : sign g -> In n ["inf"; "infinity"; "nan"]%string -> same_letters w (lit n) -> numeral (g ++ w).

(* Whole numbers from 0 to 2^32 - 1. *)
Definition whole (w : str) (n : N) : Prop :=
  exists g d, w = g ++ d /\ sign g /\ d <> [] /\ digits d /\ n = dec_value d /\ n < 2 ^ 32 /\ (g = [45] -> n = 0).
Definition number_value (w : str) (v : cvalue) : Prop := (exists n, whole w n /\ v = CNum n) \/ (forall n, ~ whole w n) /\ v = COther.

Definition word_value (w : str) (v : cvalue) : Prop :=
  w = lit "true" /\ v = CBool true \/ w = lit "false" /\ v = CBool false \/ numeral w /\ number_value w v
  \/ w <> lit "true" /\ w <> lit "false" /\ ~ numeral w /\ v = CStr w.
(* What may stand between quotation marks. *)
Definition text_char (c : N) : Prop := c <> 34 /\ c <> 92 /\ (32 <= c \/ c = 9) /\ c <> 127.
Definition ident_char (c : N) : Prop := is_dec_digit c \/ 65 <= c <= 90 \/ 97 <= c <= 122 \/ c = 95 \/ c = 45.
Inductive key_text : str -> Prop :=
| key_plain s : s <> [] -> Forall ident_char s -> key_text s
| key_quoted s : Forall text_char s -> key_text (34 :: s ++ [34]).

(* [literal s v]: the text s is the value v. *)
Inductive literal : str -> cvalue -> Prop :=
| literal_word a s w v : Forall blank_char a -> Forall (fun c => ~ separator c) s ->
    (forall c r, s = c :: r -> ~ blank_char c /\ c <> 34 /\ c <> 39) -> stripped s w -> word_value w v -> literal (a ++ s) v
| literal_char a c b : Forall blank_char a -> Forall blank_char b -> literal (a ++ 39 :: c :: 39 :: b) (CChar c)
| literal_text a s b : Forall blank_char a -> Forall text_char s -> Forall blank_char b -> literal (a ++ 34 :: s ++ 34 :: b) (CStr s)
| literal_list a s vs b : Forall blank_char a -> items s vs -> Forall blank_char b -> literal (a ++ 91 :: s ++ 93 :: b) (CArr vs)
| literal_table a s b : Forall blank_char a -> entries s -> Forall blank_char b -> literal (a ++ 123 :: s ++ 125 :: b) COther
with items : str -> list cvalue -> Prop :=
| items_none : items [] []
| items_last s v : s <> [] -> literal s v -> items s [v]
| items_more s v t vs : literal s v -> items t vs -> items (s ++ 44 :: t) (v :: vs)
with entries : str -> Prop :=
| entries_none : entries []
| entries_last s : entry s -> entries s
| entries_more s t : entry s -> entries t -> entries (s ++ 44 :: t)
with entry : str -> Prop :=
| entry_of a k b s v : Forall blank_char a -> key_text k -> Forall blank_char b -> literal s v -> entry (a ++ k ++ b ++ 61 :: s).

(* The value a text stands for: itself if it is nothing else. *)
Definition stands_for (s : str) (v : cvalue) : Prop := literal s v \/ (forall v', ~ literal s v') /\ v = CStr s.

(** ** What the variables say *)

(* The last variable that concerns a setting decides. *)
Inductive assigns (vars : variables) : layer :=
| assigns_value before name text after k v : vars = before ++ (name, text) :: after -> In k setting_keys ->
    setting_name name k -> stands_for text v -> Forall (fun x => ~ concerns (fst x) k) after -> assigns vars k v
| assigns_table before name text after k : vars = before ++ (name, text) :: after -> In k setting_keys ->
    table_name name k -> Forall (fun x => ~ concerns (fst x) k) after -> assigns vars k COther.

(* The text of the first variable of a name, or else a fixed one. *)
Definition variable_or (vars : variables) (n default : string) (t : str) : Prop :=
  (exists before name text after, vars = before ++ (name, text) :: after /\ named name n /\ stripped text t
     /\ Forall (fun x => ~ named (fst x) n) before)
  \/ Forall (fun x => ~ named (fst x) n) vars /\ t = lit default.
Definition profile_called (s : str) (pr : profile) : Prop :=
  match pr with
  | ProfDefault => same_letters s (lit "default")
  | ProfGlobal => same_letters s (lit "global")
  | ProfCustom n => Forall2 (fun c x => 65 <= c <= 90 /\ x = c + 32 \/ ~ 65 <= c <= 90 /\ x = c) s n
                    /\ ~ same_letters s (lit "default") /\ ~ same_letters s (lit "global")
  end.

(* The file and the profile in use. *)
Definition uses_file (w : world) (file : profile -> dict) : Prop :=
  exists f, variable_or (w_vars w) "pemv_config" "pemv.toml" f /\ w_files w f = Some file.
Definition uses_profile (w : world) (pr : profile) : Prop :=
  exists s, variable_or (w_vars w) "pemv_profile" "default" s /\ profile_called s pr.

(* A variable the program looks at. *)
Definition relevant (name : str) : Prop :=
  named name "pemv_config" \/ named name "pemv_profile" \/ exists k, In k setting_keys /\ concerns name k.

(* A text in quotation marks. *)
Definition quoted (t s : str) : Prop :=
  exists a b, t = a ++ 34 :: s ++ 34 :: b /\ Forall blank_char a /\ Forall blank_char b.
(* Lists of single characters: 'c', "c", or just c unless that is a digit. *)
Inductive char_item : str -> N -> Prop :=
| item_char a c b : Forall blank_char a -> Forall blank_char b -> char_item (a ++ 39 :: c :: 39 :: b) c
| item_text t c : quoted t [c] -> text_char c -> char_item t c
| item_bare a s c : Forall blank_char a -> stripped s [c] -> (forall x r, s = x :: r -> ~ blank_char x /\ x <> 34 /\ x <> 39) ->
    ~ separator c -> ~ is_dec_digit c -> char_item (a ++ s) c.
Inductive char_items : str -> list N -> Prop :=
| char_items_none : char_items [] []
| char_items_last x c : char_item x c -> char_items x [c]
| char_items_more x c t cs : char_item x c -> char_items t cs -> char_items (x ++ 44 :: t) (c :: cs).
Definition char_list (t : str) (cs : list N) : Prop :=
  exists a s b, t = a ++ 91 :: s ++ 93 :: b /\ Forall blank_char a /\ char_items s cs /\ Forall blank_char b.

(** ** The settings of the whole program *)

(* The layers of [SpecCli.program_layers], from the variables themselves. *)
Definition profile_layers (pr : profile) (file : profile -> dict) : list layer :=
  match pr with ProfCustom n => [says (file (ProfCustom n))] | _ => [] end.
Definition outside_layers (vars : variables) (pr : profile) (file : profile -> dict) (l : list occurrence) : list layer :=
  requests l :: assigns vars :: says (file ProfGlobal) :: profile_layers pr file ++ [says (file ProfDefault); says built_in].

(* Colours are used if they are asked for, or if nothing else is said and stdout is a terminal,
   NO_COLOR is not set, and TERM is set to something other than "dumb". *)
Definition first_variable (vars : variables) (n t : str) : Prop :=
  exists before after, vars = before ++ (n, t) :: after /\ forall u, ~ In (n, u) before.
Definition colours_wanted (w : world) (c : colour_choice) : Prop :=
  c = CAlways \/ c = CAlwaysAnsi
  \/ c = CAuto /\ w_tty w = true /\ (forall u, ~ In (lit "NO_COLOR", u) (w_vars w))
     /\ exists t, first_variable (w_vars w) (lit "TERM") t /\ t <> lit "dumb".
