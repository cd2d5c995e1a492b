(** What code that the program never calls should do. *)

From Coq Require Import NArith List String Bool.
From Verif Require Import Base ModelUtil ModelMain SpecMain ModelUncalled.
Import ListNotations.
Local Open Scope N_scope.

(* What a provider says, strongest first: its global profile, the profile it asks for, its default profile. *)
Definition provider_layers (pr : option profile) (data : profile -> dict) : list layer :=
  says (data ProfGlobal) :: (match pr with Some (ProfCustom n) => [says (data (ProfCustom n))] | _ => [] end) ++ [says (data ProfDefault)].
(* The settings that are decided by layers, all of them being of the right kind. *)
Definition configured (ls : list layer) (c : config) : Prop :=
  exists v1 v2 v3, decided ls "cli_colour" v1 /\ colour_value v1 (cf_colour c) /\ decided ls "masking_characters" v2 /\ masking_value v2 (cf_masking c)
    /\ decided ls "sort_parsed_tags" v3 /\ sort_value v3 (cf_sort c).
(* The same settings under the default profile. *)
Definition in_default_profile (c : config) : config := mkConfig ProfDefault (cf_colour c) (cf_masking c) (cf_sort c).
(* The settings as the program uses them. *)
Definition used (tty : bool) (c : config) : settings := mkSettings (terminal_choice tty (cf_colour c)) (cf_masking c) (cf_sort c).
(* Nothing about the settings is typed. *)
Definition nothing_typed (m : matches) : Prop := not_typed (m_colour m) /\ not_typed (m_masking m) /\ not_typed (m_sort m) /\ not_typed (m_no_sort m).
(* A declaration the compiler takes for an unsigned type of so many bits: every value once. *)
Definition declared (bits : N) (e : infallible_enum) : Prop := NoDup (map fst e) /\ forall v, In v (map fst e) <-> v < 2 ^ bits.
