(** Specification of the words of a command line: how options and their values are written. *)

From Coq Require Import NArith List String Bool.
From Verif Require Import Base ModelMain ModelCli SpecMain SpecCli.
Import ListNotations.
Local Open Scope N_scope.

(* A word that can stand for a value by itself: "-" or anything not starting with "-". *)
Definition plain_word (w : str) : Prop := w = [45] \/ forall t, w <> 45 :: t.

(* An option takes no value, one value, or any number. *)
Definition no_value (n : option_name) : Prop := n = OptHelp \/ n = OptVersion.
Definition value_limit (n : option_name) (k : nat) : Prop :=
  match n with
  | OptHelp | OptVersion => k = 0%nat
  | OptMasking => True
  | _ => (k <= 1)%nat
  end.
(* The next word does not belong to the option any more. *)
Definition closed (n : option_name) (k : nat) (ws : list str) : Prop :=
  ~ value_limit n (S k) \/ match ws with [] => True | w :: _ => ~ plain_word w end.

(* The word that names an option. *)
Definition option_word (sp : spelling) : str :=
  match sp with Short x => 45 :: lit x | Long x => 45 :: 45 :: lit x end.

(* [written ws l]: the words ws write the options l. *)
Inductive written : list str -> list occurrence -> Prop :=
| written_end : written [] []
| written_mark : written [[45; 45]] []
(* --name value value ... or -n value value ... *)
| written_apart sp n vs ws l : spells n sp -> Forall plain_word vs -> value_limit n (List.length vs) ->
    closed n (List.length vs) ws -> written ws l -> written (option_word sp :: vs ++ ws) ((sp, vs) :: l)
(* --name=value *)
| written_long n x v ws l : spells n (Long x) -> written ws l ->
    written ((45 :: 45 :: lit x ++ 61 :: v) :: ws) ((Long x, [v]) :: l)
(* -nvalue *)
| written_joined n x v ws l : spells n (Short x) -> ~ no_value n -> v <> [] -> (forall t, v <> 61 :: t) -> written ws l ->
    written ((45 :: lit x ++ v) :: ws) ((Short x, [v]) :: l)
(* -n=value *)
| written_short n x v ws l : spells n (Short x) -> ~ no_value n -> written ws l ->
    written ((45 :: lit x ++ 61 :: v) :: ws) ((Short x, [v]) :: l).

(* A word that asks for help or the version. *)
Inductive information_word (n : option_name) : str -> Prop :=
| information_long x : spells n (Long x) -> information_word n (45 :: 45 :: lit x)
| information_short x rest : spells n (Short x) -> information_word n (45 :: lit x ++ rest).
Definition no_information_words (ws : list str) : Prop :=
  Forall (fun w => ~ information_word OptHelp w /\ ~ information_word OptVersion w) ws.
