(** What the build script leaves behind. *)

From Coq Require Import NArith List String Bool.
From Verif Require Import Base ModelBuild.
Import ListNotations.
Local Open Scope N_scope.

(* The first entry of this name. *)
Definition first_entry (l : variables) (key v : str) : Prop := exists a b, l = a ++ (key, v) :: b /\ ~ In key (map fst a).
(* The environment counts before the .env file. *)
Definition set_to (vars dotenv : variables) (key v : str) : Prop :=
  first_entry vars key v \/ ~ In key (map fst vars) /\ first_entry dotenv key v.
Definition not_set (vars dotenv : variables) (key : str) : Prop := ~ In key (map fst vars) /\ ~ In key (map fst dotenv).
(* The path of a file in a directory. *)
Inductive inside : str -> str -> str -> Prop :=
| inside_here name : inside [] name name
| inside_slash dir name : inside (dir ++ [47]) name (dir ++ 47 :: name)
| inside_dir dir c name : c <> 47 -> inside (dir ++ [c]) name (dir ++ c :: 47 :: name).

(* The files that belong to an installation: a man page and five scripts, where there is a directory for them. *)
Definition wanted_page (r : rendered) (vars dotenv : variables) (l : list (str * list N)) : Prop :=
  not_set vars dotenv (lit "MAN_PAGE_OUT_DIR") /\ l = []
  \/ exists dir path, set_to vars dotenv (lit "MAN_PAGE_OUT_DIR") dir /\ inside dir (lit "pemv.1") path /\ l = [(path, page r)].
Definition wanted_scripts (r : rendered) (vars dotenv : variables) (l : list (str * list N)) : Prop :=
  not_set vars dotenv (lit "COMPLETION_SCRIPTS_OUT_DIR") /\ l = []
  \/ exists dir, set_to vars dotenv (lit "COMPLETION_SCRIPTS_OUT_DIR") dir
     /\ Forall2 (fun (x : string * shell) (y : str * list N) => inside dir (lit (fst x)) (fst y) /\ snd y = script r (snd x))
          [("pemv.bash", Bash); ("pemv.elv", Elvish); ("pemv.fish", Fish); ("_pemv.ps1", PowerShell); ("_pemv", Zsh)]%string l.
Definition wanted (r : rendered) (vars dotenv : variables) (l : list (str * list N)) : Prop :=
  exists a b, l = a ++ b /\ wanted_page r vars dotenv a /\ wanted_scripts r vars dotenv b.

Definition fits_in (rm : rooms) (x : str * list N) : Prop := exists n, rm (fst x) = Room n /\ len (snd x) <= n.
(* The files [l] are there in full, and nothing else has changed, except perhaps at [others]. *)
Definition holds_all (d : files) (l : list (str * list N)) : Prop := Forall (fun x => d (fst x) = Some (snd x)) l.
Definition unchanged (d d' : files) (touched : list (str * list N)) : Prop := forall q, ~ In q (map fst touched) -> d' q = d q.
(* What is announced of them. *)
Definition told_page (vars dotenv : variables) (l : list notice) : Prop :=
  not_set vars dotenv (lit "MAN_PAGE_OUT_DIR") /\ l = [NoManDirectory]
  \/ exists dir path, set_to vars dotenv (lit "MAN_PAGE_OUT_DIR") dir /\ inside dir (lit "pemv.1") path /\ l = [ManGenerated path].
Definition told_scripts (vars dotenv : variables) (l : list notice) : Prop :=
  not_set vars dotenv (lit "COMPLETION_SCRIPTS_OUT_DIR") /\ l = [NoScriptDirectory]
  \/ exists dir, set_to vars dotenv (lit "COMPLETION_SCRIPTS_OUT_DIR") dir
     /\ Forall2 (fun (x : string * shell) (y : notice) => exists path, inside dir (lit (fst x)) path /\ y = ScriptGenerated (snd x) path)
          [("pemv.bash", Bash); ("pemv.elv", Elvish); ("pemv.fish", Fish); ("_pemv.ps1", PowerShell); ("_pemv", Zsh)]%string l.
