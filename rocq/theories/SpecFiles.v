(** Specification of the configuration file: which file it is and what it says. *)

From Coq Require Import NArith List String Bool.
From Verif Require Import Base ModelMain ModelCli ModelEnv ModelFiles SpecMain SpecCli SpecEnv.
Import ListNotations.
Local Open Scope N_scope.

(** ** Which file *)

(* A directory by the names on the way to it, and a file in it. *)
Definition directory := list str.
Definition proper (dir : directory) : Prop := Forall (fun n => n <> [] /\ ~ In 47 n) dir.
Definition steps (dir : directory) : str := flat_map (fun n => 47 :: n) dir.
Definition dir_text (dir : directory) : str := match dir with [] => [47] | _ :: _ => steps dir end.
Definition file_in (dir : directory) (name : str) : str := steps dir ++ 47 :: name.
Definition absolute (name : str) : Prop := exists r, name = 47 :: r.
Definition file_at (d : disk) (path : str) : Prop := d path <> None.

(* [above up dir]: [up] is one of the directories on the way up from [dir], itself included. *)
Definition above (up dir : directory) : Prop := exists below, dir = up ++ below.
(* The paths looked at. *)
Definition candidate (dir : directory) (name path : str) : Prop :=
  absolute name /\ path = name \/ ~ absolute name /\ exists up, above up dir /\ path = file_in up name.
(* The file used: the one in the nearest directory. *)
Definition chosen (d : disk) (dir : directory) (name path : str) : Prop :=
  file_at d path
  /\ (absolute name /\ path = name
      \/ ~ absolute name /\ exists up, above up dir /\ path = file_in up name
           /\ forall nearer, above nearer dir -> (List.length up < List.length nearer)%nat -> ~ file_at d (file_in nearer name)).

(** ** What it says *)

(* The table of a profile: the last one with its name, if any. *)
Definition table_of (t : toml) (pr : profile) (x : dict) : Prop :=
  (exists before key after, t = before ++ (key, TTable x) :: after /\ profile_called key pr
     /\ Forall (fun y => ~ profile_called (fst y) pr) after)
  \/ Forall (fun y => ~ profile_called (fst y) pr) t /\ x = [].
Definition only_tables (t : toml) : Prop := Forall (fun y => snd y <> TOther) t.

Definition contents (d : disk) (dir : directory) (name : str) (file : profile -> dict) : Prop :=
  (exists path t, chosen d dir name path /\ d path = Some (Some t) /\ only_tables t /\ forall pr, table_of t pr (file pr))
  \/ (forall path, ~ chosen d dir name path) /\ forall pr, file pr = [].
Definition broken (d : disk) (dir : directory) (name : str) : Prop :=
  exists path, chosen d dir name path /\ forall t, d path = Some (Some t) -> ~ only_tables t.

(* The name of the file, from the variables. *)
Definition config_name (pl : place) (name : str) : Prop := variable_or (pl_vars pl) "pemv_config" "pemv.toml" name.
Definition profile_in (pl : place) (pr : profile) : Prop :=
  exists s, variable_or (pl_vars pl) "pemv_profile" "default" s /\ profile_called s pr.
Definition in_directory (pl : place) (dir : directory) : Prop := proper dir /\ pl_cwd pl = Some (dir_text dir).
