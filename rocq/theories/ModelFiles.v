(** Model of how the configuration file is found and read (src/config/mod.rs:69-76): figment
    0.10.7 [Data::file] with the [Path] operations of std on systems other than Windows, and
    [nested] over what the TOML parser returns.

    Simplified: a path is text, compared as text (no links); the TOML syntax is not modelled,
    a file is either what the parser makes of it or not valid; a table keeps only its values as
    [cvalue], see [ModelMain.dict].  The current directory is what the system returns: absolute,
    without empty parts or a trailing separator. *)

From Coq Require Import NArith List String Bool.
From Verif Require Import Base ModelMain ModelCli ModelWords ModelEnv.
Import ListNotations.
Local Open Scope N_scope.

(* std [Path::is_absolute] (figment for src/config/mod.rs:72). *)
Definition path_is_absolute (path : str) : bool := match path with 47 :: _ => true | _ => false end.
(* std [Path::join] (figment for src/config/mod.rs:72). *)
Definition path_join (base path : str) : str :=
  if path_is_absolute path then path
  else match base with [] => path | _ :: _ => if last base 0 =? 47 then base ++ path else base ++ 47 :: path end.
(* The text before and after the last separator (figment for src/config/mod.rs:72). *)
Fixpoint split_last (s : str) : option (str * str) :=
  match s with
  | [] => None
  | c :: t => match split_last t with
              | Some (a, b) => Some (c :: a, b)
              | None => if c =? 47 then Some ([], t) else None
              end
  end.
(* std [Path::parent] of an absolute path (figment for src/config/mod.rs:72). *)
Definition path_parent (s : str) : option str :=
  if leqb s [47] then None
  else match split_last s with
       | Some ([], _) => Some [47]
       | Some (a, _) => Some a
       | None => None
       end.

(* What the TOML parser makes of a file: the keys at the top with their values
   (src/config/mod.rs:72-76). *)
Inductive toml_value : Type := TTable (d : dict) | TOther.
(* src/config/mod.rs:72-76: a file. *)
Definition toml : Type := list (str * toml_value).
(* What is at a path: [None] if no file, [Some None] if a file that is not valid TOML
   (src/config/mod.rs:72-76). *)
Definition disk : Type := str -> option (option toml).
(* src/config/mod.rs:72-76: [Path::is_file]. *)
Definition is_file (d : disk) (path : str) : bool := match d path with Some _ => true | None => false end.

(* figment [Data::file]: the loop of [find].  [fuel]: more than the directories on the way
   (src/config/mod.rs:72). *)
Fixpoint find_up (fuel : nat) (d : disk) (dir path : str) : option str :=
  match fuel with
  | O => None
  | S n => let file := path_join dir path in
           if is_file d file then Some file
           else match path_parent dir with Some up => find_up n d up path | None => None end
  end.
(* figment [Data::file]: [find] (src/config/mod.rs:72). *)
Definition find_file (d : disk) (cwd : option str) (path : str) : option str :=
  if path_is_absolute path then (if is_file d path then Some path else None)
  else match cwd with Some dir => find_up (S (List.length dir)) d dir path | None => None end.

(* src/config/mod.rs:76: equality of profiles. *)
Definition profile_eqb (a b : profile) : bool :=
  match a, b with
  | ProfDefault, ProfDefault | ProfGlobal, ProfGlobal => true
  | ProfCustom x, ProfCustom y => leqb x y
  | _, _ => false
  end.
(* [nested]: a map from profiles to tables; inserting a profile again replaces its table
   (src/config/mod.rs:76). *)
Fixpoint toml_nested (t : toml) : option (profile -> dict) :=
  match t with
  | [] => Some (fun _ => [])
  | (_, TOther) :: _ => None
  | (k, TTable d) :: t' =>
      match toml_nested t' with
      | None => None
      | Some f => Some (fun pr => if profile_eqb pr (profile_named k) && negb (existsb (fun x => profile_eqb pr (profile_named (fst x))) t')
                                  then d else f pr)
      end
  end.
(* figment [Data::data] for a file (src/config/mod.rs:72-76). *)
Definition read_file (d : disk) (cwd : option str) (path : str) : option (profile -> dict) :=
  match find_file d cwd path with
  | None => Some (fun _ => [])
  | Some f => match d f with Some (Some t) => toml_nested t | _ => None end
  end.

(* The variables, the files, the current directory (if there is one), whether stdout is a
   terminal, and [e_cli_profile] (src/config/mod.rs:69-87). *)
Record place : Type := mkPlace {
  pl_vars : variables; pl_disk : disk; pl_cwd : option str; pl_tty : bool; pl_cli_profile : profile }.
(* src/config/mod.rs:69-87: what the program sees of it. *)
Definition world_of (pl : place) : world :=
  mkWorld (pl_vars pl) (read_file (pl_disk pl) (pl_cwd pl)) (pl_tty pl) (pl_cli_profile pl).
(* The program started with these words in this place (src/main.rs:103-219). *)
Definition run_in (p : platform) (pl : place) (ws : list str) : run_result := run_outside p (world_of pl) ws.
