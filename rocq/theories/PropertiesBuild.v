(** The properties of the build script. *)

From Coq Require Import NArith List String Ascii Bool PeanoNat Lia ZifyN ZifyBool ZifyNat.
From Verif Require Import Base ModelUtil ModelMain ModelCli ModelWords ModelEnv ModelFiles ModelBuild SpecUtil ProofsUtil ProofsValues SpecBuild.
Import ListNotations.
Local Open Scope N_scope.

Lemma get_first vars key v : get_var vars key = Some v <-> first_entry vars key v.
Proof.
  induction vars as [|[k w] t IH]; cbn [get_var].
  - split; [discriminate|]. intros (a & b & E & _). destruct a; discriminate E.
  - destruct (leqb k key) eqn:K.
    + apply leqb_eq in K. subst k. split.
      * intros H. injection H as ->. exists [], t. split; [reflexivity|]. intros [].
      * intros (a & b & E & N). destruct a as [|[k' v'] a]; [cbn in E; congruence|]. exfalso. apply N. left. cbn [app] in E. cbn. congruence.
    + assert (Ne : k <> key) by (intros ->; rewrite (proj2 (leqb_eq key key) eq_refl) in K; discriminate). rewrite IH. split.
      * intros (a & b & -> & N). exists ((k, w) :: a), b. split; [reflexivity|]. intros [E|I]; [now apply Ne|now apply N].
      * intros (a & b & E & N). destruct a as [|[k' v'] a]; [cbn in E; congruence|]. cbn [app] in E. injection E as <- <- ->. exists a, b. split; [reflexivity|]. intros I. apply N. now right.
Qed.
Lemma get_none vars key : get_var vars key = None <-> ~ In key (map fst vars).
Proof.
  induction vars as [|[k w] t IH]; cbn [get_var map fst In]; [tauto|]. destruct (leqb k key) eqn:K.
  - apply leqb_eq in K. split; [discriminate|]. intros N. exfalso. apply N. now left.
  - assert (Ne : k <> key) by (intros ->; rewrite (proj2 (leqb_eq key key) eq_refl) in K; discriminate). tauto.
Qed.
Lemma get_app a b key : get_var (a ++ b) key = match get_var a key with Some v => Some v | None => get_var b key end.
Proof. induction a as [|[k w] t IH]; cbn [app get_var]; [reflexivity|]. destruct (leqb k key); [reflexivity|exact IH]. Qed.
Lemma get_dotenv key : forall entries vars, get_var (load_dotenv vars entries) key = match get_var vars key with Some v => Some v | None => get_var entries key end.
Proof.
  induction entries as [|[k v] t IH]; intros vars; cbn [load_dotenv get_var]; [now destruct (get_var vars key)|]. destruct (get_var vars k) eqn:G.
  - rewrite IH. destruct (leqb k key) eqn:K; [|reflexivity]. apply leqb_eq in K. subst k. now rewrite G.
  - rewrite IH, get_app. cbn [get_var]. destruct (get_var vars key) eqn:G'; [reflexivity|]. destruct (leqb k key); reflexivity.
Qed.
Lemma in_force_iff vars env key v : get_var (load_dotenv vars env) key = Some v <-> set_to vars env key v.
Proof.
  rewrite get_dotenv. unfold set_to. rewrite <- !get_first, <- get_none. destruct (get_var vars key) as [w|]; [|split; [now right|intros [K|[_ K]]; [discriminate|exact K]]].
  split; [now left|]. intros [K|[K _]]; [exact K|discriminate].
Qed.
Lemma unset_iff vars env key : get_var (load_dotenv vars env) key = None <-> not_set vars env key.
Proof. rewrite get_dotenv. unfold not_set. rewrite <- !get_none. destruct (get_var vars key); [|tauto]. split; [discriminate|intros [K _]; exact K]. Qed.
Lemma inside_iff dir name path : path_is_absolute name = false -> (inside dir name path <-> path_join dir name = path).
Proof.
  intros A. unfold path_join. rewrite A. split.
  - intros [n|d n|d c n Hc].
    + reflexivity.
    + destruct (d ++ [47]) as [|x y] eqn:E; [destruct d; discriminate E|]. rewrite <- E. rewrite last_last. change (47 =? 47) with true. cbn iota. now rewrite <- app_assoc.
    + destruct (d ++ [c]) as [|x y] eqn:E; [destruct d; discriminate E|]. rewrite <- E. rewrite last_last. destruct (N.eqb_spec c 47); [contradiction|]. now rewrite <- app_assoc.
  - intros <-. destruct dir as [|x y]; [constructor|]. destruct (@exists_last _ (x :: y)) as (d & c & ->); [discriminate|]. rewrite last_last.
    assert (E : match d ++ [c] with [] => name | _ :: _ => if c =? 47 then (d ++ [c]) ++ name else (d ++ [c]) ++ 47 :: name end
      = if c =? 47 then (d ++ [c]) ++ name else (d ++ [c]) ++ 47 :: name) by (destruct d; reflexivity).
    destruct (d ++ [c]) eqn:Q; [destruct d; discriminate Q|]. rewrite <- Q in *. destruct (N.eqb_spec c 47) as [->|].
    + rewrite <- app_assoc. constructor.
    + rewrite <- app_assoc. now constructor.
Qed.

(* Writing one file after the other. *)
Definition task : Type := str * list N * notice * ending.
Definition task_file (t : task) : str * list N := fst (fst t).
Definition one (rm : rooms) (d : files) (t : task) : building :=
  let '(p, b, n, e) := t in
  let '(d', ok) := write_file rm d p b in if ok : bool then mkBuilding d' [n] Finished else mkBuilding d' [] (if file_refused rm p then Failed else e).
Fixpoint each (rm : rooms) (d : files) (l : list task) : building :=
  match l with
  | [] => mkBuilding d [] Finished
  | t :: l' => followed_by (one rm d t) (fun d' => each rm d' l')
  end.
Definition script_task (r : rendered) (dir : str) (sh : shell) : task := let p := path_join dir (script_name sh) in (p, script r sh, ScriptGenerated sh p, Panicked).
Definition page_task (r : rendered) (dir : str) : task := let p := path_join dir (application_bin_name ++ lit ".1") in (p, page r, ManGenerated p, Failed).
Lemma followed_ext b k k' : (forall d, k d = k' d) -> followed_by b k = followed_by b k'.
Proof. intros H. unfold followed_by. now rewrite H. Qed.
Lemma followed_nil b : followed_by b (fun d => mkBuilding d [] Finished) = b.
Proof. unfold followed_by. destruct b as [d n []]; cbn; [now rewrite app_nil_r|reflexivity..]. Qed.
Lemma scripts_each r rm dir d : followed_by (generate_shell_completion r rm dir Bash d) (fun d =>
      followed_by (generate_shell_completion r rm dir Elvish d) (fun d =>
      followed_by (generate_shell_completion r rm dir Fish d) (fun d =>
      followed_by (generate_shell_completion r rm dir PowerShell d) (fun d =>
      generate_shell_completion r rm dir Zsh d)))) = each rm d (map (script_task r dir) [Bash; Elvish; Fish; PowerShell; Zsh]).
Proof.
  cbn [map each]. repeat (apply (followed_ext); intros ?). symmetry. apply followed_nil.
Qed.
Definition page_tasks (r : rendered) (vars : variables) : list task := match get_var vars man_page_var with Some dir => [page_task r dir] | None => [] end.
Definition script_tasks (r : rendered) (vars : variables) : list task :=
  match get_var vars completion_scripts_var with Some dir => map (script_task r dir) [Bash; Elvish; Fish; PowerShell; Zsh] | None => [] end.
Definition remark (x : option str) (n : notice) : list notice := match x with None => [n] | Some _ => [] end.
Lemma page_each r vars rm d : generate_man_page r vars rm d
  = let b := each rm d (page_tasks r vars) in mkBuilding (b_files b) (remark (get_var vars man_page_var) NoManDirectory ++ b_notices b) (b_ending b).
Proof.
  unfold generate_man_page, page_tasks. destruct (get_var vars man_page_var) as [dir|]; cbn [remark each app]; [|reflexivity]. rewrite followed_nil. unfold one, page_task. cbn zeta.
  destruct (write_file rm d _ (page r)) as [d' []]; [reflexivity|]. now destruct (file_refused rm _).
Qed.
Lemma completions_each r vars rm d : generate_shell_completions r vars rm d
  = let b := each rm d (script_tasks r vars) in mkBuilding (b_files b) (remark (get_var vars completion_scripts_var) NoScriptDirectory ++ b_notices b) (b_ending b).
Proof.
  unfold generate_shell_completions, script_tasks. destruct (get_var vars completion_scripts_var) as [dir|]; cbn [remark app]; [|reflexivity]. rewrite scripts_each. cbn zeta. now destruct (each rm d _).
Qed.
Lemma each_app rm a : forall d b, each rm d (a ++ b) = followed_by (each rm d a) (fun d' => each rm d' b).
Proof.
  induction a as [|t a IH]; intros d b; cbn [app each].
  - unfold followed_by. cbn. now destruct (each rm d b).
  - unfold followed_by. destruct (b_ending (one rm d t)) eqn:E; [|now rewrite E..]. cbn zeta. rewrite IH. unfold followed_by. cbn [b_ending b_files b_notices].
    destruct (b_ending (each rm (b_files (one rm d t)) a)) eqn:E'; [|now rewrite E'..]. cbn [b_files b_notices b_ending]. now rewrite app_assoc.
Qed.
Lemma put_same d p b : put d p b p = Some b.
Proof. unfold put. now rewrite (proj2 (leqb_eq p p) eq_refl). Qed.
Lemma put_other d p b q : q <> p -> put d p b q = d q.
Proof. intros N. unfold put. destruct (leqb q p) eqn:E; [|reflexivity]. apply leqb_eq in E. contradiction. Qed.
Lemma one_fits rm d t : fits_in rm (task_file t) -> one rm d t = mkBuilding (put d (fst (task_file t)) (snd (task_file t))) [snd (fst t)] Finished.
Proof. destruct t as [[[p b] n] e]. intros (k & R & L). cbn in R, L. unfold one, write_file. rewrite R. cbn [task_file fst snd]. now rewrite (proj2 (N.leb_le _ _) L). Qed.
Lemma each_fits rm l : forall d, Forall (fun t => fits_in rm (task_file t)) l -> NoDup (map (fun t => fst (task_file t)) l) ->
  b_ending (each rm d l) = Finished /\ b_notices (each rm d l) = map (fun t => snd (fst t)) l /\ holds_all (b_files (each rm d l)) (map task_file l) /\ unchanged d (b_files (each rm d l)) (map task_file l).
Proof.
  induction l as [|t l IH]; intros d F N; cbn [each].
  - split; [reflexivity|]. split; [reflexivity|]. split; [constructor|]. intros q _. reflexivity.
  - apply Forall_cons_iff in F. destruct F as [Ft F]. cbn [map] in N. apply NoDup_cons_iff in N. destruct N as [Nt N]. rewrite (one_fits rm d t Ft). unfold followed_by. cbn [b_ending b_files b_notices].
    destruct (IH (put d (fst (task_file t)) (snd (task_file t))) F N) as (E & No & H & U). cbn zeta. cbn [b_ending b_files b_notices map]. rewrite No. split; [exact E|]. split; [reflexivity|]. split.
    + constructor; [|exact H]. rewrite U; [apply put_same|]. rewrite map_map. exact Nt.
    + intros q Q. cbn [map In] in Q. rewrite U by tauto. apply put_other. intros ->. tauto.
Qed.
Lemma one_stops rm d t : ~ fits_in rm (task_file t) -> b_ending (one rm d t) = (if file_refused rm (fst (task_file t)) then Failed else snd t) /\ b_notices (one rm d t) = []
  /\ (rm (fst (task_file t)) = Refused /\ b_files (one rm d t) = d
      \/ exists n, rm (fst (task_file t)) = Room n /\ n < len (snd (task_file t)) /\ b_files (one rm d t) = put d (fst (task_file t)) (firstn (N.to_nat n) (snd (task_file t)))).
Proof.
  destruct t as [[[p b] n] e]. cbn [task_file fst snd]. intros N. unfold one, write_file, file_refused. destruct (rm p) as [|k] eqn:R.
  - cbn. split; [reflexivity|]. split; [reflexivity|]. left. now split.
  - destruct (N.leb_spec (len b) k) as [L|L]; [exfalso; apply N; now exists k|]. cbn. split; [reflexivity|]. split; [reflexivity|]. right. now exists k.
Qed.

(* The tasks of a build, and the files wanted. *)
Definition tasks (r : rendered) (vars : variables) : list task := page_tasks r vars ++ script_tasks r vars.
Lemma wanted_iff r vars env l : wanted r vars env l <-> l = map task_file (tasks r (load_dotenv vars env)).
Proof.
  assert (P : forall a, wanted_page r vars env a <-> a = map task_file (page_tasks r (load_dotenv vars env))).
  { intros a. unfold wanted_page, page_tasks. change (lit "MAN_PAGE_OUT_DIR") with man_page_var. rewrite <- unset_iff. destruct (get_var (load_dotenv vars env) man_page_var) as [dir|] eqn:G.
    - split.
      + intros [[K _]|(dir' & p & S & I & ->)]; [discriminate|]. apply in_force_iff in S. rewrite G in S. injection S as <-. apply inside_iff in I; [|reflexivity]. subst p. reflexivity.
      + intros ->. right. exists dir, (path_join dir (lit "pemv.1")). split; [now apply in_force_iff|]. split; [now apply inside_iff|reflexivity].
    - split; [intros [[_ K]|(dir' & p & S & _)]; [exact K|apply in_force_iff in S; congruence]|]. intros ->. now left. }
  assert (S : forall b, wanted_scripts r vars env b <-> b = map task_file (script_tasks r (load_dotenv vars env))).
  { intros a. unfold wanted_scripts, script_tasks. change (lit "COMPLETION_SCRIPTS_OUT_DIR") with completion_scripts_var. rewrite <- unset_iff.
    destruct (get_var (load_dotenv vars env) completion_scripts_var) as [dir|] eqn:G.
    - split.
      + intros [[K _]|(dir' & S & F)]; [discriminate|]. apply in_force_iff in S. rewrite G in S. injection S as <-.
        repeat match goal with H : Forall2 _ (_ :: _) _ |- _ => inversion H; clear H; subst | H : Forall2 _ [] _ |- _ => inversion H; clear H; subst end.
        repeat match goal with H : _ /\ _ |- _ => destruct H as [? ?] end.
        repeat match goal with H : inside _ _ _ |- _ => apply inside_iff in H; [|reflexivity] end. cbn [fst snd] in *.
        repeat match goal with y : str * list N |- _ => destruct y; cbn [fst snd] in *; subst end. reflexivity.
      + intros ->. right. exists dir. split; [now apply in_force_iff|]. repeat (constructor; [split; [now apply inside_iff|reflexivity]|]). constructor.
    - split; [intros [[_ K]|(dir' & S & _)]; [exact K|apply in_force_iff in S; congruence]|]. intros ->. now left. }
  unfold wanted, tasks. rewrite map_app. split.
  - intros (a & b & -> & A & B). apply P in A. apply S in B. now subst.
  - intros ->. eexists _, _. split; [reflexivity|]. split; [now apply P|now apply S].
Qed.
(* Different names make different paths. *)
Lemma join_last dir name : path_is_absolute name = false -> exists x, path_join dir name = x ++ name /\ (x = [] \/ exists y, x = y ++ [47]).
Proof.
  intros A. destruct (proj2 (inside_iff dir name _ A) eq_refl) as [n|d n|d c n _].
  - exists []. split; [reflexivity|now left].
  - exists (d ++ [47]). split; [now rewrite <- app_assoc|]. right. now exists d.
  - exists ((d ++ [c]) ++ [47]). split; [now rewrite <- !app_assoc|]. right. now exists (d ++ [c]).
Qed.
Lemma names_differ x y m n : (x = [] \/ exists u, x = u ++ [47]) -> (y = [] \/ exists u, y = u ++ [47]) -> ~ In 47 m -> ~ In 47 n -> x ++ m = y ++ n -> m = n.
Proof.
  assert (W : forall u (m n : str), ~ In 47 n -> (u ++ [47]) ++ m = n -> False) by (intros u m' n' Nn E; apply Nn; rewrite <- E; apply in_or_app; left; apply in_or_app; right; now left).
  assert (G : forall u v (m n : str), ~ In 47 m -> ~ In 47 n -> u ++ 47 :: m = v ++ 47 :: n -> m = n).
  { induction u as [|a u IH]; intros [|b v] m' n' Nm Nn E; cbn [app] in E.
    - congruence.
    - exfalso. injection E as _ E. apply Nm. rewrite E. apply in_or_app. right. now left.
    - exfalso. injection E as _ E. apply Nn. rewrite <- E. apply in_or_app. right. now left.
    - injection E as _ E. now apply (IH v). }
  intros [->|[u ->]] [->|[v ->]] Nm Nn E; cbn [app] in E; [exact E|exfalso; symmetry in E; exact (W _ _ _ Nm E)|exfalso; exact (W _ _ _ Nn E)|]. rewrite <- !app_assoc in E. now apply (G u v).
Qed.
Definition task_name (t : task) : str := match snd (fst t) with ScriptGenerated sh _ => script_name sh | _ => application_bin_name ++ lit ".1" end.
Lemma tasks_distinct r vars : NoDup (map (fun t => fst (task_file t)) (tasks r vars)).
Proof.
  assert (K : forall t, In t (tasks r vars) -> exists dir, fst (task_file t) = path_join dir (task_name t) /\ path_is_absolute (task_name t) = false /\ ~ In 47 (task_name t)).
  { assert (Ns : forall sh, path_is_absolute (script_name sh) = false /\ ~ In 47 (script_name sh)).
    { intros sh. split; [destruct sh; reflexivity|]. intros I. apply (existsb_exists (N.eqb 47)) with (1 := ex_intro _ 47 (conj I eq_refl)) || idtac.
      assert (X : existsb (N.eqb 47) (script_name sh) = true) by (apply existsb_exists; exists 47; split; [exact I|reflexivity]). destruct sh; vm_compute in X; discriminate X. }
    intros t I. unfold tasks, page_tasks, script_tasks in I. apply in_app_or in I. destruct I as [I|I].
    - destruct (get_var vars man_page_var) as [dir|]; [|contradiction]. destruct I as [<-|[]]. exists dir. split; [reflexivity|]. split; [reflexivity|]. intros J.
      assert (X : existsb (N.eqb 47) (application_bin_name ++ lit ".1") = true) by (apply existsb_exists; exists 47; split; [exact J|reflexivity]). vm_compute in X. discriminate X.
    - destruct (get_var vars completion_scripts_var) as [dir|]; [|contradiction]. apply in_map_iff in I. destruct I as (sh & <- & _). exists dir. split; [reflexivity|]. apply Ns. }
  assert (D : NoDup (map task_name (tasks r vars))).
  { assert (Q : NoDup [application_bin_name ++ lit ".1"; script_name Bash; script_name Elvish; script_name Fish; script_name PowerShell; script_name Zsh]).
    { vm_compute. repeat (constructor; [intros J; repeat (destruct J as [J|J]; [discriminate J|]); exact J|]). constructor. }
    unfold tasks, page_tasks, script_tasks. destruct (get_var vars man_page_var) as [dir|], (get_var vars completion_scripts_var) as [dir'|]; cbn [app map task_name snd fst page_task script_task]; cbn zeta; cbn [fst snd].
    - exact Q.
    - constructor; [intros []|constructor].
    - now apply NoDup_cons_iff in Q.
    - constructor. }
  revert K D. generalize (tasks r vars). induction l as [|t l IH]; intros K D; [constructor|]. cbn [map] in *. apply NoDup_cons_iff in D. destruct D as [Nt D]. constructor; [|apply IH; [intros x I; apply K; now right|exact D]].
  intros I. apply in_map_iff in I. destruct I as (t' & E & I). apply Nt. apply in_map_iff. exists t'. split; [|exact I].
  destruct (K t (or_introl eq_refl)) as (d1 & P1 & A1 & N1). destruct (K t' (or_intror I)) as (d2 & P2 & A2 & N2). rewrite P1, P2 in E.
  destruct (join_last d1 _ A1) as (x & X & Sx). destruct (join_last d2 _ A2) as (y & Y & Sy). rewrite X, Y in E. exact (names_differ y x _ _ Sy Sx N2 N1 E).
Qed.

(** C98: the build script writes the man page and the completions, and nothing else. *)
Definition release_build := build_script false.
Lemma build_each r vars env rm d b : b = each rm d (tasks r (load_dotenv vars env)) ->
  b_files (release_build r vars env rm d) = b_files b /\ b_ending (release_build r vars env rm d) = b_ending b.
Proof.
  intros ->. unfold release_build, build_script. cbn zeta. set (v := load_dotenv vars env). rewrite page_each. unfold tasks. rewrite each_app. unfold followed_by. cbn zeta. cbn [b_ending b_files b_notices].
  destruct (b_ending (each rm d (page_tasks r v))) eqn:E; cbn [b_ending b_files b_notices].
  - rewrite completions_each. cbn zeta. cbn [b_ending b_files b_notices]. repeat split.
  - split; [reflexivity|]. now rewrite E.
  - split; [reflexivity|]. now rewrite E.
Qed.
Lemma build_notices r vars env rm d : let v := load_dotenv vars env in Forall (fun t => fits_in rm (task_file t)) (tasks r v) ->
  b_notices (release_build r vars env rm d)
  = (remark (get_var v man_page_var) NoManDirectory ++ map (fun t => snd (fst t)) (page_tasks r v))
    ++ remark (get_var v completion_scripts_var) NoScriptDirectory ++ map (fun t => snd (fst t)) (script_tasks r v).
Proof.
  intros v F. pose proof (tasks_distinct r v) as D. unfold tasks in F, D. apply Forall_app in F. destruct F as [Fa Fb]. rewrite map_app in D.
  assert (Da : NoDup (map (fun t => fst (task_file t)) (page_tasks r v))) by (revert D; generalize (map (fun t => fst (task_file t)) (page_tasks r v)); clear; induction l as [|z l IH]; cbn [app]; intros D; [constructor|]; apply NoDup_cons_iff in D; destruct D as [Dz D]; constructor; [intros I; apply Dz, in_or_app; now left|now apply IH]).
  assert (Db : NoDup (map (fun t => fst (task_file t)) (script_tasks r v))) by (revert D; generalize (map (fun t => fst (task_file t)) (page_tasks r v)); clear; induction l as [|z l IH]; cbn [app]; intros D; [exact D|]; apply NoDup_cons_iff in D; now apply IH).
  unfold release_build, build_script. cbn zeta. fold v. rewrite page_each. cbn zeta. destruct (each_fits rm _ d Fa Da) as (Ea & Na & _). unfold followed_by. cbn [b_ending]. rewrite Ea. cbn [b_notices b_files]. rewrite completions_each. cbn zeta. cbn [b_notices].
  destruct (each_fits rm _ (b_files (each rm d (page_tasks r v))) Fb Db) as (_ & Nb & _). now rewrite Na, Nb.
Qed.
Theorem C98_one : forall r vars env, exists l, wanted r vars env l /\ forall l', wanted r vars env l' -> l' = l.
Proof. intros r vars env. exists (map task_file (tasks r (load_dotenv vars env))). split; [now apply wanted_iff|]. intros l' W. now apply wanted_iff in W. Qed.
Theorem C98_complete : forall r vars env rm d l, wanted r vars env l -> Forall (fits_in rm) l ->
  b_ending (release_build r vars env rm d) = Finished /\ holds_all (b_files (release_build r vars env rm d)) l /\ unchanged d (b_files (release_build r vars env rm d)) l.
Proof.
  intros r vars env rm d l W F. apply wanted_iff in W. subst l. destruct (build_each r vars env rm d _ eq_refl) as (Bf & Be). rewrite Bf, Be.
  rewrite Forall_map in F. destruct (each_fits rm _ d F (tasks_distinct r (load_dotenv vars env))) as (E & _ & H & U). now repeat split.
Qed.
(* The first file that cannot be written ends it: those before are complete, those after are not touched. *)
Theorem C98_stops : forall r vars env rm d a x b, wanted r vars env (a ++ x :: b) -> Forall (fits_in rm) a -> ~ fits_in rm x ->
  let o := release_build r vars env rm d in
  b_ending o <> Finished /\ holds_all (b_files o) a /\ unchanged d (b_files o) (a ++ [x])
  /\ (rm (fst x) = Refused /\ b_ending o = Failed /\ b_files o (fst x) = d (fst x)
      \/ exists n, rm (fst x) = Room n /\ n < len (snd x) /\ b_files o (fst x) = Some (firstn (N.to_nat n) (snd x))).
Proof.
  intros r vars env rm d a x b W F N o. apply wanted_iff in W. destruct (build_each r vars env rm d _ eq_refl) as (Bf & Be). fold o in Bf, Be. rewrite Bf, Be. clear Bf Be o.
  pose proof (tasks_distinct r (load_dotenv vars env)) as D.
  assert (En : forall t, In t (tasks r (load_dotenv vars env)) -> snd t <> Finished).
  { intros t I. unfold tasks, page_tasks, script_tasks in I. apply in_app_or in I. destruct I as [I|I].
    - destruct (get_var _ man_page_var); [|contradiction]. destruct I as [<-|[]]. cbn. discriminate.
    - destruct (get_var _ completion_scripts_var); [|contradiction]. apply in_map_iff in I. destruct I as (sh & <- & _). cbn. discriminate. }
  revert W D En. generalize (tasks r (load_dotenv vars env)). intros l W D En. symmetry in W. apply map_eq_app in W. destruct W as (la & lb & -> & Ea & Eb).
  destruct lb as [|t lb]; [discriminate Eb|]. cbn [map] in Eb. assert (E1 : task_file t = x) by congruence. clear Eb. subst a x.
  rewrite each_app. cbn [each]. rewrite Forall_map in F. rewrite map_app in D. cbn [map] in D.
  assert (Da : NoDup (map (fun t => fst (task_file t)) la)) by (clear - D; induction la as [|z la IH]; cbn [map app] in *; [constructor|]; apply NoDup_cons_iff in D; destruct D as [Dz D]; constructor; [intros I; apply Dz, in_or_app; now left|now apply IH]).
  assert (Dx : ~ In (fst (task_file t)) (map (fun t => fst (task_file t)) la)) by (intros I; apply NoDup_remove_2 in D; apply D, in_or_app; now left).
  destruct (each_fits rm la d F Da) as (E & _ & H & U). set (d1 := b_files (each rm d la)) in *. destruct (one_stops rm d1 t N) as (Eo & _ & Fo).
  assert (Ne : b_ending (one rm d1 t) <> Finished) by (rewrite Eo; destruct (file_refused rm _); [discriminate|]; apply En, in_or_app; right; now left).
  assert (Fb : followed_by (each rm d la) (fun d' => followed_by (one rm d' t) (fun d'' => each rm d'' lb)) = mkBuilding (b_files (one rm d1 t)) (b_notices (each rm d la) ++ b_notices (one rm d1 t)) (b_ending (one rm d1 t))).
  { unfold followed_by. rewrite E. cbn zeta. fold d1. destruct (b_ending (one rm d1 t)) eqn:Q; [contradiction|now rewrite Q..]. }
  rewrite Fb. cbn [b_ending b_files]. clear Fb. split; [exact Ne|].
  assert (Hd1 : d1 (fst (task_file t)) = d (fst (task_file t))) by (apply U; now rewrite map_map).
  destruct Fo as [[R ->]|(n & R & L & ->)].
  - split; [exact H|]. split.
    + intros q Q. apply U. rewrite map_app in Q. intros I. apply Q, in_or_app. now left.
    + left. split; [exact R|]. split; [rewrite Eo; unfold file_refused; now rewrite R|exact Hd1].
  - split; [|split].
    + unfold holds_all in *. rewrite Forall_forall in *. intros y I. rewrite put_other; [now apply H|]. intros Q. apply Dx. apply in_map_iff in I. destruct I as (u & <- & I). rewrite <- Q. apply in_map_iff. now exists u.
    + intros q Q. rewrite map_app in Q. rewrite put_other; [apply U; intros I; apply Q, in_or_app; now left|]. intros ->. apply Q, in_or_app. right. now left.
    + right. exists n. split; [exact R|]. split; [exact L|]. apply put_same.
Qed.
(* A build that runs out of room fails at the man page and panics at a script; one that may not create a file fails. *)
Theorem C98_ending : forall r vars env rm d a x b, wanted r vars env (a ++ x :: b) -> Forall (fits_in rm) a -> ~ fits_in rm x ->
  (rm (fst x) = Refused -> b_ending (release_build r vars env rm d) = Failed)
  /\ (rm (fst x) <> Refused -> (exists dir, fst x = dir ++ lit "pemv.1") -> b_ending (release_build r vars env rm d) = Failed)
  /\ (rm (fst x) <> Refused -> ~ (exists dir, fst x = dir ++ lit "pemv.1") -> b_ending (release_build r vars env rm d) = Panicked).
Proof.
  intros r vars env rm d a x b W F N. apply wanted_iff in W. destruct (build_each r vars env rm d _ eq_refl) as (_ & Be). rewrite Be. clear Be.
  pose proof (tasks_distinct r (load_dotenv vars env)) as D.
  assert (En : forall t, In t (tasks r (load_dotenv vars env)) -> snd t = Failed /\ (exists dir, fst (task_file t) = dir ++ lit "pemv.1") \/ snd t = Panicked /\ ~ exists dir, fst (task_file t) = dir ++ lit "pemv.1").
  { intros t I. unfold tasks, page_tasks, script_tasks in I. apply in_app_or in I. destruct I as [I|I].
    - left. destruct (get_var _ man_page_var) as [dir|]; [|contradiction]. destruct I as [<-|[]]. split; [reflexivity|]. destruct (join_last dir (lit "pemv.1") eq_refl) as (y & Y & _). exists y. exact Y.
    - right. destruct (get_var _ completion_scripts_var) as [dir|]; [|contradiction]. apply in_map_iff in I. destruct I as (sh & <- & _). split; [reflexivity|]. intros (z & Z). unfold script_task, task_file in Z. cbn [fst snd] in Z.
      destruct (join_last dir (script_name sh) ltac:(destruct sh; reflexivity)) as (y & Y & _). rewrite Y in Z. apply (f_equal (@rev _)) in Z. rewrite !rev_app_distr in Z. destruct sh; discriminate Z. }
  revert W D En. generalize (tasks r (load_dotenv vars env)). intros l W D En. symmetry in W. apply map_eq_app in W. destruct W as (la & lb & -> & Ea & Eb).
  destruct lb as [|t lb]; [discriminate Eb|]. cbn [map] in Eb. assert (E1 : task_file t = x) by congruence. clear Eb. subst a x.
  rewrite each_app. cbn [each]. rewrite Forall_map in F. rewrite map_app in D. cbn [map] in D.
  assert (Da : NoDup (map (fun t => fst (task_file t)) la)) by (clear - D; induction la as [|z la IH]; cbn [map app] in *; [constructor|]; apply NoDup_cons_iff in D; destruct D as [Dz D]; constructor; [intros I; apply Dz, in_or_app; now left|now apply IH]).
  destruct (each_fits rm la d F Da) as (E & _). set (d1 := b_files (each rm d la)) in *. destruct (one_stops rm d1 t N) as (Eo & _). specialize (En t ltac:(apply in_or_app; right; now left)).
  assert (Ne : b_ending (one rm d1 t) <> Finished) by (rewrite Eo; destruct (file_refused rm _); [discriminate|]; destruct En as [[-> _]|[-> _]]; discriminate).
  assert (Fb : b_ending (followed_by (each rm d la) (fun d' => followed_by (one rm d' t) (fun d'' => each rm d'' lb))) = b_ending (one rm d1 t)).
  { unfold followed_by. rewrite E. cbn zeta. fold d1. destruct (b_ending (one rm d1 t)) eqn:Q; [contradiction|cbn; now rewrite Q..]. }
  rewrite Fb, Eo. unfold file_refused. destruct (rm (fst (task_file t))) as [|n]; [split; [reflexivity|split; intros H; now destruct H]|]. split; [discriminate|]. split; intros _ H; destruct En as [[-> K]|[-> K]]; try reflexivity; contradiction.
Qed.
Lemma fits_dec rm x : {fits_in rm x} + {~ fits_in rm x}.
Proof.
  destruct x as [p b]. unfold fits_in. cbn [fst snd]. destruct (rm p) as [|n] eqn:R; [right; intros (n & K & _); discriminate K|]. destruct (N.leb (len b) n) eqn:L0; [left; exists n; split; [reflexivity|now apply N.leb_le]|]. apply N.leb_gt in L0.
  right. intros (k & K & L). injection K as <-. lia.
Qed.
Lemma first_misfit rm l : Forall (fits_in rm) l \/ exists a x b, l = a ++ x :: b /\ Forall (fits_in rm) a /\ ~ fits_in rm x.
Proof.
  induction l as [|y l IH]; [left; constructor|]. destruct (fits_dec rm y) as [F|F]; [|right; exists [], y, l; now repeat split].
  destruct IH as [A|(a & x & b & -> & A & N)]; [left; now constructor|]. right. exists (y :: a), x, b. split; [reflexivity|]. split; [now constructor|exact N].
Qed.
(* Whatever happens, nothing else is touched, and a debug build touches nothing. *)
Theorem C98_only : forall debug r vars env rm d l, wanted r vars env l ->
  unchanged d (b_files (build_script debug r vars env rm d)) (if debug then [] else l)
  /\ (b_ending (build_script debug r vars env rm d) = Finished <-> debug = true \/ Forall (fits_in rm) l).
Proof.
  intros [] r vars env rm d l W; [split; [intros q _; reflexivity|split; [now left|reflexivity]]|]. fold (release_build). destruct (first_misfit rm l) as [F|(a & x & b & -> & F & N)].
  - destruct (C98_complete r vars env rm d l W F) as (E & _ & U). split; [exact U|]. split; [now right|intros _; exact E].
  - destruct (C98_stops r vars env rm d a x b W F N) as (E & _ & U & _). split.
    + intros q Q. apply U. intros I. apply Q. rewrite map_app in *. apply in_app_or in I. apply in_or_app. destruct I as [I|[I|[]]]; [now left|right; now left].
    + split; [intros K; contradiction|]. intros [K|K]; [discriminate|]. apply Forall_app in K. destruct K as [_ K]. now apply Forall_cons_iff in K.
Qed.
Theorem C98_told : forall r vars env rm d l, wanted r vars env l -> Forall (fits_in rm) l ->
  exists a b, b_notices (release_build r vars env rm d) = a ++ b /\ told_page vars env a /\ told_scripts vars env b.
Proof.
  intros r vars env rm d l W F. apply wanted_iff in W. subst l. rewrite Forall_map in F. rewrite (build_notices r vars env rm d F). eexists _, _. split; [reflexivity|]. split.
  - unfold told_page, page_tasks. change (lit "MAN_PAGE_OUT_DIR") with man_page_var. rewrite <- unset_iff. destruct (get_var (load_dotenv vars env) man_page_var) as [dir|] eqn:G; cbn [remark app map]; [|now left].
    right. exists dir, (path_join dir (lit "pemv.1")). split; [now apply in_force_iff|]. split; [now apply inside_iff|reflexivity].
  - unfold told_scripts, script_tasks. change (lit "COMPLETION_SCRIPTS_OUT_DIR") with completion_scripts_var. rewrite <- unset_iff. destruct (get_var (load_dotenv vars env) completion_scripts_var) as [dir|] eqn:G; cbn [remark app map]; [|now left].
    right. exists dir. split; [now apply in_force_iff|]. repeat (constructor; [eexists; split; [now apply inside_iff|reflexivity]|]). constructor.
Qed.
(* A man page directory in the environment, which counts, and one in the .env file; the second script does not fit. *)
Definition ex_rendered : rendered := mkRendered (lit ".TH pemv") (fun sh => script_name sh).
Definition ex_vars : variables := [(lit "HOME", lit "/home/x"); (lit "MAN_PAGE_OUT_DIR", lit "/usr/man/")].
Definition ex_dotenv : variables := [(lit "MAN_PAGE_OUT_DIR", lit "other"); (lit "COMPLETION_SCRIPTS_OUT_DIR", lit "out")].
Definition ex_rooms : rooms := fun p => if leqb p (lit "out/pemv.elv") then Room 4 else Room 1000.
Definition ex_files : list (str * list N) :=
  [(lit "/usr/man/pemv.1", lit ".TH pemv"); (lit "out/pemv.bash", lit "pemv.bash"); (lit "out/pemv.elv", lit "pemv.elv"); (lit "out/pemv.fish", lit "pemv.fish"); (lit "out/_pemv.ps1", lit "_pemv.ps1"); (lit "out/_pemv", lit "_pemv")].
Example C98_example : wanted ex_rendered ex_vars ex_dotenv ex_files
  /\ Forall (fits_in (fun _ => Room 9)) ex_files /\ Forall (fits_in ex_rooms) (firstn 2 ex_files) /\ ~ fits_in ex_rooms (lit "out/pemv.elv", lit "pemv.elv")
  /\ b_files (release_build ex_rendered ex_vars ex_dotenv ex_rooms (fun _ => None)) (lit "out/pemv.elv") = Some (lit "pemv")
  /\ b_ending (release_build ex_rendered ex_vars ex_dotenv ex_rooms (fun _ => None)) = Panicked
  /\ b_notices (release_build ex_rendered ex_vars ex_dotenv ex_rooms (fun _ => None)) = [ManGenerated (lit "/usr/man/pemv.1"); ScriptGenerated Bash (lit "out/pemv.bash")].
Proof.
  split; [apply wanted_iff; vm_compute; reflexivity|]. split; [|split; [|split]].
  - repeat (constructor; [exists 9; split; [reflexivity|vm_compute; intros K; discriminate K]|]). constructor.
  - repeat (constructor; [exists 1000; split; [reflexivity|vm_compute; intros K; discriminate K]|]). constructor.
  - intros (n & R & L). vm_compute in R. injection R as <-. vm_compute in L. now apply L.
  - split; [|split]; vm_compute; reflexivity.
Qed.
