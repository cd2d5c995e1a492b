(** The properties of the configuration file: where it is looked for and what it says. *)

From Coq Require Import NArith String List Bool PeanoNat Lia ZifyN ZifyBool ZifyNat.
From Verif Require Import Base ModelUtil ModelTlv ModelValues ModelProcess ModelDisplay ModelCli SpecUtil SpecTlv SpecIngenico SpecDisplay SpecCli
  PropertiesBer ProofsUtil ProofsValues ModelMain SpecMain ProofsMain PropertiesMain ProofsCli PropertiesCli ModelWords SpecWords ProofsWords PropertiesWords SpecValues SpecPictures ModelEnv SpecEnv ProofsEnv PropertiesEnv
  ModelFiles SpecFiles ProofsFiles.
Import ListNotations.
Local Open Scope N_scope.

(** C85: the configuration file is the nearest one, and says what its profile tables say. *)
Lemma file_of pl dir name : in_directory pl dir -> config_name pl name ->
  e_file (environment_of (world_of pl)) = read_file (pl_disk pl) (Some (dir_text dir)) name.
Proof.
  intros [P C] V. apply (variable_iff (pl_vars pl) "pemv_config" "PEMV_CONFIG" "pemv.toml" name eq_refl eq_refl) in V.
  change (read_file (pl_disk pl) (pl_cwd pl) (env_var_or (pl_vars pl) (lit "PEMV_CONFIG") (lit "pemv.toml")) = read_file (pl_disk pl) (Some (dir_text dir)) name).
  now rewrite V, C.
Qed.
Lemma named_somehow pl : exists name, config_name pl name.
Proof. eexists. apply (variable_iff (pl_vars pl) "pemv_config" "PEMV_CONFIG" "pemv.toml" _ eq_refl eq_refl). reflexivity. Qed.
Lemma name_once pl n n' : config_name pl n -> config_name pl n' -> n = n'.
Proof. intros H K. apply (variable_iff (pl_vars pl) "pemv_config" "PEMV_CONFIG" "pemv.toml" _ eq_refl eq_refl) in H, K. congruence. Qed.

Theorem C85_file : forall pl dir name file, in_directory pl dir -> config_name pl name ->
  ((exists file', e_file (environment_of (world_of pl)) = Some file' /\ forall pr, file' pr = file pr) <-> contents (pl_disk pl) dir name file).
Proof.
  intros pl dir name file D V. rewrite (file_of pl dir name D V). destruct D as [P _]. split.
  - intros (file' & R & E). apply (read_contents _ _ _ _ P) in R. destruct R as [(path & t & C & H & O & T)|[N T]].
    + left. exists path, t. repeat (split; [assumption|]). intros pr. rewrite <- E. apply T.
    + right. split; [assumption|]. intros pr. rewrite <- E. apply T.
  - now apply contents_read.
Qed.
(* One file at most is used, and there is one if any of the paths looked at is a file. *)
Theorem C85_one : forall d dir name, proper dir ->
  (forall path path', chosen d dir name path -> chosen d dir name path' -> path = path')
  /\ ((exists path, chosen d dir name path) <-> exists path, candidate dir name path /\ file_at d path).
Proof.
  intros d dir name P. split; [intros a b A B; apply (find_file_iff _ _ _ _ P) in A, B; congruence|]. split.
  - intros (path & F & H). exists path. split; [|assumption]. destruct H as [H|(R & up & A & E & _)]; [now left|right; split; [assumption|exists up; auto]].
  - intros (path & C & F). destruct (find_file d (Some (dir_text dir)) name) as [q|] eqn:E; [exists q; now apply (find_file_iff _ _ _ _ P)|]. exfalso.
    pose proof (proj1 (find_file_none _ _ _ P) E) as H. destruct C as [C|(R & up & A & ->)]; [apply (H path); split; [assumption|now left]|].
    clear E P. cut (exists q, chosen d dir name q); [intros (q & Y); now apply (H q)|]. clear H. revert A F. induction dir as [|n dir IH] using rev_ind; intros A F.
    + apply above_root in A. subst up. exists (file_in [] name). split; [assumption|]. right. split; [assumption|]. exists []. split; [now exists []|]. split; [reflexivity|].
      intros nr A L. apply above_root in A. subst nr. cbn in L. lia.
    + destruct (is_file d (file_in (dir ++ [n]) name)) eqn:G.
      * apply file_iff in G. exists (file_in (dir ++ [n]) name). split; [assumption|]. right. split; [assumption|]. exists (dir ++ [n]). split; [exists []; now rewrite app_nil_r|]. split; [reflexivity|].
        intros nr A' L. apply above_length in A'. lia.
      * apply above_snoc in A. destruct A as [->|A]; [apply file_iff in F; congruence|]. destruct (IH A F) as (q & Fq & [[B _]|(_ & u & B & Eq & N)]); [contradiction|].
        exists q. split; [assumption|]. right. split; [assumption|]. exists u. split; [apply above_snoc; now right|]. split; [assumption|].
        intros nr A' L. apply above_snoc in A'. destruct A' as [->|A']; [intros K; apply file_iff in K; congruence|now apply N].
Qed.
(* A file that is not TOML, or has a setting outside of any table, ends the run at once. *)
Theorem C85_broken : forall p pl dir name ws l, in_directory pl dir -> config_name pl name -> broken (pl_disk pl) dir name ->
  written ws l -> no_information l -> acceptable l -> run_in p pl ws = Ran out_panic.
Proof.
  intros p pl dir name ws l D V B W N A. unfold run_in, run_outside, run_words. rewrite (parse_written ws l W).
  destruct (parse_exact l N) as [(_ & m & E & _)|[NA _]]; [|contradiction]. rewrite E. f_equal. apply main_bad_settings. intros st L.
  apply (C62_bad_file (environment_of (world_of pl)) m st); [|assumption]. rewrite (file_of pl dir name D V). destruct D. now apply read_broken.
Qed.
(* Files at other paths do not matter. *)
Theorem C85_elsewhere : forall p vars d d' dir tty cp name ws, proper dir -> config_name (mkPlace vars d (Some (dir_text dir)) tty cp) name ->
  (forall path, candidate dir name path -> d path = d' path) ->
  run_in p (mkPlace vars d (Some (dir_text dir)) tty cp) ws = run_in p (mkPlace vars d' (Some (dir_text dir)) tty cp) ws.
Proof.
  intros p vars d d' dir tty cp name ws P V H. unfold run_in, run_outside. f_equal. unfold environment_of. cbn [world_of w_vars w_files w_tty w_cli_profile pl_vars pl_disk pl_cwd pl_tty pl_cli_profile].
  f_equal. apply (variable_iff vars "pemv_config" "PEMV_CONFIG" "pemv.toml" name eq_refl eq_refl) in V.
  change (read_file d (Some (dir_text dir)) (env_var_or vars (lit "PEMV_CONFIG") (lit "pemv.toml")) = read_file d' (Some (dir_text dir)) (env_var_or vars (lit "PEMV_CONFIG") (lit "pemv.toml"))).
  rewrite V. assert (Ch : forall path, chosen d dir name path <-> chosen d' dir name path).
  { assert (G : forall d d' path, (forall path, candidate dir name path -> d path = d' path) -> chosen d dir name path -> chosen d' dir name path).
    { clear. intros d d' path H (F & [[A ->]|(R & up & A & -> & N)]).
      - unfold chosen, file_at. rewrite <- H by (left; auto). auto.
      - assert (K : forall u, above u dir -> d (file_in u name) = d' (file_in u name)) by (intros u B; apply H; right; eauto).
        unfold chosen, file_at in *. rewrite <- K by assumption. split; [assumption|]. right. split; [assumption|]. exists up. split; [assumption|]. split; [reflexivity|].
        intros nr B L. rewrite <- K by assumption. now apply N. }
    intros path. split; apply G; [assumption|]. intros q C. symmetry. now apply H. }
  unfold read_file. destruct (find_file d (Some (dir_text dir)) name) as [q|] eqn:E.
  - apply (find_file_iff _ _ _ _ P) in E. assert (E' := proj1 (Ch q) E). apply (find_file_iff _ _ _ _ P) in E'. rewrite E'.
    rewrite <- H; [reflexivity|]. destruct E as (_ & [X|(R & up & A & Eq & _)]); [now left|right; split; [assumption|eauto]].
  - assert (E' : find_file d' (Some (dir_text dir)) name = None); [|now rewrite E']. apply (find_file_none _ _ _ P). intros q K. apply Ch in K. now apply (find_file_none _ _ _ P) in K.
Qed.
Definition empty_disk : disk := fun _ => None.
(* A file that is not there is the same as no file. *)
Theorem C85_missing : forall p vars d dir tty cp name ws, proper dir -> config_name (mkPlace vars d (Some (dir_text dir)) tty cp) name ->
  (forall path, candidate dir name path -> ~ file_at d path) ->
  run_in p (mkPlace vars d (Some (dir_text dir)) tty cp) ws = run_in p (mkPlace vars empty_disk (Some (dir_text dir)) tty cp) ws.
Proof.
  intros p vars d dir tty cp name ws P V H. apply (C85_elsewhere p vars d empty_disk dir tty cp name ws P V). intros path C. specialize (H path C). unfold file_at in H.
  destruct (d path) as [x|]; [exfalso; now apply H|reflexivity].
Qed.
(* A directory without such a file is like the one above it. *)
Theorem C85_inherits : forall p vars d dir n tty cp name ws, proper (dir ++ [n]) -> config_name (mkPlace vars d None tty cp) name -> ~ absolute name ->
  ~ file_at d (file_in (dir ++ [n]) name) ->
  run_in p (mkPlace vars d (Some (dir_text (dir ++ [n]))) tty cp) ws = run_in p (mkPlace vars d (Some (dir_text dir)) tty cp) ws.
Proof.
  intros p vars d dir n tty cp name ws P V R F. unfold run_in, run_outside. f_equal. unfold environment_of. cbn [world_of w_vars w_files w_tty w_cli_profile pl_vars pl_disk pl_cwd pl_tty pl_cli_profile].
  f_equal. apply (variable_iff vars "pemv_config" "PEMV_CONFIG" "pemv.toml" name eq_refl eq_refl) in V.
  change (read_file d (Some (dir_text (dir ++ [n]))) (env_var_or vars (lit "PEMV_CONFIG") (lit "pemv.toml")) = read_file d (Some (dir_text dir)) (env_var_or vars (lit "PEMV_CONFIG") (lit "pemv.toml"))).
  rewrite V. unfold read_file. assert (P' := P). apply Forall_app in P'. destruct P' as [Pd _].
  assert (E : find_file d (Some (dir_text (dir ++ [n]))) name = find_file d (Some (dir_text dir)) name); [|now rewrite E].
  assert (G : forall q, chosen d (dir ++ [n]) name q <-> chosen d dir name q).
  { intros q. unfold chosen. split; intros (K & [[A _]|(_ & up & A & -> & H)]); try contradiction; (split; [assumption|]); right; (split; [assumption|]); exists up.
    - apply above_snoc in A. destruct A as [->|A]; [contradiction|]. split; [assumption|]. split; [reflexivity|]. intros nr B L. apply H; [apply above_snoc; now right|assumption].
    - split; [apply above_snoc; now right|]. split; [reflexivity|]. intros nr B L. apply above_snoc in B. destruct B as [->|B]; [assumption|now apply H]. }
  destruct (find_file d (Some (dir_text dir)) name) as [q|] eqn:E.
  - apply (find_file_iff _ _ _ _ Pd) in E. apply (find_file_iff _ _ _ _ P). now apply G.
  - apply (find_file_none _ _ _ P). intros q K. apply G in K. revert q K. now apply (find_file_none _ _ _ Pd).
Qed.
(* What a run shows, from the words, the variables and the files. *)
Theorem C85_shown : forall p pl dir name file pr ws l st op s ls k, pl_cli_profile pl = ProfGlobal -> in_directory pl dir -> config_name pl name ->
  contents (pl_disk pl) dir name file -> profile_in pl pr -> written ws l -> no_information l -> acceptable l ->
  in_force (outside_layers (pl_vars pl) pr file l) (pl_tty pl) st ->
  said l (OptOperation op) [s] -> text64 p s -> breakdown (set_masking st) (set_sort st) op s ls k -> fits p k ->
  exists o, run_in p pl ws = Ran o /\ displays o ls.
Proof.
  intros p pl dir name file pr ws l st op s ls k P D V C Pr W N A I S T B Ft. apply (C85_file pl dir name file D V) in C. destruct C as (file' & F & E).
  apply (C81_shown p (world_of pl) file' pr ws l st op s ls k); try assumption; [now apply C80_file|].
  unfold outside_layers, profile_layers in *. cbn [world_of w_vars w_tty]. rewrite !E. destruct pr; rewrite ?E; exact I.
Qed.
Theorem C85_refused : forall p pl dir name file pr ws l st op s er, pl_cli_profile pl = ProfGlobal -> in_directory pl dir -> config_name pl name ->
  contents (pl_disk pl) dir name file -> profile_in pl pr -> written ws l -> no_information l -> acceptable l ->
  in_force (outside_layers (pl_vars pl) pr file l) (pl_tty pl) st ->
  said l (OptOperation op) [s] -> text64 p s -> refused (set_masking st) op s er ->
  exists o, run_in p pl ws = Ran o /\ complains o er.
Proof.
  intros p pl dir name file pr ws l st op s er P D V C Pr W N A I S T R. apply (C85_file pl dir name file D V) in C. destruct C as (file' & F & E).
  apply (C81_refused p (world_of pl) file' pr ws l st op s er); try assumption; [now apply C80_file|].
  unfold outside_layers, profile_layers in *. cbn [world_of w_vars w_tty]. rewrite !E. destruct pr; rewrite ?E; exact I.
Qed.
Definition sample_disk : disk := fun path =>
  if leqb path (lit "/home/pemv.toml") then Some (Some [(lit "Default", TTable [("sort_parsed_tags"%string, CBool false)]); (lit "shop", TTable [("masking_characters"%string, CArr [CStr [88]])])])
  else if leqb path (lit "/home/me/other.toml") then Some (Some [(lit "sort_parsed_tags", TOther)])
  else if leqb path (lit "/pemv.toml") then Some None
  else None.
Definition sample_file (pr : profile) : dict :=
  if profile_eqb pr ProfDefault then [("sort_parsed_tags"%string, CBool false)]
  else if profile_eqb pr (ProfCustom (lit "shop")) then [("masking_characters"%string, CArr [CStr [88]])]
  else [].
Definition sample_place (vars : variables) : place := mkPlace vars sample_disk (Some (lit "/home/me")) false ProfGlobal.
Example C85_example : in_directory (sample_place []) [lit "home"; lit "me"]
  /\ contents sample_disk [lit "home"; lit "me"] (lit "pemv.toml") sample_file
  /\ chosen sample_disk [lit "home"; lit "me"] (lit "pemv.toml") (lit "/home/pemv.toml")
  /\ broken sample_disk [lit "home"; lit "me"] (lit "other.toml") /\ broken sample_disk [] (lit "pemv.toml")
  /\ exit_status (run_in p64 (sample_place [(lit "PEMV_PROFILE", lit "SHOP")]) [lit "--tsi"; lit "XX00"]) = 0
  /\ exit_status (run_in p64 (sample_place [(lit "PEMV_CONFIG", lit "other.toml")]) [lit "--tsi"; lit "F800"]) = 101
  /\ exit_status (run_in p64 (sample_place [(lit "PEMV_CONFIG", lit "/other.toml")]) [lit "--tsi"; lit "F800"]) = 0.
Proof.
  assert (P : proper [lit "home"; lit "me"]) by (repeat constructor; try discriminate; cbn; lia).
  split; [split; [exact P|reflexivity]|]. split.
  { assert (R : exists f, read_file sample_disk (Some (dir_text [lit "home"; lit "me"])) (lit "pemv.toml") = Some f /\ forall pr, f pr = sample_file pr).
    { unfold read_file. replace (find_file sample_disk (Some (dir_text [lit "home"; lit "me"])) (lit "pemv.toml")) with (Some (lit "/home/pemv.toml")) by (vm_compute; reflexivity).
      change (sample_disk (lit "/home/pemv.toml")) with (Some (Some [(lit "Default", TTable [("sort_parsed_tags"%string, CBool false)]); (lit "shop", TTable [("masking_characters"%string, CArr [CStr [88]])])])).
      eexists. split; [reflexivity|]. intros pr. cbn [existsb fst]. change (profile_named (lit "Default")) with ProfDefault. change (profile_named (lit "shop")) with (ProfCustom (lit "shop")).
      unfold sample_file. destruct pr as [| |n]; try reflexivity. cbn [profile_eqb orb andb negb]. now destruct (leqb n (lit "shop")). }
    destruct R as (f & R & E). apply (read_contents _ _ _ _ P) in R. destruct R as [(path & t & C & H & O & T)|[N T]].
    + left. exists path, t. repeat (split; [assumption|]). intros pr. rewrite <- E. apply T.
    + right. split; [assumption|]. intros pr. rewrite <- E. apply T. }
  split; [apply (find_file_iff _ _ _ _ P); vm_compute; reflexivity|].
  split; [apply (read_broken _ _ _ P); vm_compute; reflexivity|].
  split; [apply read_broken; [constructor|vm_compute; reflexivity]|].
  split; [|split]; vm_compute; reflexivity.
Qed.
