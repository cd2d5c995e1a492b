(** The properties of a whole run, from bytes to bytes. *)

From Coq Require Import NArith String List Bool PeanoNat Lia ZifyN ZifyBool ZifyNat.
From Verif Require Import Base ModelUtil ModelEnums ModelTlv ModelValues ModelProcess ModelDisplay ModelCli ModelWords ModelEnv ModelTerminal ModelFiles ModelOs SpecUtil SpecTlv SpecIngenico SpecDisplay SpecCli SpecWords
  ProofsUtil ProofsValues PropertiesBer ModelMain SpecMain ProofsMain PropertiesMain SpecPictures PropertiesPictures ProofsCli PropertiesCli ProofsWords PropertiesWords SpecValues SpecEnv ProofsEnv PropertiesEnv
  SpecFiles ProofsFiles PropertiesFiles SpecTerminal ProofsTerminal PropertiesTerminal ModelStdout SpecStdout ProofsStdout PropertiesStdout SpecOs PropertiesOs SpecBuilds ProofsBuilds PropertiesBuilds SpecWidth ProofsWidth PropertiesWidth SpecOverrun ProofsOverrun PropertiesOverrun ModelSystem.
Import ListNotations.
Local Open Scope N_scope.

(** C103: whole runs. *)
Lemma os_words us ws : Forall2 text_bytes us ws -> os_parse ws = words_parse us.
Proof.
  intros H. assert (S : Forall str_ok us /\ ws = map utf8 us).
  { induction H as [|u w us ws [U ->] _ [A ->]]; [now split|]. split; [now constructor|reflexivity]. }
  destruct S as [S ->]. clear H. unfold os_parse, words_parse, cli_parse.
  destruct (words_text us S None None I) as [F E]. destruct (read_words None us) as [l s], (read_words None (map utf8 us)) as [l' s']. cbn [fst snd] in *. subst s'.
  rewrite (steps_text _ _ F). pose proof (steps_something l []). destruct (cli_steps [] l) as [g| | | |], s; try reflexivity; congruence.
Qed.
Lemma set_up pl dir name file pr us ws l st op s : pl_cli_profile pl = ProfGlobal -> in_directory pl dir -> config_name pl name ->
  contents (pl_disk pl) dir name file -> profile_in pl pr -> Forall2 text_bytes us ws -> written us l -> no_information l -> acceptable l ->
  in_force (outside_layers (pl_vars pl) pr file l) (pl_tty pl) st -> said l (OptOperation op) [s] ->
  exists m, os_parse ws = CliOk m /\ load_settings (environment_of (world_of pl)) m = Ok st /\ SpecMain.chosen m op s.
Proof.
  intros P D V C Pr B W N A I S. destruct (parse_exact l N) as [(_ & m & E & Ds)|[X _]]; [|contradiction]. exists m.
  rewrite (os_words us ws B), (parse_written us l W). split; [assumption|].
  apply (C85_file pl dir name file D V) in C. destruct C as (file' & F & Ef).
  assert (I' : in_force (outside_layers (w_vars (world_of pl)) pr file' l) (w_tty (world_of pl)) st).
  { unfold outside_layers, profile_layers in *. cbn [world_of w_vars w_tty]. rewrite !Ef. destruct pr; rewrite ?Ef; exact I. }
  split; [|apply only_chosen; now apply (described_only l m)].
  apply (program_settings (environment_of (world_of pl)) file' l); try assumption. now apply (outside_in_force (world_of pl) file' pr).
Qed.

(* Whatever the devices do, stdout takes a beginning of the sheet's text and stderr nothing; a status of 0 says that all of it has arrived. *)
Theorem C103_shown : forall p pl dir name file pr us ws l st op s ls out err d,
  pl_cli_profile pl = ProfGlobal -> in_directory pl dir -> config_name pl name -> contents (pl_disk pl) dir name file -> profile_in pl pr ->
  Forall2 text_bytes us ws -> written us l -> no_information l -> acceptable l -> in_force (outside_layers (pl_vars pl) pr file l) (pl_tty pl) st ->
  said l (OptOperation op) [s] -> text64 p s -> sheet (set_masking st) (set_sort st) op s ls -> fits p (deepest ls) ->
  ends p pl ws out err d ->
  (exists rest, map snd (render ls) = characters (d_stdout d) ++ rest) /\ d_stderr d = []
  /\ (d_status d = 0 \/ d_status d = 101)
  /\ (d_status d = 0 -> characters (d_stdout d) = map snd (render ls))
  /\ (for_good out -> characters (d_stdout d) = map snd (render ls) -> d_status d = 0).
Proof.
  intros p pl dir name file pr us ws l st op s ls out err d P D V C Pr B W N A I S T H F E.
  destruct (set_up pl dir name file pr us ws l st op s P D V C Pr B W N A I S) as (m & Em & L & Ch).
  destruct E as [m' st' actions message Em' L' o Ho Ac Me|m' Em' X]; [|rewrite Em in Em'; injection Em' as <-; now apply X in L].
  rewrite Em in Em'. injection Em' as <-. rewrite L in L'. injection L' as <-. assert (Wr : writes (should_attempt_color (term_vars_of (pl_vars pl)) (set_colour st)) o actions message) by now split.
  destruct (C89_shown p _ m st op s ls _ L Ch T H F actions message out err Wr) as (Q1 & Q2 & Q3 & Q4). repeat (split; [assumption|]).
  intros G. apply (C89_honest p _ m st op s ls _ L Ch T H F actions message out err Wr G).
Qed.
(* With a stdout that takes something at every call, the terminal shows the sheet, in colours exactly if they are wanted. *)
Theorem C103_screen : forall p pl dir name file pr us ws l st op s ls out err d,
  pl_cli_profile pl = ProfGlobal -> in_directory pl dir -> config_name pl name -> contents (pl_disk pl) dir name file -> profile_in pl pr ->
  Forall2 text_bytes us ws -> written us l -> no_information l -> acceptable l -> in_force (outside_layers (pl_vars pl) pr file l) (pl_tty pl) st ->
  said l (OptOperation op) [s] -> text64 p s -> sheet (set_masking st) (set_sort st) op s ls -> fits p (deepest ls) ->
  ends p pl ws out err d -> dependable out ->
  d_status d = 0 /\ d_stderr d = [] /\ exists v c, decided (outside_layers (pl_vars pl) pr file l) "cli_colour" v /\ colour_value v c
  /\ (colours_wanted (world_of pl) c -> terminal_shows (d_stdout d) (dressed (render ls)))
  /\ (~ colours_wanted (world_of pl) c -> d_stdout d = utf8 (flat_map (fun l => line_text l ++ [10]) ls) /\ terminal_shows (d_stdout d) (undressed (render ls))).
Proof.
  intros p pl dir name file pr us ws l st op s ls out err d P D V C Pr B W N A I S T H F E G.
  destruct (set_up pl dir name file pr us ws l st op s P D V C Pr B W N A I S) as (m & Em & L & Ch).
  destruct E as [m' st' actions message Em' L' o Ho Ac Me|m' Em' X]; [|rewrite Em in Em'; injection Em' as <-; now apply X in L].
  rewrite Em in Em'. injection Em' as <-. rewrite L in L'. injection L' as <-. assert (Wr : writes (should_attempt_color (term_vars_of (pl_vars pl)) (set_colour st)) o actions message) by now split.
  subst o. rewrite (C89_dependable p _ m st op s ls _ L Ch T H F actions message out err Wr G). cbn [d_stdout d_stderr d_status]. split; [reflexivity|]. split; [reflexivity|].
  destruct I as (v1 & _ & _ & c & D1 & V1 & Sc & _). exists v1, c. split; [assumption|]. split; [assumption|].
  pose proof (C77_when (term_vars_of (pl_vars pl)) (pl_tty pl) c) as Wc. rewrite <- Sc in Wc. pose proof (wanted_iff (world_of pl) c) as Wi. cbn [world_of w_vars w_tty] in Wi. rewrite <- Wi in Wc. split; intros Q.
  - apply (C77_coloured p _ m st op s ls); try assumption. now apply Wc.
  - destruct (C77_uncoloured p (environment_of (world_of pl)) m st op s ls (term_vars_of (pl_vars pl)) L Ch T H F) as (U1 & U2 & _); [|now split].
    destruct (should_attempt_color _ (set_colour st)); [|reflexivity]. exfalso. apply Q. now apply Wc.
Qed.
Theorem C103_refused : forall p pl dir name file pr us ws l st op s er out err d,
  pl_cli_profile pl = ProfGlobal -> in_directory pl dir -> config_name pl name -> contents (pl_disk pl) dir name file -> profile_in pl pr ->
  Forall2 text_bytes us ws -> written us l -> no_information l -> acceptable l -> in_force (outside_layers (pl_vars pl) pr file l) (pl_tty pl) st ->
  said l (OptOperation op) [s] -> text64 p s -> refused (set_masking st) op s er ->
  ends p pl ws out err d ->
  d_stdout d = [] /\ (exists rest, utf8 (error_text er ++ [10]) = d_stderr d ++ rest)
  /\ (d_status d = 0 \/ d_status d = 101) /\ (d_status d = 0 <-> d_stderr d = utf8 (error_text er ++ [10])) /\ (dependable err -> d_status d = 0).
Proof.
  intros p pl dir name file pr us ws l st op s er out err d P D V C Pr B W N A I S T H E.
  destruct (set_up pl dir name file pr us ws l st op s P D V C Pr B W N A I S) as (m & Em & L & Ch).
  destruct E as [m' st' actions message Em' L' o Ho Ac Me|m' Em' X]; [|rewrite Em in Em'; injection Em' as <-; now apply X in L].
  rewrite Em in Em'. injection Em' as <-. rewrite L in L'. injection L' as <-.
  exact (C89_refused p _ m st op s er _ L Ch T H actions message out err (conj Ac Me)).
Qed.
(* Every such run ends, and how clap's runs do not count among them. *)
Theorem C103_ends : forall p pl ws out err, (exists d, ends p pl ws out err d) <-> exists o, run_os p (environment_of (world_of pl)) ws = Ran o /\ o_help o = false.
Proof.
  intros p pl ws out err. unfold run_os. split.
  - intros (d & E). destruct E as [m st actions message Em L o Ho Ac Me|m Em X]; rewrite Em; eexists; (split; [reflexivity|]); [assumption|].
    unfold run_main. destruct (load_settings (environment_of (world_of pl)) m) as [st| | |]; [now contradiction (X st)|reflexivity..].
  - intros (o & E & Ho). destruct (os_parse ws) as [m| | | |] eqn:Em; try discriminate. injection E as <-.
    destruct (load_settings (environment_of (world_of pl)) m) as [st| | |] eqn:L; [|eexists; eapply ends_unset; [exact Em|rewrite L; discriminate]..].
    set (o := run_main p (environment_of (world_of pl)) m) in *.
    assert (X : exists actions, Forall2 (acts (should_attempt_color (term_vars_of (pl_vars pl)) (set_colour st))) (o_stdout o) actions).
    { clear. induction (o_stdout o) as [|ev l [a IH]]; [exists []; constructor|]. destruct ev as [t|c|].
      - exists (Print [utf8 t] :: a). constructor; [|assumption]. constructor. cbn. apply app_nil_r.
      - eexists (_ :: a). constructor; [constructor|assumption].
      - eexists (_ :: a). constructor; [constructor|assumption]. }
    destruct X as [actions Ac]. exists (deliver out err o actions [stderr_bytes o]). eapply ends_run; try eassumption. cbn. apply app_nil_r.
Qed.
(* No run of this kind starts from words that are not text. *)
Theorem C103_text : forall p pl ws out err d, ends p pl ws out err d -> exists us, Forall2 text_bytes us ws.
Proof.
  intros p pl ws out err d E. assert (K : (exists us, Forall2 text_bytes us ws) \/ ~ exists us, Forall2 text_bytes us ws).
  { clear E. induction ws as [|w ws IH]; [left; exists []; constructor|]. destruct (text_or_broken w) as [(u & U)|(a & B)].
    - destruct IH as [(us & F)|N0]; [left; exists (u :: us); now constructor|]. right. intros (us & F). apply N0. inversion F; subst. eauto.
    - right. intros (us & F). inversion F as [|u ? us' ? T _]; subst. apply decode_iff in T. apply decode_broken in B. congruence. }
  destruct K as [K|K]; [assumption|exfalso]. assert (X : exists d, ends p pl ws out err d) by now exists d. apply C103_ends in X. destruct X as (o & R & _).
  destruct (C96_never p (environment_of (world_of pl)) ws K) as [H|[H|H]]; congruence.
Qed.
(* A status of 0 is a promise: the whole sheet or the whole message has arrived, whatever the devices did meanwhile. *)
Theorem C103_promise : forall p pl dir name file pr us ws l st op s out err d,
  pl_cli_profile pl = ProfGlobal -> in_directory pl dir -> config_name pl name -> contents (pl_disk pl) dir name file -> profile_in pl pr ->
  Forall2 text_bytes us ws -> written us l -> no_information l -> acceptable l -> in_force (outside_layers (pl_vars pl) pr file l) (pl_tty pl) st ->
  said l (OptOperation op) [s] -> text64 p s -> ends p pl ws out err d -> d_status d = 0 ->
  (exists ls, sheet (set_masking st) (set_sort st) op s ls /\ fits p (deepest ls) /\ characters (d_stdout d) = map snd (render ls) /\ d_stderr d = [])
  \/ (exists er, refused (set_masking st) op s er /\ d_stdout d = [] /\ d_stderr d = utf8 (error_text er ++ [10])).
Proof.
  intros p pl dir name file pr us ws l st op s out err d P D V C Pr B W N A I S T E Z.
  destruct (C73_total p (set_masking st) (set_sort st) op s T) as [(ls & H & _)|(er & R & _)].
  - left. exists ls. split; [assumption|]. assert (F : fits p (deepest ls)).
    { intros O. destruct (N.lt_ge_cases (deepest ls) 256) as [G|G]; [assumption|exfalso].
      destruct (set_up pl dir name file pr us ws l st op s P D V C Pr B W N A I S) as (m & Em & L & Ch).
      destruct E as [m' st' actions message Em' L' o Ho Ac Me|m' Em' X]; [|discriminate Z].
      rewrite Em in Em'. injection Em' as <-. assert (Pn : o_panic o = true) by now apply (proj2 (C73_overflow p _ m st op s ls L Ch T H)).
      unfold deliver in Z. rewrite Pn in Z. destruct (perform out new_stream actions) as [x [|]]; cbn [negb d_status] in Z; discriminate Z. }
    split; [assumption|]. destruct (C103_shown p pl dir name file pr us ws l st op s ls out err d P D V C Pr B W N A I S T H F E) as (_ & Q2 & _ & Q4 & _). split; [now apply Q4|assumption].
  - right. exists er. split; [assumption|]. destruct (C103_refused p pl dir name file pr us ws l st op s er out err d P D V C Pr B W N A I S T R E) as (Q1 & _ & _ & Q4 & _). split; [assumption|now apply Q4].
Qed.
(* Any build does what a 64-bit build with the same overflow checks does, unless a value of the argument ends beyond what it can count; then it delivers nothing. *)
Theorem C103_builds : forall p pl dir name file pr us ws l st op s out err d,
  pl_cli_profile pl = ProfGlobal -> in_directory pl dir -> config_name pl name -> contents (pl_disk pl) dir name file -> profile_in pl pr ->
  Forall2 text_bytes us ws -> written us l -> no_information l -> acceptable l -> in_force (outside_layers (pl_vars pl) pr file l) (pl_tty pl) st ->
  said l (OptOperation op) [s] -> build p -> counts p op -> fits32 s -> ~ argument_overruns (usize_limit p) (set_masking st) op s ->
  (ends p pl ws out err d <-> ends (widened p) pl ws out err d).
Proof.
  intros p pl dir name file pr us ws l st op s out err d P D V C Pr B W N A I S Bp Cp Fs No.
  destruct (set_up pl dir name file pr us ws l st op s P D V C Pr B W N A I S) as (m & Em & L & Ch).
  assert (R : run_main p (environment_of (world_of pl)) m = run_main (widened p) (environment_of (world_of pl)) m).
  { rewrite !(main_chosen _ _ m st op s L Ch). destruct (run_build p st op s Bp Cp Fs) as [_ R]. exact (R No). }
  split; intros E; (destruct E as [m' st' actions message Em' L' o Ho Ac Me|m' Em' X]; [|now apply (ends_unset _ pl ws out err m')]);
    assert (m' = m) by congruence; subst m'; subst o; [rewrite R in *|rewrite <- R in *]; now apply (ends_run _ pl ws out err m st').
Qed.
Theorem C103_crash : forall p pl dir name file pr us ws l st op s out err d,
  pl_cli_profile pl = ProfGlobal -> in_directory pl dir -> config_name pl name -> contents (pl_disk pl) dir name file -> profile_in pl pr ->
  Forall2 text_bytes us ws -> written us l -> no_information l -> acceptable l -> in_force (outside_layers (pl_vars pl) pr file l) (pl_tty pl) st ->
  said l (OptOperation op) [s] -> build p -> counts p op -> fits32 s -> argument_overruns (usize_limit p) (set_masking st) op s ->
  ends p pl ws out err d -> d = mkDelivery [] [] 101.
Proof.
  intros p pl dir name file pr us ws l st op s out err d P D V C Pr B W N A I S Bp Cp Fs Ov E.
  destruct (set_up pl dir name file pr us ws l st op s P D V C Pr B W N A I S) as (m & Em & L & Ch).
  assert (R : run_main p (environment_of (world_of pl)) m = out_panic).
  { rewrite (main_chosen _ _ m st op s L Ch). destruct (result_build p (set_masking st) op s Bp Cp Fs) as [R _]. unfold run_one.
    assert (Vn : value_result op s = None) by (inversion Ov; reflexivity). now rewrite Vn, (R Ov). }
  destruct E as [m' st' actions message Em' L' o Ho Ac Me|m' Em' X]; assert (m' = m) by congruence; subst m'; [|now apply X in L]. subst o. rewrite R in *. cbn [o_stdout out_panic] in Ac. inversion Ac; subst. reflexivity.
Qed.
(* Settings that cannot be read end a run before it has printed anything: if some setting is decided by a value of the wrong kind, or if the file is no table of tables. *)
Lemma unset_only p pl us ws l m out err d : Forall2 text_bytes us ws -> written us l -> cli_parse l = CliOk m ->
  (forall st, load_settings (environment_of (world_of pl)) m <> Ok st) -> (ends p pl ws out err d <-> d = mkDelivery [] [] 101).
Proof.
  intros B W Em X. assert (Eo : os_parse ws = CliOk m) by now rewrite (os_words us ws B), (parse_written us l W). split.
  - intros E. destruct E as [m' st' actions message Em' L' o Ho Ac Me|m' Em' X']; [|reflexivity]. assert (m' = m) by congruence. subst m'. now apply X in L'.
  - intros ->. now apply (ends_unset p pl ws out err m).
Qed.
Theorem C103_unset : forall p pl dir name file pr us ws l out err d,
  pl_cli_profile pl = ProfGlobal -> in_directory pl dir -> config_name pl name -> contents (pl_disk pl) dir name file -> profile_in pl pr ->
  Forall2 text_bytes us ws -> written us l -> no_information l -> acceptable l -> (forall st, ~ in_force (outside_layers (pl_vars pl) pr file l) (pl_tty pl) st) ->
  (ends p pl ws out err d <-> d = mkDelivery [] [] 101).
Proof.
  intros p pl dir name file pr us ws l out err d P D V C Pr B W N A I. destruct (parse_exact l N) as [(_ & m & E & Ds)|[X _]]; [|contradiction].
  apply (unset_only p pl us ws l m); try assumption. intros st L. apply (C85_file pl dir name file D V) in C. destruct C as (file' & F & Ef).
  apply (I st). assert (I' : in_force (outside_layers (w_vars (world_of pl)) pr file' l) (w_tty (world_of pl)) st).
  { apply (C81_settings (world_of pl) file' pr us l m st P); try assumption; [now apply C80_file|]. now rewrite (parse_written us l W). }
  unfold outside_layers, profile_layers in *. cbn [world_of w_vars w_tty] in I'. rewrite !Ef in I'. destruct pr; rewrite ?Ef in I'; exact I'.
Qed.
Theorem C103_broken : forall p pl dir name us ws l out err d, in_directory pl dir -> config_name pl name -> SpecFiles.broken (pl_disk pl) dir name ->
  Forall2 text_bytes us ws -> written us l -> no_information l -> acceptable l -> (ends p pl ws out err d <-> d = mkDelivery [] [] 101).
Proof.
  intros p pl dir name us ws l out err d D V K B W N A. destruct (parse_exact l N) as [(_ & m & E & Ds)|[X _]]; [|contradiction].
  apply (unset_only p pl us ws l m); try assumption. intros st. apply C62_bad_file. rewrite (file_of pl dir name D V). destruct D. now apply read_broken.
Qed.
Example C103_example : let pl := sample_place [(lit "TERM", lit "xterm"); (lit "Pemv_Cli_Colour", lit " always"); (lit "PEMV_PROFILE", lit "SHOP")] in
  let us := [lit "--9b=80 00"] in let l := [(Long "9b", [lit "80 00"])] in exists st ls,
  in_directory pl [lit "home"; lit "me"] /\ config_name pl (lit "pemv.toml") /\ contents (pl_disk pl) [lit "home"; lit "me"] (lit "pemv.toml") sample_file
  /\ profile_in pl (ProfCustom (lit "shop")) /\ Forall2 text_bytes us us /\ written us l /\ no_information l /\ acceptable l
  /\ in_force (outside_layers (pl_vars pl) (ProfCustom (lit "shop")) sample_file l) (pl_tty pl) st /\ said l (OptOperation OpTsi) [lit "80 00"]
  /\ text64 p64 (lit "80 00") /\ sheet (set_masking st) (set_sort st) OpTsi (lit "80 00") ls /\ fits p64 (deepest ls)
  /\ (forall out err, exists d, ends p64 pl us out err d)
  /\ forall out err d, ends p64 pl us out err d -> dependable out ->
     d_stdout d = [27; 91; 48; 109; 27; 91; 49; 109] ++ lit "10000000 00000000" ++ [10; 27; 91; 48; 109]
       ++ [0xE2; 0x94; 0x94; 32; 27; 91; 48; 109] ++ lit "Offline data authentication was performed" ++ [10; 27; 91; 48; 109].
Proof.
  intros pl us l. assert (SB : spells (OptOperation OpTsi) (Long "9b")) by (apply spells_spelt; reflexivity).
  assert (N : no_information l) by (constructor; [cbn [fst]; split; intros X; discriminate (spells_one _ _ _ SB X)|constructor]).
  assert (W : written us l) by (apply (written_long (OptOperation OpTsi) "9b" (lit "80 00") [] []); [assumption|constructor]).
  assert (A : acceptable l /\ exists m, cli_parse l = CliOk m) by (destruct (parse_exact l N) as [(A & m & E & _)|[_ E]]; [eauto|vm_compute in E; discriminate E]).
  destruct A as (A & m & E). assert (Ew : words_parse us = CliOk m) by now rewrite (parse_written us l W).
  destruct C85_example as (D & C & _). assert (V : config_name pl (lit "pemv.toml")) by (apply (variable_iff (pl_vars pl) "pemv_config" "PEMV_CONFIG" "pemv.toml" (lit "pemv.toml") eq_refl eq_refl); vm_compute; reflexivity).
  assert (Pr : profile_in pl (ProfCustom (lit "shop"))) by (apply (proj1 (C80_profile (world_of pl) _)); vm_compute; reflexivity).
  assert (B : Forall2 text_bytes us us) by (constructor; [split; [repeat constructor; cbn; lia|reflexivity]|constructor]).
  assert (I : in_force (outside_layers (pl_vars pl) (ProfCustom (lit "shop")) sample_file l) (pl_tty pl) (mkSettings TAlways [88] false)).
  { destruct (proj2 (C85_file pl [lit "home"; lit "me"] (lit "pemv.toml") sample_file D V) C) as (file' & F & Ef).
    assert (I' : in_force (outside_layers (w_vars (world_of pl)) (ProfCustom (lit "shop")) file' l) (w_tty (world_of pl)) (mkSettings TAlways [88] false)).
    { apply (C81_settings (world_of pl) file' _ us l m); try assumption; [reflexivity|now apply C80_file|]. vm_compute in E. injection E as <-. vm_compute. reflexivity. }
    unfold outside_layers, profile_layers in *. cbn [world_of w_vars w_tty] in I'. rewrite !Ef in I'. exact I'. }
  assert (S : said l (OptOperation OpTsi) [lit "80 00"]) by (exists (Long "9b"); split; [now left|assumption]).
  assert (T : text64 p64 (lit "80 00")) by (split; [reflexivity|vm_compute; reflexivity]).
  assert (H : exists ls, sheet [88] false OpTsi (lit "80 00") ls /\ fits p64 (deepest ls)).
  { eexists. split; [apply (sheet_value _ _ _ _ (bits_picture 2 tsi_bits tsi_used)); [cbn; tauto|vm_compute; reflexivity]|intros _; vm_compute; reflexivity]. }
  destruct H as (ls & H & F). exists (mkSettings TAlways [88] false), ls. do 11 (split; [assumption|]). split; [exact H|]. split; [exact F|].
  split. { intros out err. apply C103_ends. unfold run_os. rewrite (os_words us us B), Ew. eexists. split; [reflexivity|]. vm_compute in E. injection E as <-. vm_compute. reflexivity. }
  intros out err d Ed G. destruct (set_up pl _ _ _ _ us us l _ OpTsi _ eq_refl D V C Pr B W N A I S) as (m' & Em & L & Ch).
  rewrite (os_words us us B), Ew in Em. injection Em as <-.
  destruct Ed as [m' st' actions message Em' L' o Ho Ac Me|m' Em' X]; rewrite (os_words us us B), Ew in Em'; injection Em' as <-; [|now apply X in L].
  rewrite L in L'. injection L' as <-. subst o. rewrite (C89_dependable p64 _ m _ OpTsi _ _ (term_vars_of (pl_vars pl)) L Ch T H F actions message out err (conj Ac Me) G).
  cbn [d_stdout]. vm_compute in E. injection E as <-. vm_compute. reflexivity.
Qed.
Example C103_builds_example : build release32 /\ counts release32 OpTsi /\ fits32 (lit "80 00") /\ ~ argument_overruns (usize_limit release32) [88] OpTsi (lit "80 00")
  /\ counts release32 OpBer /\ fits32 (lit "E1 07 91 84 FF FF FF FF 00") /\ argument_overruns (usize_limit release32) [] OpBer (lit "E1 07 91 84 FF FF FF FF 00").
Proof.
  destruct C100_example as (B & C & _ & _ & O & _). split; [assumption|]. split; [intros [K|K]; discriminate K|]. split; [reflexivity|]. split; [intros K; inversion K|]. split; [assumption|]. split; [reflexivity|assumption].
Qed.
(* A colour nobody knows, and a file that is not made of tables. *)
Example C103_unset_example : let us := [lit "--9b=80 00"] in let l := [(Long "9b", [lit "80 00"])] in
  let pl := sample_place [(lit "Pemv_Cli_Colour", lit "green")] in let pl' := sample_place [(lit "PEMV_CONFIG", lit "other.toml")] in
  Forall2 text_bytes us us /\ written us l /\ no_information l /\ acceptable l
  /\ in_directory pl [lit "home"; lit "me"] /\ config_name pl (lit "pemv.toml") /\ contents (pl_disk pl) [lit "home"; lit "me"] (lit "pemv.toml") sample_file
  /\ profile_in pl ProfDefault /\ (forall st, ~ in_force (outside_layers (pl_vars pl) ProfDefault sample_file l) (pl_tty pl) st)
  /\ in_directory pl' [lit "home"; lit "me"] /\ config_name pl' (lit "other.toml") /\ SpecFiles.broken (pl_disk pl') [lit "home"; lit "me"] (lit "other.toml").
Proof.
  intros us l pl pl'. assert (SB : spells (OptOperation OpTsi) (Long "9b")) by (apply spells_spelt; reflexivity).
  assert (N : no_information l) by (constructor; [cbn [fst]; split; intros X; discriminate (spells_one _ _ _ SB X)|constructor]).
  assert (W : written us l) by (apply (written_long (OptOperation OpTsi) "9b" (lit "80 00") [] []); [assumption|constructor]).
  assert (A : acceptable l /\ exists m, cli_parse l = CliOk m) by (destruct (parse_exact l N) as [(A & m & E & _)|[_ E]]; [eauto|vm_compute in E; discriminate E]).
  destruct A as (A & m & E). destruct C85_example as (D & C & _ & K & _).
  split; [constructor; [split; [repeat constructor; cbn; lia|reflexivity]|constructor]|]. split; [assumption|]. split; [assumption|]. split; [assumption|]. split; [exact D|].
  assert (V : config_name pl (lit "pemv.toml")) by (apply (variable_iff (pl_vars pl) "pemv_config" "PEMV_CONFIG" "pemv.toml" (lit "pemv.toml") eq_refl eq_refl); vm_compute; reflexivity).
  assert (Pr : profile_in pl ProfDefault) by (apply (proj1 (C80_profile (world_of pl) _)); vm_compute; reflexivity).
  split; [exact V|]. split; [exact C|]. split; [exact Pr|]. split.
  - intros st I. destruct (proj2 (C85_file pl [lit "home"; lit "me"] (lit "pemv.toml") sample_file D V) C) as (file' & F & Ef).
    assert (I' : in_force (outside_layers (w_vars (world_of pl)) ProfDefault file' l) (w_tty (world_of pl)) st).
    { unfold outside_layers, profile_layers in *. cbn [world_of w_vars w_tty]. rewrite !Ef. exact I. }
    assert (Lo : load_settings (environment_of (world_of pl)) m = Ok st).
    { apply (C81_settings (world_of pl) file' ProfDefault us l m st); try assumption; [reflexivity|now apply C80_file]. }
    vm_compute in E. injection E as <-. vm_compute in Lo. discriminate Lo.
  - split; [exact D|]. split; [apply (variable_iff (pl_vars pl') "pemv_config" "PEMV_CONFIG" "pemv.toml" (lit "other.toml") eq_refl eq_refl); vm_compute; reflexivity|exact K].
Qed.
