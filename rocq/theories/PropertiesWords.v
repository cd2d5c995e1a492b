(** The properties of the words on the command line: how options are written, and the program as a whole. *)

From Coq Require Import NArith List String Ascii Bool PeanoNat Lia ZifyN ZifyBool ZifyNat Permutation.
From Verif Require Import Base ModelUtil ModelTlv ModelValues ModelProcess ModelDisplay ModelCli SpecUtil SpecTlv SpecIngenico SpecDisplay SpecCli
  PropertiesBer ModelMain SpecMain ProofsMain PropertiesMain ProofsCli PropertiesCli ModelWords SpecWords ProofsWords.
Import ListNotations.
Local Open Scope N_scope.

(** C78: how options and values are written. *)
Lemma parse_written ws l : written ws l -> words_parse ws = cli_parse l.
Proof. intros W. unfold words_parse. now rewrite (read_written ws l W). Qed.
Theorem C78_written : forall p e ws l, written ws l -> run_words p e ws = run_program p e l.
Proof. intros p e ws l W. unfold run_words, run_program. now rewrite (parse_written ws l W). Qed.
(* No words write two different things. *)
Theorem C78_unambiguous : forall ws l l', written ws l -> written ws l' -> l = l'.
Proof. intros ws l l' W W'. apply read_written in W, W'. rewrite W in W'. now injection W'. Qed.
(* All ways of writing the same options do the same. *)
Theorem C78_same : forall p e ws ws' l l', written ws l -> written ws' l' -> Forall2 same_option l l' -> run_words p e ws = run_words p e ws'.
Proof. intros p e ws ws' l l' W W' H. rewrite (C78_written p e ws l W), (C78_written p e ws' l' W'). now apply C69_spellings. Qed.
(* Whatever their order, unless help or version is asked for. *)
Theorem C78_order : forall p e ws ws' l l1 l', written ws l -> written ws' l' -> no_information l -> Permutation l l1 -> Forall2 same_option l1 l' ->
  run_words p e ws = run_words p e ws'.
Proof.
  intros p e ws ws' l l1 l' W W' N P H. rewrite (C78_written p e ws l W), (C78_written p e ws' l' W'), (C70_order p e l l1 N P). now apply C69_spellings.
Qed.
(* Words that write nothing are a usage error. *)
Theorem C78_otherwise : forall p e ws, no_information_words ws -> (forall l, ~ written ws l) -> run_words p e ws = UsageError.
Proof.
  intros p e ws NI NW. unfold run_words, words_parse. pose proof (read_quiet ws NI None I) as Q. destruct (read_words None ws) as [l [|]] eqn:R.
  - cbn [fst] in Q. destruct (quiet_steps l Q []) as [[g ->]| ->]; reflexivity.
  - exfalso. apply (NW l). now apply (proj1 (read_complete ws NI)).
Qed.
(* A value is needed: nothing, or a word starting with a hyphen (other than "-"), is not taken as one. *)
Definition needs_value (n : option_name) : Prop := n <> OptHelp /\ n <> OptVersion /\ n <> OptSort /\ n <> OptNoSort.
Theorem C78_value_needed : forall p e n sp ws, spells n sp -> needs_value n -> match ws with [] => True | w :: _ => ~ plain_word w end ->
  run_words p e (option_word sp :: ws) = UsageError.
Proof.
  intros p e n sp ws S (N1 & N2 & N3 & N4) H. assert (I : informs n = false) by (destruct n; cbn; congruence).
  unfold run_words, words_parse. rewrite (read_option n sp ws S I), read_stop by exact H. destruct (read_words None ws) as [l s]. cbn [flush app].
  assert (E : cli_steps [] ((sp, []) :: l) = CliError).
  { cbn [cli_steps]. rewrite (step_known [] n sp [] S). destruct (fine n []) eqn:F; [|reflexivity]. apply fine_takes in F. exfalso.
    destruct n; cbn [takes] in F; try congruence; [destruct F as (v & c & x & F & _)|destruct F as [F _]; congruence|destruct F as (v & F & _)]; discriminate F. }
  unfold cli_parse. unfold occurrence in *. destruct s; rewrite E; reflexivity.
Qed.
(* After "--" no word is accepted. *)
Theorem C78_mark : forall p e ws l w ws', written ws l -> no_information_words ws -> ~ In [45; 45] ws -> run_words p e (ws ++ [45; 45] :: w :: ws') = UsageError.
Proof.
  intros p e ws l w ws' W NI NM. unfold run_words, words_parse. rewrite (read_written_app ws l ([45; 45] :: w :: ws') W NM) by (intros [K|K]; [discriminate|now apply (K [45])]).
  change (read_words None ([45; 45] :: w :: ws')) with (@nil occurrence, true). cbn iota. rewrite app_nil_r.
  pose proof (read_quiet ws NI None I) as Q. rewrite (read_written ws l W) in Q. cbn [fst] in Q. destruct (quiet_steps l Q []) as [[g ->]| ->]; reflexivity.
Qed.
(* Whatever the options can say can be written, in particular every text as the value of an operation. *)
Lemma one_char_plain v : (exists c, v = [c]) -> plain_word v.
Proof. intros [c ->]. unfold plain_word. destruct (N.eq_dec c 45) as [->|N]; [now left|right]. intros t E. now injection E. Qed.
Lemma long_of n : exists x, spells n (Long x).
Proof. destruct n as [| | | | | |[]]; eexists; apply spells_spelt, spelt_in; cbn; left; reflexivity. Qed.
Lemma writes_more n sp vs ws l : spells n sp -> takes n vs -> written ws l -> match ws with [] => True | w :: _ => ~ plain_word w end ->
  exists sp' w ws', ~ plain_word w /\ spells n sp' /\ written (w :: ws') ((sp', vs) :: l).
Proof.
  intros S T W H. destruct (long_of n) as [x Sx].
  assert (NP1 : ~ plain_word (option_word (Long x))) by (intros [K|K]; [discriminate K|now apply (K (45 :: lit x))]).
  assert (Apart : Forall plain_word vs -> value_limit n (List.length vs) -> exists sp' w ws', ~ plain_word w /\ spells n sp' /\ written (w :: ws') ((sp', vs) :: l)).
  { intros F L. exists (Long x), (option_word (Long x)), (vs ++ ws). split; [exact NP1|]. split; [exact Sx|]. apply (written_apart (Long x) n); try assumption. right. exact H. }
  assert (Attached : forall v, vs = [v] -> exists sp' w ws', ~ plain_word w /\ spells n sp' /\ written (w :: ws') ((sp', vs) :: l)).
  { intros v ->. exists (Long x), (45 :: 45 :: lit x ++ 61 :: v), ws. split; [|split; [exact Sx|now apply (written_long n)]]. intros [K|K]; [discriminate K|now apply (K (45 :: lit x ++ 61 :: v))]. }
  destruct n; cbn [takes] in T.
  - subst vs. apply Apart; [constructor|reflexivity].
  - subst vs. apply Apart; [constructor|reflexivity].
  - destruct T as (v & c & y & -> & _). now apply (Attached v).
  - destruct T as [_ F]. apply Apart; [|exact I]. revert F. apply Forall_impl. exact one_char_plain.
  - destruct T as [-> |[-> | ->]]; [apply Apart; [constructor|cbn; lia]|eapply Attached; reflexivity|eapply Attached; reflexivity].
  - destruct T as [-> |[-> | ->]]; [apply Apart; [constructor|cbn; lia]|eapply Attached; reflexivity|eapply Attached; reflexivity].
  - destruct T as (v & -> & _). now apply (Attached v).
Qed.
Theorem C78_expressible : forall l, acceptable l -> exists ws l', written ws l' /\ Forall2 same_option l l'.
Proof.
  intros l A. assert (K : forall o, In o l -> exists n, spells n (fst o) /\ takes n (snd o)) by apply A. clear A.
  assert (G : exists ws l', written ws l' /\ Forall2 same_option l l' /\ match ws with [] => True | w :: _ => ~ plain_word w end); [|destruct G as (ws & l' & W & F & _); eauto].
  induction l as [|[sp vs] l IH]; [exists [], []; repeat constructor|]. destruct IH as (ws & l' & W & F & H); [intros o J; apply K; now right|].
  destruct (K (sp, vs) (or_introl eq_refl)) as (n & S & T). cbn [fst snd] in S, T.
  destruct (writes_more n sp vs ws l' S T W H) as (sp' & w & ws' & NP & S' & W'). exists (w :: ws'), ((sp', vs) :: l'). split; [assumption|]. split; [|assumption].
  constructor; [|assumption]. split; [reflexivity|]. exists n. auto.
Qed.
(* Every text can be given to every operation: --name=text. *)
Theorem C78_any_text : forall p e op sp x s, spells (OptOperation op) sp -> spells (OptOperation op) (Long x) ->
  run_words p e [45 :: 45 :: lit x ++ 61 :: s] = run_program p e [(sp, [s])].
Proof.
  intros p e op sp x s S Sx. rewrite (C78_written p e _ [(Long x, [s])]) by (apply (written_long (OptOperation op)); [assumption|constructor]).
  apply C69_spellings. constructor; [|constructor]. split; [reflexivity|]. exists (OptOperation op). auto.
Qed.
Example C78_example :
  written [lit "-m"; lit "*"; lit "-"; lit "--colour=never"; lit "-b9B02F800"] [(Short "m", [lit "*"; lit "-"]); (Long "colour", [lit "never"]); (Short "b", [lit "9B02F800"])]
  /\ written [lit "--ber=-9B02F800"; lit "--"] [(Long "ber", [lit "-9B02F800"])]
  /\ needs_value (OptOperation OpTvr) /\ ~ plain_word (lit "-80") /\ no_information_words [lit "80"; lit "--tvr"].
Proof.
  assert (P : forall w, word_kind_of w = ValueWord -> plain_word w) by (intros w; apply kind_value).
  assert (NP : forall w, word_kind_of w <> ValueWord -> ~ plain_word w) by (intros w H K; apply H; now apply kind_value).
  assert (SB : spells (OptOperation OpBer) (Long "ber")) by (apply spells_spelt; reflexivity).
  split; [|split; [|split; [|split]]].
  - apply (written_apart (Short "m") OptMasking [lit "*"; lit "-"]).
    + apply spells_spelt. reflexivity.
    + repeat (constructor; [apply P; reflexivity|]). constructor.
    + exact I.
    + right. apply NP. discriminate.
    + apply (written_long OptColour "colour" (lit "never")); [apply spells_spelt; reflexivity|].
      apply (written_joined (OptOperation OpBer) "b" (lit "9B02F800")); [apply spells_spelt; reflexivity|intros [K|K]; discriminate|discriminate|discriminate|constructor].
  - apply (written_long (OptOperation OpBer) "ber" (lit "-9B02F800")); [exact SB|constructor].
  - repeat split; discriminate.
  - apply NP. discriminate.
  - assert (G : forall n w, word_kind_of w = ValueWord -> ~ information_word n w).
    { intros n w K J. apply kind_value in K. destruct J as [x S|x r S]; destruct K as [K|K].
      - discriminate K.
      - now apply (K (45 :: lit x)).
      - destruct (short_char n x S) as (c & Ec & _). rewrite Ec in K. discriminate K.
      - now apply (K (lit x ++ r)). }
    assert (G2 : forall n, informs n = true -> ~ information_word n (lit "--tvr")).
    { intros n J K. remember (lit "--tvr") as w eqn:Ew. destruct K as [x S|x r S].
      - apply spells_spelt, spelt_in in S. destruct n; try discriminate J; cbn in S; destruct S as [<-|[]]; discriminate Ew.
      - destruct (short_char n x S) as (c & Ec & Nc & _). rewrite Ec in Ew. injection Ew as -> _. now apply Nc. }
    constructor; [split; apply G; reflexivity|]. constructor; [split; apply G2; reflexivity|constructor].
Qed.

(** C79: the program from the words typed to what it does. *)
Lemma quiet_acceptable l : quiet l -> acceptable l -> no_information l.
Proof.
  intros Q A. apply no_information_iff. intros o n J S. destruct (informs n) eqn:E; [|reflexivity]. exfalso. apply (Q o n J S E).
  destruct (acc_known l A o J) as (n' & S' & T). rewrite (spells_one n' n _ S' S) in T. destruct n; try discriminate E; exact T.
Qed.
Lemma written_quiet ws l : no_information_words ws -> written ws l -> quiet l.
Proof. intros NI W. pose proof (read_quiet ws NI None I) as Q. now rewrite (read_written ws l W) in Q. Qed.
Lemma quiet_parse l : quiet l -> (acceptable l /\ no_information l) \/ (~ acceptable l /\ (cli_parse l = CliError \/ l = [])).
Proof.
  intros Q. destruct (quiet_steps l Q []) as [[g E]|E].
  - destruct (proj1 (steps_exact l g) E) as [[O _] _]. assert (N : no_information l) by (apply no_information_iff; intros o n J S; destruct (O o J) as (n' & S' & _ & I'); now rewrite (spells_one n n' _ S S')).
    destruct (parse_exact l N) as [(A & _)|[X K]]; [now left|right]. split; [assumption|]. destruct l; [now right|now left].
  - right. assert (C : cli_parse l = CliError) by (unfold cli_parse; now rewrite E). split; [|now left]. intros A. destruct (parse_exact l (quiet_acceptable l Q A)) as [(_ & m & K & _)|[X _]]; congruence.
Qed.
(* Exactly which words run the program, and with which settings. *)
Theorem C79_runs : forall p e ws o, no_information_words ws ->
  (run_words p e ws = Ran o <-> exists l m, written ws l /\ acceptable l /\ describes l m /\ o = run_main p e m).
Proof.
  intros p e ws o NI. split.
  - intros R. assert (W : exists l, written ws l).
    { unfold run_words, words_parse in R. destruct (read_words None ws) as [l s] eqn:E. destruct s; [destruct (cli_steps [] l); discriminate R|]. exists l. now apply (proj1 (read_complete ws NI)). }
    destruct W as [l W]. rewrite (C78_written p e ws l W) in R. pose proof (written_quiet ws l NI W) as Q. destruct (quiet_parse l Q) as [[A N]|[X K]].
    + destruct (proj1 (C71_accepted p e l N) A) as (m & E & D). rewrite R in E. injection E as ->. exists l, m. auto.
    + exfalso. destruct K as [K| ->]; unfold run_program in R; [rewrite K in R|]; discriminate R.
  - intros (l & m & W & A & D & ->). rewrite (C78_written p e ws l W). pose proof (quiet_acceptable l (written_quiet ws l NI W) A) as N.
    destruct (proj1 (C71_accepted p e l N) A) as (m' & E & D'). rewrite E. f_equal. apply run_same. now apply (describes_same l l).
Qed.
(* Everything else is a usage error, or nothing was said at all; the status is 2. *)
Theorem C79_status : forall p e ws, no_information_words ws ->
  (exit_status (run_words p e ws) = 2 <-> forall l, written ws l -> ~ acceptable l)
  /\ ((forall l, written ws l -> ~ acceptable l) -> run_words p e ws = UsageError \/ run_words p e ws = NoArguments /\ written ws []).
Proof.
  intros p e ws NI. assert (H2 : (forall l, written ws l -> ~ acceptable l) -> run_words p e ws = UsageError \/ run_words p e ws = NoArguments /\ written ws []).
  { intros H. destruct (read_words None ws) as [l [|]] eqn:E.
    - left. apply (C78_otherwise p e ws NI). intros l' W. apply read_written in W. congruence.
    - pose proof (proj1 (read_complete ws NI) l E) as W. rewrite (C78_written p e ws l W). destruct (quiet_parse l (written_quiet ws l NI W)) as [[A _]|[_ [K| ->]]].
      + now elim (H l W).
      + left. unfold run_program. now rewrite K.
      + right. split; [reflexivity|assumption]. }
  split; [|exact H2]. split.
  - intros S l W A. destruct (proj1 (C71_accepted p e l (quiet_acceptable l (written_quiet ws l NI W) A)) A) as (m & E & _).
    rewrite (C78_written p e ws l W), E in S. cbn [exit_status] in S. destruct (o_panic _); discriminate S.
  - intros H. destruct (H2 H) as [-> |[-> _]]; reflexivity.
Qed.
(* From the words typed to the lines on the screen. *)
Theorem C79_shown : forall p e file ws l st op s ls k, e_cli_profile e = ProfGlobal -> e_file e = Some file ->
  written ws l -> no_information l -> acceptable l -> in_force (program_layers e file l) (e_tty e) st ->
  said l (OptOperation op) [s] -> text64 p s -> breakdown (set_masking st) (set_sort st) op s ls k -> fits p k ->
  exists o, run_words p e ws = Ran o /\ displays o ls.
Proof. intros p e file ws l st op s ls k P F W N A I S T B Ft. rewrite (C78_written p e ws l W). now apply (C71_shown p e file l st op s ls k). Qed.
Theorem C79_refused : forall p e file ws l st op s er, e_cli_profile e = ProfGlobal -> e_file e = Some file ->
  written ws l -> no_information l -> acceptable l -> in_force (program_layers e file l) (e_tty e) st ->
  said l (OptOperation op) [s] -> text64 p s -> refused (set_masking st) op s er ->
  exists o, run_words p e ws = Ran o /\ complains o er.
Proof. intros p e file ws l st op s er P F W N A I S T R. rewrite (C78_written p e ws l W). now apply (C71_refused p e file l st op s er). Qed.
(* Help and version: nothing after the word matters, and the options before it only have to be in order. *)
Lemma read_information n w ws : information_word n w -> informs n = true -> exists sp l s, read_words None (w :: ws) = ((sp, []) :: l, s) /\ spells n sp /\ ~ plain_word w.
Proof.
  intros H I. destruct H as [x S|x r S].
  - exists (Long x). pose proof (read_flag n (Long x) ws S I) as R. cbn [option_word] in R. rewrite R. destruct (read_words None ws) as [l s]. exists l, s.
    split; [reflexivity|]. split; [assumption|]. intros [K|K]; [discriminate K|now apply (K (45 :: lit x))].
  - exists (Short x). cbn [read_words]. rewrite (kind_short n x r S). destruct (short_char n x S) as (c & E & Nc & _). rewrite E. cbn [app read_cluster].
    rewrite (find_short_spells n x c S E), takes_value_of, I. cbn [negb]. assert (NP : ~ plain_word (45 :: c :: r)) by (intros [K|K]; [discriminate K|now apply (K (c :: r))]).
    destruct (read_cluster r) as [l1 [p'|]]; cbn [flush app].
    + destruct (read_words p' ws) as [l s]. eexists _, _. split; [reflexivity|]. auto.
    + eexists _, _. split; [reflexivity|]. auto.
Qed.
Theorem C79_information : forall p e ws1 l1 w ws2, written ws1 l1 -> no_information_words ws1 -> ~ In [45; 45] ws1 ->
  (forall o, In o l1 -> exists n, spells n (fst o) /\ takes n (snd o)) ->
  (forall k o m o' r n, l1 = k ++ o :: m ++ o' :: r -> spells n (fst o) -> spells n (fst o') -> n = OptMasking) ->
  (information_word OptHelp w -> run_words p e (ws1 ++ w :: ws2) = ShowsHelp)
  /\ (information_word OptVersion w -> run_words p e (ws1 ++ w :: ws2) = ShowsVersion).
Proof.
  intros p e ws1 l1 w ws2 W NI NM K O. pose proof (written_quiet ws1 l1 NI W) as Q.
  assert (N : no_information l1).
  { apply no_information_iff. intros o n J S. destruct (informs n) eqn:E; [|reflexivity]. exfalso. apply (Q o n J S E). destruct (K o J) as (n' & S' & T).
    rewrite (spells_one n' n _ S' S) in T. destruct n; try discriminate E; exact T. }
  assert (Step : forall n, information_word n w -> informs n = true -> exists sp, spells n sp /\ forall g, cli_steps [] l1 = CliOk g ->
            run_words p e (ws1 ++ w :: ws2) = match n with OptHelp => ShowsHelp | _ => ShowsVersion end).
  { intros n J I. destruct (read_information n w ws2 J I) as (sp & l & s & R & S & NP). exists sp. split; [assumption|]. intros g G.
    unfold run_words, words_parse. rewrite (read_written_app ws1 l1 (w :: ws2) W NM NP), R.
    assert (E : cli_steps [] (l1 ++ (sp, []) :: l) = match n with OptHelp => CliHelp | _ => CliVersion end).
    { rewrite steps_app, G. cbn [cli_steps]. rewrite (step_known g n sp [] S). destruct n; try discriminate I; reflexivity. }
    destruct s; [rewrite E; destruct n; try discriminate I; reflexivity|]. unfold cli_parse. rewrite E. destruct n; try discriminate I; reflexivity. }
  assert (Or : orderly l1).
  { split.
    - intros o J. destruct (K o J) as (n & S & T). exists n. repeat (split; [assumption|]). now apply (proj1 (no_information_iff l1) N o).
    - intros n Hn. apply once_iff. intros a o m o' r E S S'. apply Hn. eapply O; eauto. }
  destruct (steps_exact l1 []) as [_ H]. destruct (H Or) as [g E].
  split; intros J; [destruct (Step OptHelp J eq_refl) as (sp & _ & R)|destruct (Step OptVersion J eq_refl) as (sp & _ & R)]; exact (R g E).
Qed.
Example C79_example : exists o, run_words p64 plain_env [lit "--color=never"; lit "-t"; lit "0000000000"] = Ran o /\ o_panic o = false
  /\ run_words p64 plain_env [lit "-t"; lit "80"; lit "-?"; lit "nonsense"] = ShowsHelp
  /\ run_words p64 plain_env [lit "-t"; lit "80"; lit "nonsense"; lit "-?"] = UsageError
  /\ run_words p64 plain_env [lit "--colour"; lit "-t"; lit "80"] = UsageError
  /\ run_words p64 plain_env [lit "-t"; lit "-80"] = UsageError
  /\ run_words p64 plain_env [lit "-t"; lit "0000000000"; lit "--"] = run_words p64 plain_env [lit "--95=0000000000"].
Proof. eexists. split; [vm_compute; reflexivity|]. split; [reflexivity|]. repeat (split; [vm_compute; reflexivity|]). vm_compute. reflexivity. Qed.
