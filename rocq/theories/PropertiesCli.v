(** The properties of the command line: spellings, order, acceptance, end-to-end behaviour and exit status. *)

From Coq Require Import ZArith NArith List String Ascii Bool Lia ZifyN ZifyBool ZifyNat Permutation.
From Verif Require Import Base ModelUtil ModelTlv ModelValues ModelProcess ModelDisplay ModelCli SpecUtil SpecTlv SpecIngenico SpecDisplay SpecCli
  PropertiesBer ModelMain SpecMain ProofsMain PropertiesMain ProofsCli.
Import ListNotations.
Local Open Scope N_scope.

(** C69: every documented spelling of an option means the same. *)
Definition same_option (o o' : occurrence) : Prop :=
  snd o = snd o' /\ exists n, spells n (fst o) /\ spells n (fst o').
Lemma steps_spelling l l' : Forall2 same_option l l' -> forall g, cli_steps g l = cli_steps g l'.
Proof.
  induction 1 as [|[sp vs] [sp' vs'] l l' (E & n & S & S') F IH]; intros g; [reflexivity|]. cbn [fst snd] in *. subst vs'. cbn [cli_steps].
  rewrite (step_known g n sp vs S), <- (step_known g n sp' vs S'). destruct (cli_step g (sp', vs)); auto.
Qed.
Theorem C69_spellings : forall p e l l', Forall2 same_option l l' -> run_program p e l = run_program p e l'.
Proof. intros p e l l' H. unfold run_program, cli_parse. now rewrite (steps_spelling l l' H). Qed.
(* No spelling has two meanings. *)
Theorem C69_unambiguous : forall n n' sp, spells n sp -> spells n' sp -> n = n'.
Proof. exact spells_one. Qed.
(* Everything else is a usage error. *)
Theorem C69_unknown : forall p e l1 o l2, no_information l1 -> (forall n, ~ spells n (fst o)) -> run_program p e (l1 ++ o :: l2) = UsageError.
Proof.
  intros p e l1 [sp vs] l2 N U. cbn [fst] in U. unfold run_program, cli_parse. rewrite steps_app. destruct (steps_info l1 N []) as [[g ->]| ->]; [|reflexivity].
  cbn [cli_steps]. now rewrite (step_unknown g sp vs U).
Qed.
(* Each spelling of an operation runs that operation on its argument. *)
Theorem C69_operation : forall p e op sp s, spells (OptOperation op) sp -> s <> [] ->
  exists m, run_program p e [(sp, [s])] = Ran (run_main p e m) /\ only m op s
    /\ not_typed (m_colour m) /\ not_typed (m_masking m) /\ not_typed (m_sort m) /\ not_typed (m_no_sort m).
Proof.
  intros p e op sp s S NE.
  assert (N : no_information [(sp, [s])]) by (repeat constructor; cbn [fst]; intros K; pose proof (spells_one _ _ sp S K); discriminate).
  assert (P : forall n, present [(sp, [s])] n -> n = OptOperation op) by (intros n (vs & sp' & [I|[]] & K); injection I as <- <-; apply (spells_one n (OptOperation op) sp K S)).
  assert (A : acceptable [(sp, [s])]).
  { split.
    - discriminate.
    - intros o [<-|[]]. exists (OptOperation op). split; [assumption|]. exists s. auto.
    - intros l1 o l2 o' l3 n E _ _. apply (f_equal (@List.length occurrence)) in E. rewrite app_length in E. cbn [List.length] in E. rewrite app_length in E. cbn [List.length] in E. lia.
    - intros a b Pa Pb. apply P in Pa, Pb. congruence.
    - intros [Pa _]. apply P in Pa. discriminate.
    - intros n Hn Pn. apply P in Pn. destruct Hn as [-> |[-> | ->]]; discriminate. }
  destruct (parse_exact _ N) as [(_ & m & E & D)|[X _]]; [|contradiction]. exists m. unfold run_program. rewrite E. split; [reflexivity|].
  split; [apply (described_only _ m op s A D); exists sp; split; [left; reflexivity|assumption]|].
  assert (Q : forall n vs, said [(sp, [s])] n vs -> n = OptOperation op) by (intros n vs K; apply P; exists vs; exact K).
  repeat split; intros x T.
  - apply (des_colour _ m D), Q in T. discriminate.
  - apply (des_masking _ m D) in T. destruct T as [T _]. apply P in T. discriminate.
  - apply (des_sort _ m D) in T. unfold switch in T. destruct x; [destruct T as [T|T]|]; apply Q in T; discriminate.
  - apply (des_no_sort _ m D) in T. unfold switch in T. destruct x; [destruct T as [T|T]|]; apply Q in T; discriminate.
Qed.
Example C69_example : Forall2 same_option [(Long "color", [lit "never"]); (Short "b", [lit "9B02F800"])] [(Long "colour", [lit "never"]); (Long "ber", [lit "9B02F800"])]
  /\ spells (OptOperation OpTvr) (Long "95") /\ forall n, ~ spells n (Long "TVR").
Proof.
  split; [|split].
  - constructor; [split; [reflexivity|]; exists OptColour; split; apply spells_spelt; reflexivity|].
    constructor; [split; [reflexivity|]; exists (OptOperation OpBer); split; apply spells_spelt; reflexivity|constructor].
  - apply spells_spelt. reflexivity.
  - intros n H. apply spells_spelt in H. destruct n as [| | | | | |[]]; discriminate H.
Qed.

(** C70: the order of the options does not matter. *)
Theorem C70_order : forall p e l l', no_information l -> Permutation l l' -> run_program p e l = run_program p e l'.
Proof.
  intros p e l l' N P. assert (N' : no_information l') by (unfold no_information in *; rewrite Forall_forall in *; intros o I; apply N; now apply (Permutation_in _ (Permutation_sym P))).
  unfold run_program. destruct (parse_exact l N) as [(A & m & E & D)|[X E]], (parse_exact l' N') as [(A' & m' & E' & D')|[X' E']]; rewrite E, E'.
  - now rewrite (run_same p e m m' (describes_same l l' m m' P D D')).
  - exfalso. apply X'. now apply (acceptable_perm l).
  - exfalso. apply X. now apply (acceptable_perm l' l (Permutation_sym P)).
  - destruct l as [|o l]; [apply Permutation_nil in P; subst; reflexivity|]. destruct l' as [|o' l']; [apply Permutation_sym, Permutation_nil in P; discriminate|reflexivity].
Qed.
(* With --help or --version in the line the order does matter: what comes first wins. *)
Theorem C70_any_order_refuted : exists l l', Permutation l l' /\ forall p e, run_program p e l <> run_program p e l'.
Proof.
  exists [(Long "help", []); (Long "helpp", [])], [(Long "helpp", []); (Long "help", [])]. split; [apply perm_swap|]. intros p e. vm_compute. discriminate.
Qed.
Example C70_example : no_information [(Short "m", [lit "X"]); (Long "no-sort", []); (Short "m", [lit "*"; lit "#"]); (Short "a", [lit "9B02F800"])]
  /\ acceptable [(Short "m", [lit "X"]); (Long "no-sort", []); (Short "m", [lit "*"; lit "#"]); (Short "a", [lit "9B02F800"])].
Proof.
  set (l := [(Short "m", [lit "X"]); (Long "no-sort", []); (Short "m", [lit "*"; lit "#"]); (Short "a", [lit "9B02F800"])]).
  assert (N : no_information l).
  { repeat constructor; cbn [fst]; intros K; apply spells_spelt in K; discriminate K. }
  split; [exact N|]. destruct (parse_exact l N) as [[A _]|[_ E]]; [exact A|]. vm_compute in E. discriminate E.
Qed.

(** C71: exactly which command lines are accepted, and what they do. *)
Theorem C71_accepted : forall p e l, no_information l ->
  (acceptable l <-> exists m, run_program p e l = Ran (run_main p e m) /\ describes l m).
Proof.
  intros p e l N. unfold run_program. destruct (parse_exact l N) as [(A & m & E & D)|[X E]]; rewrite E.
  - split; [eauto|auto].
  - split; [contradiction|]. intros (m & K & _). destruct l; discriminate.
Qed.
Theorem C71_rejected : forall p e l, no_information l -> ~ acceptable l ->
  run_program p e l = match l with [] => NoArguments | _ => UsageError end.
Proof. intros p e l N X. unfold run_program. destruct (parse_exact l N) as [(A & _)|[_ E]]; [contradiction|]. rewrite E. now destruct l. Qed.
(* Help and version are shown when the occurrences before them are in order. *)
Theorem C71_information : forall p e l1 sp l2, no_information l1 ->
  (forall o, In o l1 -> exists n, spells n (fst o) /\ takes n (snd o)) ->
  (forall k o m o' r n, l1 = k ++ o :: m ++ o' :: r -> spells n (fst o) -> spells n (fst o') -> n = OptMasking) ->
  (spells OptHelp sp -> run_program p e (l1 ++ (sp, []) :: l2) = ShowsHelp)
  /\ (spells OptVersion sp -> run_program p e (l1 ++ (sp, []) :: l2) = ShowsVersion).
Proof.
  intros p e l1 sp l2 N K O. assert (Or : orderly l1).
  { split.
    - intros o I. destruct (K o I) as (n & S & T). exists n. repeat (split; [assumption|]). now apply (proj1 (no_information_iff l1) N o).
    - intros n Hn. apply once_iff. intros a o m o' r E S S'. apply Hn. eapply O; eauto. }
  destruct (steps_exact l1 []) as [_ H]. destruct (H Or) as [g E]. unfold run_program, cli_parse. rewrite steps_app, E. cbn [cli_steps].
  split; intros S; now rewrite (step_known g _ sp [] S).
Qed.
(* Accepted lines never run into the [expect] on the colour and ask for one operation at most. *)
Theorem C71_guarantees : forall l m, no_information l -> cli_parse l = CliOk m ->
  colour_typed_ok m /\ (forall op op' s s', given m op = Some s -> given m op' = Some s' -> op = op') /\ (forall op s, given m op = Some s -> s <> [])
  /\ (forall b b', typed (m_sort m) b -> ~ typed (m_no_sort m) b') /\ (forall cs, typed (m_masking m) cs -> cs <> []).
Proof.
  intros l m N E. destruct (parse_exact l N) as [(A & m' & E' & D)|[_ E']]; [|destruct l; congruence]. rewrite E in E'. injection E' as <-.
  split; [now apply (colour_described l)|]. split; [|split; [|split]].
  - intros op op' s s' G G'. apply (des_operations l m D) in G, G'. apply (acc_one_operation l A); eexists; eassumption.
  - intros op s G. apply (des_operations l m D) in G. destruct G as (sp & I & S). destruct (acc_known l A _ I) as (n & S' & T). cbn [fst snd] in S', T.
    rewrite (spells_one n _ sp S' S) in T. destruct T as (v & V & NE). now injection V as ->.
  - intros b b' T T'. apply (des_sort l m D) in T. apply (des_no_sort l m D) in T'. apply (acc_sort l A). unfold switch in *.
    split; [destruct b; [destruct T as [T|T]|]|destruct b'; [destruct T' as [T'|T']|]]; eexists; eassumption.
  - intros cs T. apply (des_masking l m D) in T. destruct T as ((vs & sp & I & S) & M). intros ->.
    assert (K : forall l, masks_typed l [] -> forall sp vs, In (sp, vs) l -> spells OptMasking sp -> List.concat vs = []).
    { clear. intros l M. remember [] as cs eqn:Ec in M. induction M as [|sp vs l cs S M IH|o l cs S M IH]; intros sp' vs' I S'; [destruct I| |].
      - apply app_eq_nil in Ec. destruct Ec as [E1 E2]. destruct I as [I|I]; [inversion I; subst; assumption|]. apply (IH E2 sp'); assumption.
      - destruct I as [I|I]; [subst o; contradiction|]. now apply (IH Ec sp'). }
    specialize (K l M sp vs I S). destruct (acc_known l A _ I) as (n & S' & T). cbn [fst snd] in S', T. rewrite (spells_one n _ sp S' S) in T. destruct T as [NE F].
    destruct vs as [|v vs]; [congruence|]. inversion F as [|? ? [c ->]]; subst. discriminate.
Qed.
(* From the words typed to the lines on the screen. *)
Lemma program_settings e file l m st : e_cli_profile e = ProfGlobal -> e_file e = Some file -> acceptable l -> describes l m ->
  in_force (program_layers e file l) (e_tty e) st -> load_settings e m = Ok st.
Proof.
  intros P F A D I. apply (C62_precedence e m file st P F (colour_described l m A D)). refine (in_force_ext _ _ _ _ _ I). constructor; [exact (requests_asks l m A D)|].
  clear. assert (R : forall ls : list layer, Forall2 (fun (a b : layer) => forall k v, a k v <-> b k v) ls ls) by (induction ls; constructor; [reflexivity|assumption]). apply R.
Qed.
Theorem C71_shown : forall p e file l st op s ls k, e_cli_profile e = ProfGlobal -> e_file e = Some file ->
  no_information l -> acceptable l -> in_force (program_layers e file l) (e_tty e) st ->
  said l (OptOperation op) [s] -> text64 p s -> breakdown (set_masking st) (set_sort st) op s ls k -> fits p k ->
  exists o, run_program p e l = Ran o /\ displays o ls.
Proof.
  intros p e file l st op s ls k P F N A I S T B Ft. destruct (proj1 (C71_accepted p e l N) A) as (m & E & D). exists (run_main p e m). split; [assumption|].
  apply (C61_shown p e m st op s ls k); try assumption; [now apply (program_settings e file l)|]. apply only_chosen. now apply (described_only l m).
Qed.
Theorem C71_refused : forall p e file l st op s er, e_cli_profile e = ProfGlobal -> e_file e = Some file ->
  no_information l -> acceptable l -> in_force (program_layers e file l) (e_tty e) st ->
  said l (OptOperation op) [s] -> text64 p s -> refused (set_masking st) op s er ->
  exists o, run_program p e l = Ran o /\ complains o er.
Proof.
  intros p e file l st op s er P F N A I S T R. destruct (proj1 (C71_accepted p e l N) A) as (m & E & D). exists (run_main p e m). split; [assumption|].
  apply (C61_refused p e m st op s er); try assumption; [now apply (program_settings e file l)|]. apply only_chosen. now apply (described_only l m).
Qed.
(* Without an operation (only --colour remains possible) the help is printed. *)
Theorem C71_no_operation : forall p e file l st, e_cli_profile e = ProfGlobal -> e_file e = Some file ->
  no_information l -> acceptable l -> in_force (program_layers e file l) (e_tty e) st ->
  (forall op, ~ present l (OptOperation op)) -> exists o, run_program p e l = Ran o /\ helps o.
Proof.
  intros p e file l st P F N A I H. destruct (proj1 (C71_accepted p e l N) A) as (m & E & D). exists (run_main p e m). split; [assumption|].
  rewrite (main_none p e m st); [repeat split|now apply (program_settings e file l)|]. intros op. destruct (given m op) as [s|] eqn:G; [|reflexivity]. exfalso.
  apply (des_operations l m D) in G. apply (H op). eexists. exact G.
Qed.
Example C71_example : exists o, run_program p64 plain_env [(Long "no-sort", []); (Long "95", [lit "0000000000"])] = UsageError
  /\ run_program p64 plain_env [(Long "color", [lit "never"]); (Long "95", [lit "0000000000"])] = Ran o /\ o_panic o = false /\ o_stderr o = [].
Proof. eexists. split; [vm_compute; reflexivity|]. split; [vm_compute; reflexivity|]. split; reflexivity. Qed.

(** C72: the exit status. *)
Theorem C72_exact : forall p e l, no_information l ->
  (exit_status (run_program p e l) = 2 <-> ~ acceptable l)
  /\ (exit_status (run_program p e l) = 101 <-> exists m, acceptable l /\ describes l m /\ run_program p e l = Ran (run_main p e m) /\ o_panic (run_main p e m) = true)
  /\ (exit_status (run_program p e l) = 0 \/ exit_status (run_program p e l) = 2 \/ exit_status (run_program p e l) = 101).
Proof.
  intros p e l N. unfold run_program. destruct (parse_exact l N) as [(A & m & E & D)|[X E]]; rewrite E.
  - cbn [exit_status]. destruct (o_panic (run_main p e m)) eqn:Pm; (split; [split; [discriminate|contradiction]|split; [split|auto]]).
    + intros _. exists m. auto.
    + auto.
    + discriminate.
    + intros (m' & _ & _ & K & Pm'). injection K as K. congruence.
  - assert (S : exit_status (match match l with [] => CliNothing | _ :: _ => CliError end with
                             | CliOk m => Ran (run_main p e m) | CliHelp => ShowsHelp | CliVersion => ShowsVersion | CliError => UsageError | CliNothing => NoArguments end) = 2) by (destruct l; reflexivity).
    rewrite S. split; [tauto|]. split; [split; [discriminate|]|auto]. intros (m & A & _). contradiction.
Qed.
(* A message about the data never shows in the status. *)
Theorem C72_refusal_is_zero : forall p e l o er, run_program p e l = Ran o -> complains o er -> exit_status (run_program p e l) = 0.
Proof. intros p e l o er E (P & _). rewrite E. cbn [exit_status]. now rewrite P. Qed.
(* So a script cannot tell a refused value from a displayed one. *)
Theorem C72_failure_signalled_refuted : exists l l' er ls, no_information l /\ no_information l'
  /\ (exists o, run_program p64 plain_env l = Ran o /\ complains o er) /\ (exists o, run_program p64 plain_env l' = Ran o /\ displays o ls /\ ls <> [])
  /\ exit_status (run_program p64 plain_env l) = exit_status (run_program p64 plain_env l').
Proof.
  assert (NI : forall s, no_information [(Long "tsi", [s])]) by (intros s; repeat constructor; cbn [fst]; intros K; apply spells_spelt in K; discriminate K).
  assert (R : run_program p64 plain_env [(Long "tsi", [lit "F8"])] = Ran (mkOutcome [] (error_text (ByteCountIncorrect Eq 2 1) ++ [10]) false false)) by (vm_compute; reflexivity).
  destruct (C69_operation p64 plain_env OpTsi (Long "tsi") (lit "F800")) as (m & E & O & T1 & T2 & T3 & T4); [apply spells_spelt; reflexivity|discriminate|].
  assert (X : run_main p64 plain_env m = run_main p64 plain_env (mkMatches None None None (Some (lit "F800")) None None None None None None None (Some (lit "auto", SrcDefault))
    (Some ([42], SrcDefault)) (Some (true, SrcDefault)) (Some (false, SrcDefault)))).
  { apply run_same. split; [|split; [|split; [|split]]].
    - destruct O as [O1 O2]. intros op. destruct op; try (rewrite O2 by discriminate; reflexivity). exact O1.
    - intros x. split; intros K; [now apply T1 in K|now apply typed_default in K].
    - intros x. split; intros K; [now apply T3 in K|now apply typed_default in K].
    - intros x. split; intros K; [now apply T4 in K|now apply typed_default in K].
    - left. split; [exact T2|]. intros x. apply typed_default. }
  pose proof (C62_default_kept plain_env m eq_refl eq_refl eq_refl T1 T2 T3 T4) as L.
  assert (Tx : text64 p64 (lit "F800")) by (split; reflexivity).
  destruct (C61_settled p64 [42] true OpTsi (lit "F800") Tx) as [(ls & k & B & _)|(er & Rf & _)].
  2: { exfalso. pose proof (C61_refused p64 plain_env m _ OpTsi _ er L (only_chosen m OpTsi _ O) Tx Rf) as (_ & _ & _ & K).
       assert (Y : o_stderr (run_main p64 plain_env m) = []) by (rewrite X; vm_compute; reflexivity). rewrite Y in K. destruct (error_text er); discriminate K. }
  assert (Fk : fits p64 k /\ ls <> []).
  { inversion B as [v M|f ns r r' Bl Pf So]; subst; [|inversion Bl]. assert (Fv : fits p64 (value_levels v)) by (intros _; destruct v; unfold value_levels; try lia; destruct (cl_rules _); lia).
    split; [exact Fv|]. intros Z. pose proof (C61_shown p64 plain_env m _ OpTsi _ _ _ L (only_chosen m OpTsi _ O) Tx B Fv) as (_ & _ & _ & K & _).
    rewrite Z in K. rewrite X in K. vm_compute in K. discriminate K. }
  exists [(Long "tsi", [lit "F8"])], [(Long "tsi", [lit "F800"])], (ByteCountIncorrect Eq 2 1), ls.
  split; [apply NI|]. split; [apply NI|]. split; [eexists; split; [exact R|repeat split]|]. split.
  - eexists. split; [exact E|]. split; [|apply Fk]. exact (C61_shown p64 plain_env m _ OpTsi _ _ _ L (only_chosen m OpTsi _ O) Tx B (proj1 Fk)).
  - transitivity 0; [rewrite R; reflexivity|]. etransitivity; [|apply f_equal; symmetry; exact E]. cbn [exit_status]. pose proof (C61_shown p64 plain_env m _ OpTsi _ _ _ L (only_chosen m OpTsi _ O) Tx B (proj1 Fk)) as (-> & _). reflexivity.
Qed.
Example C72_example : acceptable [(Long "tsi", [lit "F8"])] /\ exit_status (run_program p64 plain_env [(Long "tsi", [lit "F8"])]) = 0
  /\ exit_status (run_program p64 plain_env [(Long "tsii", [lit "F8"])]) = 2.
Proof.
  split; [|split; vm_compute; reflexivity]. assert (NI : no_information [(Long "tsi", [lit "F8"])]) by (repeat constructor; cbn [fst]; intros K; apply spells_spelt in K; discriminate K).
  destruct (parse_exact _ NI) as [[A _]|[_ E]]; [exact A|]. vm_compute in E. discriminate E.
Qed.
