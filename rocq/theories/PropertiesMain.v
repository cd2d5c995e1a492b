(** The properties of the program as a whole: output, dispatch, configuration, colours, panics, error messages. *)

From Coq Require Import ZArith NArith List String Ascii Bool Lia ZifyN ZifyBool ZifyNat Permutation.
From Verif Require Import Base ModelUtil ModelEnums ModelBitflag ModelSchemas ModelTags ModelTlv ModelValues ModelProcess ModelDisplay
  SpecUtil SpecCodes SpecValues SpecTlv SpecIngenico SpecTags SpecProcess SpecDisplay
  ProofsUtil ProofsBer ProofsIngenico ProofsValues PropertiesValues
  PropertiesBer PropertiesIngenico ProofsProcess PropertiesProcess ProofsDisplay ProofsDiagram ProofsScreens ProofsLayout PropertiesDisplay
  ModelMain SpecMain ProofsMain.
Import ListNotations.
Local Open Scope N_scope.

(* Used in the examples: nothing configured, and a command line with one operation. *)
Definition plain_env : environment := mkEnv (Some (fun _ => [])) [] ProfDefault true ProfGlobal.
Definition no_args : matches :=
  mkMatches None None None None None None None None None None None (Some (lit "auto", SrcDefault))
            (Some ([42], SrcDefault)) (Some (true, SrcDefault)) (Some (false, SrcDefault)).
Definition with_ber (s : str) : matches :=
  mkMatches None None None None None None None None (Some s) None None (Some (lit "auto", SrcDefault))
            (Some ([42], SrcDefault)) (Some (true, SrcDefault)) (Some (false, SrcDefault)).
Definition with_service_code (s : str) : matches :=
  mkMatches None None None None None None None None None None (Some s) (Some (lit "auto", SrcDefault))
            (Some ([42], SrcDefault)) (Some (true, SrcDefault)) (Some (false, SrcDefault)).
Lemma plain_settings m : m_colour m = Some (lit "auto", SrcDefault) -> m_masking m = Some ([42], SrcDefault) ->
  m_sort m = Some (true, SrcDefault) -> m_no_sort m = Some (false, SrcDefault) -> load_settings plain_env m = Ok (mkSettings TAuto [42] true).
Proof.
  intros H1 H2 H3 H4. unfold load_settings, apply_cli_arguments, apply_colour, apply_masking, apply_sort, cli_sort_preference. rewrite H1, H2, H3, H4. reflexivity.
Qed.

(** C61: each operation shows exactly what its argument means. *)
Theorem C61_shown : forall p e m st op s ls k, load_settings e m = Ok st -> chosen m op s -> text64 p s ->
  breakdown (set_masking st) (set_sort st) op s ls k -> fits p k -> displays (run_main p e m) ls.
Proof.
  intros p e m st op s ls k L C T B F. rewrite (main_chosen p e m st op s L C).
  destruct (run_one_exact p st op s T) as [(ls' & k' & B' & S & _)|(er & R & _)].
  - destruct (breakdown_det p _ _ op s ls k ls' k' T B B') as [-> ->]. now apply S.
  - exfalso. exact (breakdown_not_refused p _ _ op s ls k er T B R).
Qed.
Theorem C61_refused : forall p e m st op s er, load_settings e m = Ok st -> chosen m op s -> text64 p s ->
  refused (set_masking st) op s er -> complains (run_main p e m) er.
Proof.
  intros p e m st op s er L C T R. rewrite (main_chosen p e m st op s L C).
  destruct (run_one_exact p st op s T) as [(ls & k & B & _)|(er' & R' & K)].
  - exfalso. exact (breakdown_not_refused p _ _ op s ls k er T B R).
  - now rewrite (refused_det p _ op s er er' T R R').
Qed.
(* Every argument either has a breakdown or is refused, never both, and each is unique. *)
Theorem C61_settled : forall p masks sort op s, text64 p s ->
  (exists ls k, breakdown masks sort op s ls k /\ (forall ls' k', breakdown masks sort op s ls' k' -> ls' = ls /\ k' = k) /\ forall e, ~ refused masks op s e)
  \/ (exists e, refused masks op s e /\ (forall e', refused masks op s e' -> e' = e) /\ forall ls k, ~ breakdown masks sort op s ls k).
Proof.
  intros p masks sort op s T. destruct (run_one_exact p (mkSettings TAuto masks sort) op s T) as [(ls & k & B & _)|(e & R & _)]; cbn [set_masking set_sort] in *.
  - left. exists ls, k. split; [assumption|]. split; [intros ls' k' B'; exact (breakdown_det p _ _ op s _ _ _ _ T B' B)|]. intros e R. exact (breakdown_not_refused p _ _ op s ls k e T B R).
  - right. exists e. split; [assumption|]. split; [intros e' R'; exact (refused_det p _ op s _ _ T R' R)|]. intros ls k B. exact (breakdown_not_refused p _ _ op s ls k e T B R).
Qed.
(* Which operation: the only one asked for, or the first of several. *)
Theorem C61_operation : forall m, (exists op s, chosen m op s) \/ no_operation m.
Proof. exact chosen_or_none. Qed.
Theorem C61_only_one : forall m op s, only m op s -> chosen m op s /\ forall op' s', chosen m op' s' -> op' = op /\ s' = s.
Proof.
  intros m op s H. split; [now apply only_chosen|]. intros op' s' [G _]. destruct H as [G0 N].
  assert (D : op' = op \/ op' <> op) by (destruct op, op'; (left; reflexivity) || (right; discriminate)).
  destruct D as [->|D]; [|rewrite (N op' D) in G; discriminate]. split; [reflexivity|congruence].
Qed.
Theorem C61_help : forall p e m st, load_settings e m = Ok st -> no_operation m -> helps (run_main p e m).
Proof. intros p e m st L N. rewrite (main_none p e m st L N). repeat split. Qed.
Example C61_example : load_settings plain_env (with_service_code (lit " 201")) = Ok (mkSettings TAuto [42] true)
  /\ chosen (with_service_code (lit " 201")) OpServiceCode (lit " 201") /\ text64 p64 (lit " 201")
  /\ (exists sc, meaning OpServiceCode (lit " 201") (ValServiceCode sc)) /\ refused [42] OpBer (lit "9F02 01") NonCompliant.
Proof.
  split; [now apply plain_settings|]. split; [apply only_chosen; split; [reflexivity|intros []; try reflexivity; contradiction]|]. split; [split; reflexivity|]. split.
  - destruct (all_service_codes 201 ltac:(lia)) as [sc S]. exists sc. apply (meaning_service_code _ 201); [|lia|apply service_code_of_iff; [reflexivity| | |vm_compute; reflexivity|exact S]; vm_compute; reflexivity].
    apply (proj1 (parse_str_to_u16_spec (lit " 201") 201)). vm_compute. reflexivity.
  - assert (T : text64 p64 (lit "9F02 01")) by (split; reflexivity).
    apply (proj1 (proj2 (tlv_settles p64 [42] OpBer (lit "9F02 01") (Err NonCompliant) T ltac:(vm_compute; reflexivity))) NonCompliant eq_refl).
Qed.

(** C60: all or nothing. *)
Theorem C60_all_or_nothing : forall p e m, arguments64 p m ->
  let o := run_main p e m in
  o_panic o = true \/ helps o \/ (exists ls, displays o ls) \/ (exists er, complains o er).
Proof.
  intros p e m A o. destruct (load_settings e m) as [st| | |] eqn:L.
  2-4: left; unfold o; rewrite (main_bad_settings p e m); [reflexivity|intros st; congruence].
  destruct (chosen_or_none m) as [(op & s & C)|N].
  - pose proof (A op s (proj1 C)) as T. unfold o. rewrite (main_chosen p e m st op s L C).
    destruct (run_one_exact p st op s T) as [(ls & k & B & S & D)|(er & R & K)]; [|right; right; right; eauto].
    assert (F : fits p k \/ ~ fits p k) by (unfold fits; destruct (overflow_checks p); [destruct (N.lt_ge_cases k 256); [left; auto|right; intros X; specialize (X eq_refl); lia]|left; discriminate]).
    destruct F as [F|F]; [right; right; left; exists ls; now apply S|left; now apply D].
  - right. left. now apply (C61_help p e m st).
Qed.
(* Nothing is written to both: an error leaves stdout empty, a breakdown leaves stderr empty. *)
Theorem C60_never_both : forall p e m, arguments64 p m -> o_stderr (run_main p e m) <> [] -> o_stdout (run_main p e m) = [].
Proof.
  intros p e m A H. destruct (load_settings e m) as [st| | |] eqn:L.
  2-4: now rewrite (main_bad_settings p e m) by (intros st; congruence).
  destruct (chosen_or_none m) as [(op & s & C)|N].
  - pose proof (A op s (proj1 C)) as T. rewrite (main_chosen p e m st op s L C) in *.
    destruct (run_one_exact p st op s T) as [(ls & k & B & S & D)|(er & R & K)]; [|apply K].
    assert (F : fits p k \/ ~ fits p k) by (unfold fits; destruct (overflow_checks p); [destruct (N.lt_ge_cases k 256); [left; auto|right; intros X; specialize (X eq_refl); lia]|left; discriminate]).
    destruct F as [F|F]; exfalso; apply H; [apply (S F)|apply (D F)].
  - now rewrite (main_none p e m st L N).
Qed.
(* The message is one line: it ends in the only line feed. *)
Theorem C60_one_line : forall er, error_text er <> [] /\ ~ In 10 (error_text er).
Proof.
  assert (L : forall s : string, existsb (N.eqb 10) (lit s) = false -> ~ In 10 (lit s)).
  { intros s E H. assert (existsb (N.eqb 10) (lit s) = true) by (apply existsb_exists; exists 10; split; [exact H|reflexivity]). congruence. }
  intros er. destruct er as [ty n k| | | | | | |]; try (split; [discriminate|apply L; vm_compute; reflexivity]).
  split; [discriminate|]. intros H. cbn [error_text] in H.
  assert (D : forall x, ~ In 10 (dec x)) by (intros x Hx; destruct (dec_spec x) as (F & _); rewrite Forall_forall in F; specialize (F _ Hx); unfold is_dec_digit in F; lia).
  apply in_app_or in H. destruct H as [H|H]; [revert H; apply L; vm_compute; reflexivity|].
  apply in_app_or in H. destruct H as [H|H]; [destruct ty; revert H; apply L; vm_compute; reflexivity|].
  apply in_app_or in H. destruct H as [H|H]; [revert H; apply L; vm_compute; reflexivity|].
  apply in_app_or in H. destruct H as [H|H]; [now apply D in H|].
  apply in_app_or in H. destruct H as [H|H]; [revert H; apply L; vm_compute; reflexivity|now apply D in H].
Qed.
(* A breakdown may be empty: exactly for --ber-tlv and --ingenico-tlv with data that holds no
   tags.  Then the program prints nothing at all. *)
Theorem C60_silent : forall p e m st op s, load_settings e m = Ok st -> chosen m op s -> text64 p s ->
  (displays (run_main p e m) [] <-> tlv_block (set_masking st) op s None []).
Proof.
  intros p e m st op s L C T. split.
  - intros D. destruct (C61_settled p (set_masking st) (set_sort st) op s T) as [(ls & k & B & U & _)|(er & R & _)].
    + assert (F : fits p k).
      { destruct (run_one_exact p st op s T) as [(ls' & k' & B' & S & Q)|(er & R & _)]; [|exfalso; exact (breakdown_not_refused p _ _ op s ls k er T B R)].
        destruct (U ls' k' B') as [-> ->]. unfold fits. intros Ck. destruct (N.lt_ge_cases k 256); [assumption|]. exfalso.
        assert (NF : ~ fits p k) by (intros X; specialize (X Ck); lia). destruct (Q NF) as [P _]. rewrite (main_chosen p e m st op s L C) in D. destruct D as (D & _). congruence. }
      pose proof (C61_shown p e m st op s ls k L C T B F) as (_ & _ & _ & S1 & _). destruct D as (_ & _ & _ & S2 & _). rewrite S1 in S2.
      assert (E : ls = []) by (destruct ls as [|l ls]; [reflexivity|]; exfalso; cbn [render flat_map] in S2; unfold render_line in S2;
        apply app_eq_nil in S2; destruct S2 as [S2 _]; apply app_eq_nil in S2; destruct S2 as [_ S2]; apply app_eq_nil in S2; destruct S2 as [_ S2]; discriminate).
      subst ls. inversion B as [v M E1 E2|f ns r r' Bl Pf So E1 E2].
      * exfalso. destruct (value_lines_some v 0 true) as (l & ls & V). rewrite V in E1. discriminate E1.
      * apply app_eq_nil in E1. destruct E1 as [E1 E3]. destruct f as [[|]|]; [discriminate|discriminate|].
        assert (R0 : r' = []).
        { destruct r' as [|[t c] r']; [reflexivity|]. exfalso. unfold block_lines in E3. cbn [map separated] in E3. destruct (map _ r'); destruct t; discriminate. }
        subst r'. assert (r = []).
        { destruct (set_sort st); [|congruence]. inversion So as [l m' l' P1 P2 P3 P4]; subst. inversion P4; subst. symmetry in P1. now apply Permutation_nil in P1. }
        subst r. inversion Pf; subst. exact Bl.
    + exfalso. pose proof (C61_refused p e m st op s er L C T R) as K. unfold displays, complains in *. destruct D as (_ & _ & D & _), K as (_ & _ & _ & K). rewrite D in K. now apply app_cons_not_nil in K.
  - intros B. change (@nil line) with (format_lines None ++ block_lines [] 0 true).
    assert (Br : breakdown (set_masking st) (set_sort st) op s (format_lines None ++ block_lines [] 0 true) (block_levels [])).
    { apply (breakdown_block _ _ _ _ None [] [] []); [assumption|constructor|]. destruct (set_sort st); [|reflexivity]. now apply C37_sort_arranges. }
    apply (C61_shown p e m st op s _ _ L C T Br). intros _. reflexivity.
Qed.
Theorem C60_always_prints_refuted : exists s, s <> [] /\ text64 p64 s /\ chosen (with_ber s) OpBer s
  /\ run_main p64 plain_env (with_ber s) = mkOutcome [] [] false false.
Proof. exists (lit "no"). split; [discriminate|]. split; [split; reflexivity|]. split; [apply only_chosen; split; [reflexivity|intros []; try reflexivity; contradiction]|vm_compute; reflexivity]. Qed.
Example C60_example : arguments64 p64 (with_ber (lit "9B02F800")) /\ exists ls, displays (run_main p64 plain_env (with_ber (lit "9B02F800"))) ls.
Proof.
  assert (A : arguments64 p64 (with_ber (lit "9B02F800"))) by (intros [] s H; try discriminate H; injection H as <-; split; reflexivity).
  split; [exact A|]. destruct (C60_all_or_nothing p64 plain_env (with_ber (lit "9B02F800")) A) as [H|[H|[H|[er H]]]]; [exfalso|exfalso|exact H|exfalso].
  - vm_compute in H. discriminate H.
  - destruct H as (_ & H & _). vm_compute in H. discriminate H.
  - destruct H as (_ & _ & H & _). vm_compute in H. discriminate H.
Qed.

(** C62: settings. *)
(* The command line beats the environment, which beats the file, which beats the built-in
   values - provided figment puts the program's (key, value) pairs into the global profile. *)
Theorem C62_precedence : forall e m file st, e_cli_profile e = ProfGlobal -> e_file e = Some file -> colour_typed_ok m ->
  (load_settings e m = Ok st <-> in_force (layers e file m) (e_tty e) st).
Proof.
  intros e m file st P F C. destruct (merged_global e file m F C) as (f & A & M). eapply load_iff; [rewrite P; exact A|exact M|]. intros k. apply layers_dicts.
Qed.
(* If figment put them into the default profile, they would only beat the file's [default]
   table and the built-in values. *)
Theorem C62_precedence_default_profile : forall e m file st, e_cli_profile e = ProfDefault -> e_file e = Some file -> colour_typed_ok m ->
  (load_settings e m = Ok st <-> in_force (layers_default e file m) (e_tty e) st).
Proof.
  intros e m file st P F C. destruct (merged_default e file m F C) as (f & A & M). eapply load_iff; [rewrite P; exact A|exact M|]. intros k. apply layers_default_dicts.
Qed.
(* A value is decided by at most one layer: the first that mentions the setting. *)
Theorem C62_decided_once : forall e m file k v w, decided (layers e file m) k v -> decided (layers e file m) k w -> v = w.
Proof. intros e m file k v w H1 H2. apply (decided_dicts _ _ k (layers_dicts e file m k)) in H1, H2. congruence. Qed.
(* An unreadable file or a wrong colour is fatal. *)
Theorem C62_bad_file : forall e m st, e_file e = None -> load_settings e m <> Ok st.
Proof.
  intros e m st F H. unfold load_settings in H. destruct (apply_cli_arguments (e_cli_profile e) (config_figment e) m) as [f| | |] eqn:A; try discriminate.
  cbn [bind] in H. rewrite (merged_none _ e m f F A) in H. discriminate.
Qed.
Theorem C62_bad_colour : forall e m st, ~ colour_typed_ok m -> load_settings e m <> Ok st.
Proof. intros e m st C H. unfold load_settings in H. rewrite (apply_cli_bad _ _ m C) in H. discriminate. Qed.
(* In words: whatever the file and the environment say, what the user typed is in force. *)
Theorem C62_command_line_wins : forall e m st, e_cli_profile e = ProfGlobal -> load_settings e m = Ok st ->
  (forall s c n, typed (m_colour m) s -> In (c, n) colour_names -> same_letters s (lit n) -> set_colour st = terminal_choice (e_tty e) c)
  /\ (forall cs, typed (m_masking m) cs -> set_masking st = cs)
  /\ (forall b, typed (m_no_sort m) b -> set_sort st = negb b)
  /\ (forall b, not_typed (m_no_sort m) -> typed (m_sort m) b -> set_sort st = b).
Proof.
  intros e m st P L. destruct (e_file e) as [file|] eqn:F; [|exfalso; now apply (C62_bad_file e m st)].
  assert (C : colour_typed_ok m).
  { intros s T. destruct (colour_try_total s) as [[c K]|K]; [apply colour_try_iff in K; destruct K as (n & K); eauto|]. exfalso.
    apply (C62_bad_colour e m st); [|assumption]. intros X. destruct (X s T) as (c & n & I & S). assert (K' : colour_choice_try_from s = Ok c) by (apply colour_try_iff; eauto). congruence. }
  apply (C62_precedence e m file st P F C) in L. destruct L as (v1 & v2 & v3 & c & D1 & V1 & E1 & D2 & V2 & D3 & V3).
  assert (W : forall k v w, asks m k v -> decided (layers e file m) k w -> w = v).
  { intros k v w A D. apply (C62_decided_once e m file k); [assumption|]. now apply decided_here. }
  repeat split.
  - intros s c' n T I S. pose proof (W _ _ v1 (asks_colour m s c' n T I S) D1) as ->. destruct V1 as [(n' & I' & V1)|(i & _ & V1)]; [|discriminate V1]. rewrite E1. f_equal.
    injection V1 as V1. cbn [colour_names In] in I, I'. revert V1. repeat (destruct I as [I|I]; [injection I as <- <-|]); try contradiction;
      repeat (destruct I' as [I'|I']; [injection I' as <- <-|]); try contradiction; intros V1; try reflexivity; vm_compute in V1; discriminate V1.
  - intros cs T. pose proof (W _ _ v2 (asks_masking m cs T) D2) as ->. destruct V2 as (vs & V & Q). injection V as <-. clear -Q.
    remember (map CChar cs) as vs eqn:E. revert cs E. induction Q as [|x c' xs cs' X Q IH]; intros [|y ys] E; try discriminate; [reflexivity|]. injection E as -> E. f_equal; [|now apply IH].
    destruct X as [X|X]; [congruence|discriminate].
  - intros b T. pose proof (W _ _ v3 (asks_no_sort m b T) D3) as ->. unfold sort_value in V3. congruence.
  - intros b N T. pose proof (W _ _ v3 (asks_sort m b N T) D3) as ->. unfold sort_value in V3. congruence.
Qed.
Theorem C62_default_kept : forall e m, e_cli_profile e = ProfGlobal -> e_file e = Some (fun _ => []) -> e_vars e = [] ->
  not_typed (m_colour m) -> not_typed (m_masking m) -> not_typed (m_sort m) -> not_typed (m_no_sort m) ->
  load_settings e m = Ok (mkSettings (if e_tty e then TAuto else TNever) [42] true).
Proof.
  intros e m P F V T1 T2 T3 T4. apply (C62_precedence e m (fun _ => [])); [assumption|assumption|intros s H; exfalso; now apply (T1 s)|].
  assert (A : forall k, silent (asks m) k).
  { intros k v H. inversion H as [s c n T I L|cs T|b N T|b T]; subst; [now apply (T1 s)|now apply (T2 cs)|now apply (T3 b)|now apply (T4 b)]. }
  assert (D : forall k v, says built_in k v -> decided (layers e (fun _ => []) m) k v).
  { intros k v H. unfold layers, selected_layers. apply decided_later; [apply A|]. apply decided_later; [rewrite V; intros w X; discriminate|].
    apply decided_later; [intros w X; discriminate|]. destruct (e_profile e); cbn [app]; repeat (apply decided_later; [intros w X; discriminate|]); now apply decided_here. }
  exists (CStr (lit "auto")), (CArr [CChar 42]), (CBool true), CAuto. repeat split; try (apply D; reflexivity).
  - left. exists "auto"%string. split; [cbn; tauto|reflexivity].
  - exists [CChar 42]. split; [reflexivity|]. constructor; [now left|constructor].
Qed.
(* Settings that cannot be loaded make the program panic. *)
Theorem C62_invalid_panics : forall p e m, (forall st, load_settings e m <> Ok st) -> load_settings e m = Panic /\ o_panic (run_main p e m) = true.
Proof. intros p e m H. split; [now apply load_bad|]. now rewrite (main_bad_settings p e m H). Qed.
(* With pairs in the default profile the documented order fails: the environment wins. *)
Theorem C62_command_line_wins_refuted : exists e m st, e_cli_profile e = ProfDefault /\ load_settings e m = Ok st
  /\ typed (m_masking m) [88] /\ set_masking st = [42].
Proof.
  exists (mkEnv (Some (fun _ => [])) [("masking_characters"%string, CArr [CStr [42]])] ProfDefault true ProfDefault),
    (mkMatches None None None None None None None None None None None None (Some ([88], SrcCommandLine)) None None), (mkSettings TAuto [42] true).
  split; [reflexivity|]. split; [vm_compute; reflexivity|]. split; [|reflexivity]. exists SrcCommandLine. split; [reflexivity|discriminate].
Qed.
Example C62_example : exists e m file st, e_cli_profile e = ProfGlobal /\ e_file e = Some file /\ colour_typed_ok m /\ load_settings e m = Ok st
  /\ set_colour st = TNever /\ set_masking st = [88; 35] /\ set_sort st = false.
Proof.
  exists (mkEnv (Some (fun q => match q with ProfCustom _ => [("masking_characters"%string, CArr [CStr [88]; CChar 35])] | _ => [] end))
                [("sort_parsed_tags"%string, CBool false)] (ProfCustom (lit "shop")) true ProfGlobal),
    (mkMatches None None None None None None None None None None None (Some (lit "NEVER", SrcCommandLine)) (Some ([42], SrcDefault)) (Some (true, SrcDefault)) None).
  eexists. exists (mkSettings TNever [88; 35] false). split; [reflexivity|]. split; [reflexivity|]. split; [|split; [vm_compute; reflexivity|auto]].
  intros s T. apply typed_iff in T. destruct T as [_ <-]. exists CNever. destruct (proj1 (colour_try_iff (lit "NEVER") CNever) eq_refl) as (n & I & K). eauto.
Qed.

(** C63: colour names. *)
Theorem C63_reads : forall s c, colour_choice_try_from s = Ok c <-> exists n, In (c, n) colour_names /\ same_letters s (lit n).
Proof. exact colour_try_iff. Qed.
Theorem C63_otherwise_unsupported : forall s, (forall c n, In (c, n) colour_names -> ~ same_letters s (lit n)) <-> colour_choice_try_from s = Err Unsupported.
Proof.
  intros s. split.
  - intros H. destruct (colour_try_total s) as [[c K]|K]; [|assumption]. apply colour_try_iff in K. destruct K as (n & I & L). exfalso. exact (H c n I L).
  - intros E c n I L. assert (K : colour_choice_try_from s = Ok c) by (apply colour_try_iff; eauto). congruence.
Qed.
Theorem C63_round_trip : forall c, colour_choice_try_from (colour_choice_text c) = Ok c.
Proof. intros []; vm_compute; reflexivity. Qed.
Theorem C63_terminal_round_trip : forall c t, colour_choice_from_term (colour_choice_to_term c) = c /\ colour_choice_to_term (colour_choice_from_term t) = t.
Proof. intros [] []; split; reflexivity. Qed.
Theorem C63_auto : forall tty c, colour_choice_to_term (change_based_on_tty tty c) = terminal_choice tty c
  /\ (change_based_on_tty tty c <> c <-> c = CAuto /\ tty = false) /\ (c = CAuto -> tty = false -> change_based_on_tty tty c = CNever).
Proof. intros tty c. split; [apply terminal_choice_eq|]. destruct c, tty; cbn; repeat split; try discriminate; try congruence; intros [? ?]; congruence. Qed.
Example C63_example : same_letters (lit "AnSi") (lit "ansi") /\ colour_choice_try_from (lit "colour") = Err Unsupported.
Proof. split; [apply lowercase_iff; [apply (colour_letters CAlwaysAnsi "ansi"); cbn; tauto|reflexivity]|reflexivity]. Qed.

(** C64: panics. *)
Theorem C64_exact : forall p e m, arguments64 p m ->
  (o_panic (run_main p e m) = true <->
   (forall st, load_settings e m <> Ok st)
   \/ exists st op s ls k, load_settings e m = Ok st /\ chosen m op s /\ breakdown (set_masking st) (set_sort st) op s ls k
        /\ overflow_checks p = true /\ 256 <= k).
Proof.
  intros p e m A. split.
  - intros P. destruct (load_settings e m) as [st| | |] eqn:L; [|left; congruence|left; congruence|left; congruence]. right.
    destruct (chosen_or_none m) as [(op & s & C)|N].
    + pose proof (A op s (proj1 C)) as T. rewrite (main_chosen p e m st op s L C) in P.
      destruct (run_one_exact p st op s T) as [(ls & k & B & S & D)|(er & R & K)].
      * exists st, op, s, ls, k. split; [reflexivity|]. split; [assumption|]. split; [assumption|].
        assert (NF : ~ fits p k) by (intros F; destruct (S F) as (S1 & _); congruence). unfold fits in NF. destruct (overflow_checks p); [|exfalso; apply NF; discriminate].
        split; [reflexivity|]. destruct (N.lt_ge_cases k 256); [exfalso; apply NF; auto|assumption].
      * destruct K as (K & _). congruence.
    + rewrite (main_none p e m st L N) in P. discriminate.
  - intros [H|(st & op & s & ls & k & L & C & B & Ck & K)]; [now rewrite (main_bad_settings p e m H)|].
    pose proof (A op s (proj1 C)) as T. rewrite (main_chosen p e m st op s L C).
    destruct (run_one_exact p st op s T) as [(ls' & k' & B' & S & D)|(er & R & _)].
    + destruct (breakdown_det p _ _ op s _ _ _ _ T B B') as [-> ->]. apply D. intros F. specialize (F Ck). lia.
    + exfalso. exact (breakdown_not_refused p _ _ op s ls k er T B R).
Qed.
(* Data that nests at most 254 levels never panics. *)
Theorem C64_shallow : forall p e m st, load_settings e m = Ok st -> arguments64 p m ->
  (forall op s f ns, chosen m op s -> tlv_block (set_masking st) op s f ns -> (forest_depth ns <= 254)%nat) ->
  o_panic (run_main p e m) = false.
Proof.
  intros p e m st L A H. destruct (o_panic (run_main p e m)) eqn:P; [|reflexivity]. exfalso. apply C64_exact in P; [|assumption].
  destruct P as [P|(st' & op & s & ls & k & L' & C & B & Ck & K)]; [now apply (P st)|]. rewrite L in L'. injection L' as <-.
  pose proof (A op s (proj1 C)) as T. destruct B as [v M|f ns r r' Bl Pf So].
  - pose proof (value_fits0 p v Ck). lia.
  - specialize (H op s f ns C Bl). destruct (tlv_op _ _ _ _ _ Bl) as [_ Y]. destruct (Y p) as [x X]. destruct (tlv_settles p _ op s x T X) as (Z & _ & _ & _ & _ & G).
    apply Z in Bl. pose proof (forest_ok_data _ (G _ _ Bl)) as D. apply (C33_processed_block _ _ D) in Pf. pose proof (block_nesting_depth ns r Pf) as Q.
    assert (Lv : block_levels r' = block_levels r) by (destruct (set_sort st); [now apply arranged_levels|congruence]). pose proof (C59_nesting r). lia.
Qed.
(* In particular no argument of at most 500 characters makes a correctly configured program panic. *)
Theorem C64_short_arguments : forall p e m st, load_settings e m = Ok st -> usize_bits p = 64 ->
  (forall op s, given m op = Some s -> len s <= 500) -> o_panic (run_main p e m) = false.
Proof.
  intros p e m st L P H. assert (A : arguments64 p m) by (intros op s G; split; [assumption|]; specialize (H op s G); lia).
  apply (C64_shallow p e m st L A). intros op s f ns C B. pose proof (A op s (proj1 C)) as T. specialize (H op s (proj1 C)).
  assert (Hb : ber_block (set_masking st) s ns -> (forest_depth ns <= 254)%nat).
  { intros K. apply (ber_block_iff p _ s ns T) in K. apply C20_ber_linear in K; [|now apply hex_input64]. destruct K as [_ K].
    assert (Lb : (List.length (parse_hex_str s) <= List.length s)%nat).
    { rewrite parse_hex_str_spec, bytes_of_digits_length. assert (Lf : (List.length (filter is_hex_digitb s) <= List.length s)%nat) by (clear; induction s as [|c s IH]; cbn; [lia|]; destruct (is_hex_digitb c); cbn; lia).
      pose proof (Nat.div2_odd (List.length (filter is_hex_digitb s))). lia. }
    unfold len in H. lia. }
  assert (Hi : ingenico_block (set_masking st) s ns -> (forest_depth ns <= 254)%nat).
  { intros (Ha & es & Et & En). pose proof (ing_nodes_depth _ s es ns Ha Et En). unfold len in H. lia. }
  inversion B; subst; auto.
Qed.
Theorem C64_never_panics_refuted : exists s, text64 p64 s /\ (exists st, load_settings plain_env (with_ber s) = Ok st) /\ o_panic (run_main p64 plain_env (with_ber s)) = true.
Proof.
  exists (hex_text (nested 257)). split; [|split].
  - assert (C : len (hex_text (nested 257)) <? 2 ^ 62 = true) by (vm_compute; reflexivity). apply N.ltb_lt in C. split; [reflexivity|]. lia.
  - eexists. now apply plain_settings.
  - vm_compute. reflexivity.
Qed.
Example C64_example : (exists st, load_settings plain_env (with_ber (lit "6F0384015A")) = Ok st) /\ arguments64 p64 (with_ber (lit "6F0384015A")).
Proof. split; [eexists; now apply plain_settings|]. intros [] s H; try discriminate H; injection H as <-; split; reflexivity. Qed.

(** C65: error messages. *)
Theorem C65_distinct : forall a b, error_text a = error_text b -> a = b.
Proof.
  intros a b H. destruct a as [ty n k| | | | | | |], b as [ty' n' k'| | | | | | |]; try reflexivity.
  1: destruct (byte_count_inj _ _ _ _ _ _ H) as (-> & -> & ->); reflexivity.
  all: exfalso; apply (f_equal (firstn 60)) in H; vm_compute in H; discriminate H.
Qed.
(* So the output on stderr tells which error occurred. *)
Theorem C65_output_tells : forall o a b, complains o a -> complains o b -> a = b.
Proof. intros o a b (_ & _ & _ & Ha) (_ & _ & _ & Hb). rewrite Ha in Hb. apply app_inj_tail in Hb. now apply C65_distinct. Qed.
Example C65_example : error_text (ByteCountIncorrect Eq 5 4) <> error_text (ByteCountIncorrect Eq 5 3).
Proof. intros H. apply C65_distinct in H. discriminate. Qed.
