(** The properties of the bytes sent to the terminal. *)

From Coq Require Import ZArith NArith List String Ascii Bool Lia ZifyN ZifyBool ZifyNat Permutation Sorting PeanoNat.
From Verif Require Import Base ModelUtil ModelEnums ModelBitflag ModelSchemas ModelTags ModelTlv ModelValues ModelProcess ModelDisplay
  SpecUtil SpecCodes SpecValues SpecTlv SpecIngenico SpecTags SpecProcess SpecDisplay
  ProofsUtil ProofsValues PropertiesUtil PropertiesProcess PropertiesBer ProofsDisplay ProofsScreens ProofsLayout PropertiesDisplay SpecPictures ProofsPictures
  ModelMain SpecMain ProofsMain PropertiesMain PropertiesPictures ModelCli SpecCli ProofsCli PropertiesCli
  ModelTerminal SpecTerminal ProofsTerminal.
Import ListNotations.
Local Open Scope N_scope.

(** ** Harmless characters *)

Lemma harmless_sendable c : harmless c -> is_scalar c /\ c <> 27.
Proof.
  intros [H|[->| ->]]; [|unfold is_scalar; split; lia|unfold is_scalar; split; lia]. inversion H as [|? ? V _]; subst. unfold is_scalar. lia.
Qed.
Lemma visible_harmless s : visible s -> Forall harmless s.
Proof. intros H. eapply Forall_impl; [|exact H]. intros c V. left. constructor; [exact V|constructor]. Qed.
Lemma ink_text st s : map snd (ink st s) = s.
Proof. unfold ink. rewrite map_map. cbn [snd]. apply map_id. Qed.
Lemma between_harmless lo hi ls : Forall (line_between lo hi) ls -> Forall harmless (map snd (render ls)).
Proof.
  intros H. induction H as [|l ls L H IH]; [constructor|]. unfold render in *. cbn [flat_map]. rewrite map_app. apply Forall_app. split; [|exact IH].
  unfold render_line. rewrite !map_app, ink_text. apply Forall_app. split.
  { apply Forall_forall. intros c Hc. apply repeat_spec in Hc. right. now left. }
  apply Forall_app. split; [|constructor; [right; now right|constructor]].
  assert (V : Forall (fun sp => visible (snd sp)) (l_spans l)) by (destruct L as [->|(_ & _ & V)]; [constructor|exact V]). clear L H IH.
  induction V as [|sp sps V Vs IH]; [constructor|]. cbn [flat_map]. rewrite map_app, ink_text. apply Forall_app. split; [now apply visible_harmless|exact IH].
Qed.
Lemma breakdown_between p masks sort op s ls k : text64 p s -> breakdown masks sort op s ls k -> Forall (line_between 0 k) ls.
Proof.
  intros T H. destruct H as [v M|f ns r r' B P S].
  - destruct (meaning_op op s v M) as [x V]. destruct (value_settles masks op s x V) as (Me & _ & _ & _ & G). apply Me in M. exact (value_between v 0 true (G v M)).
  - destruct (tlv_op masks op s f ns B) as [_ R]. destruct (R p) as [x E]. destruct (tlv_settles p masks op s x T E) as (X & _ & _ & _ & _ & G).
    pose proof (G f ns (proj2 (X f ns) B)) as Ok'. pose proof (forest_ok_data _ Ok') as D. apply C33_processed_block in P; [|assumption].
    pose proof (good_processed ns r Ok' P) as Gr. assert (Gr' : Forall good_node r') by (destruct sort; [now apply (arranged_good r)|now subst r']).
    apply Forall_app. split; [|exact (block_between r' 0 true Gr')].
    destruct f as [[|]|]; [| |constructor]; (constructor; [right; cbn [row l_tabs l_spans]; split; [lia|]; split; [lia|]; constructor; [apply visibleb_ok; vm_compute; reflexivity|constructor; [apply visibleb_ok; vm_compute; reflexivity|constructor]]|constructor; [now left|constructor]]).
Qed.
Lemma message_harmless e : Forall harmless (error_text e ++ [10]).
Proof.
  apply Forall_app. split; [|constructor; [right; now right|constructor]]. apply visible_harmless.
  destruct e as [c n k| | | | | | |]; cbn [error_text]; try (apply visibleb_ok; vm_compute; reflexivity).
  apply visible_app; [apply visibleb_ok; vm_compute; reflexivity|]. apply visible_app; [destruct c; apply visibleb_ok; vm_compute; reflexivity|].
  apply visible_app; [apply visibleb_ok; vm_compute; reflexivity|]. apply visible_app; [apply dec_visible|].
  apply visible_app; [apply visibleb_ok; vm_compute; reflexivity|apply dec_visible].
Qed.

(** ** What a run has printed, even if it stops *)

Lemma screen_app a b : forall st, screen st (a ++ b) = screen st a ++ screen (style_after st a) b.
Proof. induction a as [|[s|c|] a IH]; intros st; cbn [app screen style_after]; [reflexivity| |apply IH|apply IH]. now rewrite IH, app_assoc. Qed.
Lemma header_closed f : closed (evs (header f)).
Proof. destruct f as [[|]|]; [| |constructor]; apply (closed_style header_colour_spec [lit "TLV Format: "]); repeat constructor. Qed.
Lemma run_op_closed {A} (r : res A) d : (forall a, closed (evs (d a))) -> style_after None (o_stdout (run_op r d)) = None.
Proof. intros C. destruct r as [a|e| |]; try reflexivity. cbn. now apply closed_final. Qed.
Lemma run_one_closed p st op s : style_after None (o_stdout (run_one p st op s)) = None.
Proof.
  unfold run_one. destruct (value_result op s) as [r|]; [apply run_op_closed; intros v; apply C56_values_closed|].
  destruct (tlv_result p (set_masking st) op s) as [r|]; [|reflexivity]. apply run_op_closed. intros [f b]. apply (cl_then (header f)); [apply header_closed|apply cl_block].
Qed.
Lemma run_op_below {A} (r : res A) d d' : (forall a, below (d a) (d' a)) -> exists rest, o_stdout (run_op r d') = o_stdout (run_op r d) ++ rest.
Proof. intros B. destruct r as [a|e| |]; try (exists []; reflexivity). cbn. apply B. Qed.
Lemma run_one_below p st op s : text64 p s -> exists rest, o_stdout (run_one (unchecked p) st op s) = o_stdout (run_one p st op s) ++ rest.
Proof.
  intros T. unfold run_one. destruct (value_result op s) as [r|] eqn:V; [apply run_op_below; intros v; apply display_value_below|].
  destruct (tlv_result p (set_masking st) op s) as [r|] eqn:E. 2:{ destruct op; discriminate. }
  destruct (tlv_result (unchecked p) (set_masking st) op s) as [r'|] eqn:E'. 2:{ destruct op; discriminate. }
  destruct (tlv_settles p _ op s r T E) as (X & _ & _ & P & F & _). assert (T' : text64 (unchecked p) s) by exact T.
  destruct (tlv_settles _ _ op s r' T' E') as (X' & _ & _ & P' & F' & _).
  destruct r as [[f ns]|e| |]; try contradiction.
  - assert (R : r' = Ok (f, ns)) by now apply X', X. rewrite R. apply run_op_below. intros [g b]. apply below_then; [apply below_refl|]. apply display_block_below.
  - destruct r' as [[f ns]|e'| |]; try contradiction; [|exists []; reflexivity]. exfalso. assert (K : Err e = Ok (f, ns)) by now apply X, X'. discriminate.
Qed.
Lemma run_one_first p st op s : text64 p s ->
  (exists ls k, breakdown (set_masking st) (set_sort st) op s ls k /\ o_stderr (run_one p st op s) = []
     /\ exists rest, render ls = screen None (o_stdout (run_one p st op s)) ++ rest)
  \/ exists e, refused (set_masking st) op s e /\ complains (run_one p st op s) e.
Proof.
  intros T. destruct (run_one_exact p st op s T) as [(ls & k & B & S & N)|R]; [left|right; exact R]. exists ls, k. split; [assumption|].
  assert (D : fits p k \/ ~ fits p k).
  { unfold fits. destruct (overflow_checks p); [|left; discriminate]. destruct (N.lt_ge_cases k 256) as [H|H]; [left; intros _; exact H|right; intros X; specialize (X eq_refl); lia]. }
  split; [destruct D as [D|D]; [apply (S D)|apply (N D)]|].
  assert (T' : text64 (unchecked p) s) by exact T. destruct (run_one_exact (unchecked p) st op s T') as [(ls' & k' & B' & S' & _)|(e & R & _)].
  2:{ exfalso. exact (breakdown_not_refused p _ _ op s _ _ e T B R). }
  destruct (breakdown_det p _ _ op s _ _ _ _ T B B') as [<- <-]. destruct (S' ltac:(intros X; discriminate X)) as (_ & _ & _ & Sc & _).
  destruct (run_one_below p st op s T) as [rest Q]. rewrite Q, screen_app in Sc. rewrite run_one_closed in Sc. eexists. symmetry. exact Sc.
Qed.

(** C77: the bytes sent to the terminal. *)

(* Whatever the arguments, only visible characters, tabs and line ends are printed, on
   stdout and on stderr, whether or not the run panics. *)
Theorem C77_harmless : forall p e m st, load_settings e m = Ok st -> arguments64 p m ->
  Forall harmless (text_of (o_stdout (run_main p e m))) /\ Forall harmless (o_stderr (run_main p e m)).
Proof.
  intros p e m st L A. destruct (C61_operation m) as [(op & s & C)|N].
  2:{ rewrite (main_none p e m st L N). split; constructor. }
  rewrite (main_chosen p e m st op s L C). pose proof (A op s (proj1 C)) as T.
  destruct (run_one_first p st op s T) as [(ls & k & B & E & rest & R)|(er & R & K)].
  - rewrite E. split; [|constructor]. pose proof (between_harmless 0 k ls (breakdown_between p _ _ op s ls k T B)) as H. rewrite R, map_app in H. apply Forall_app in H. apply H.
  - destruct K as (_ & _ & -> & ->). split; [constructor|apply message_harmless].
Qed.
(* When colours are used. *)
Theorem C77_when : forall v tty c, should_attempt_color v (terminal_choice tty c) = true <-> wants_colours tty (v_term v) (v_no_color v) c.
Proof.
  intros v tty c. unfold wants_colours. destruct c; cbn [terminal_choice should_attempt_color].
  - split; auto.
  - split; auto.
  - split.
    + intros H. right. right. split; [reflexivity|]. destruct tty; [|discriminate]. split; [reflexivity|]. cbn [should_attempt_color] in H. unfold env_allows_color in H.
      destruct (v_term v) as [t|]; [|discriminate]. destruct (leqb t (lit "dumb")) eqn:E; [discriminate|]. split; [now destruct (v_no_color v)|].
      exists t. split; [reflexivity|]. intros ->. assert (X : leqb (lit "dumb") (lit "dumb") = true) by (vm_compute; reflexivity). congruence.
    + intros [H|[H|(_ & -> & N & t & E & D)]]; try discriminate. cbn [should_attempt_color]. unfold env_allows_color. rewrite E, N.
      destruct (leqb t (lit "dumb")) eqn:Q; [|reflexivity]. apply leqb_eq in Q. contradiction.
  - split; [discriminate|]. intros [H|[H|[H _]]]; discriminate.
Qed.
(* A terminal that understands the colours shows the lines of the sheet in their styles, one
   to which no colours are sent shows the same characters; both are left in the plain style. *)
Lemma sheet_sendable p e m st op s ls : load_settings e m = Ok st -> chosen m op s -> text64 p s ->
  sheet (set_masking st) (set_sort st) op s ls -> fits p (deepest ls) ->
  displays (run_main p e m) ls /\ texts_ok (fun c => is_scalar c /\ c <> 27) (o_stdout (run_main p e m)).
Proof.
  intros L C T H F. pose proof (C73_shown p e m st op s ls L C T H F) as D. split; [assumption|]. apply (screen_texts _ _ None).
  destruct D as (_ & _ & _ & -> & _). assert (B := proj2 (C73_sheet p _ _ op s ls (deepest ls) T) (conj H eq_refl)).
  eapply Forall_impl; [exact harmless_sendable|]. exact (between_harmless 0 _ ls (breakdown_between p _ _ op s ls _ T B)).
Qed.
Theorem C77_coloured : forall p e m st op s ls v, load_settings e m = Ok st -> chosen m op s -> text64 p s ->
  sheet (set_masking st) (set_sort st) op s ls -> fits p (deepest ls) -> should_attempt_color v (set_colour st) = true ->
  terminal_shows (stdout_bytes v st (run_main p e m)) (dressed (render ls)).
Proof.
  intros p e m st op s ls v L C T H F W. destruct (sheet_sendable p e m st op s ls L C T H F) as [(_ & _ & _ & S & A) X].
  unfold terminal_shows, stdout_bytes, fresh. rewrite W. change plain_look with (look_of None) at 1. rewrite receives_events by assumption. now rewrite S, A.
Qed.
Theorem C77_uncoloured : forall p e m st op s ls v, load_settings e m = Ok st -> chosen m op s -> text64 p s ->
  sheet (set_masking st) (set_sort st) op s ls -> fits p (deepest ls) -> should_attempt_color v (set_colour st) = false ->
  stdout_bytes v st (run_main p e m) = utf8 (flat_map (fun l => line_text l ++ [10]) ls)
  /\ terminal_shows (stdout_bytes v st (run_main p e m)) (undressed (render ls)) /\ ~ In 27 (stdout_bytes v st (run_main p e m)).
Proof.
  intros p e m st op s ls v L C T H F W. destruct (sheet_sendable p e m st op s ls L C T H F) as [(_ & _ & _ & S & A) X].
  unfold terminal_shows, stdout_bytes, fresh. rewrite W. split; [|split].
  - rewrite (write_plain _ None), S. f_equal. clear. unfold render. induction ls as [|l ls IH]; [reflexivity|]. cbn [flat_map]. rewrite map_app, IH. f_equal.
    unfold render_line, line_text. rewrite !map_app, ink_text. cbn [map snd]. rewrite <- app_assoc. do 2 f_equal.
    induction (l_spans l) as [|sp sps IH']; [reflexivity|]. cbn [flat_map]. now rewrite map_app, IH', ink_text.
  - rewrite (receives_plain _ [] X None). now rewrite S.
  - rewrite (write_plain _ None). apply (screen_texts _ _ None) in X. intros I. unfold utf8 in I. apply in_flat_map in I. destruct I as (c & Hc & I).
    rewrite Forall_forall in X. destruct (X c Hc) as [Sc Ne]. clear - Sc Ne I. unfold is_scalar in Sc. unfold utf8_char in I.
    destruct (c <? 0x80) eqn:C1; [destruct I as [I|[]]; congruence|].
    destruct (c <? 0x800); [|destruct (c <? 0x10000)]; repeat (destruct I as [I|I]; [lia|]); destruct I.
Qed.
(* Even a run that panics has shown a first part of its sheet and leaves the style plain. *)
Theorem C77_panicking : forall p e m st op s ls v, load_settings e m = Ok st -> chosen m op s -> text64 p s ->
  sheet (set_masking st) (set_sort st) op s ls ->
  exists cells rest, terminal_shows (stdout_bytes v st (run_main p e m)) cells
    /\ (if should_attempt_color v (set_colour st) then dressed (render ls) else undressed (render ls)) = cells ++ rest.
Proof.
  intros p e m st op s ls v L C T H. assert (B := proj2 (C73_sheet p _ _ op s ls (deepest ls) T) (conj H eq_refl)). rewrite (main_chosen p e m st op s L C).
  destruct (run_one_first p st op s T) as [(ls' & k & B' & _ & rest & R)|(er & R & _)].
  2:{ exfalso. exact (breakdown_not_refused p _ _ op s _ _ er T B R). }
  destruct (breakdown_det p _ _ op s _ _ _ _ T B B') as [<- _].
  assert (X : texts_ok (fun c => is_scalar c /\ c <> 27) (o_stdout (run_one p st op s))).
  { apply (screen_texts _ _ None). pose proof (between_harmless 0 _ ls (breakdown_between p _ _ op s ls _ T B)) as X. rewrite R, map_app in X. apply Forall_app in X.
    eapply Forall_impl; [exact harmless_sendable|]. apply X. }
  unfold terminal_shows, stdout_bytes, fresh. destruct (should_attempt_color v (set_colour st)).
  - eexists _, (dressed rest). split; [|rewrite R; unfold dressed; apply map_app]. change plain_look with (look_of None) at 1. rewrite receives_events by assumption. now rewrite run_one_closed.
  - eexists _, (undressed rest). split; [|rewrite R; unfold undressed; apply map_app]. now rewrite (receives_plain _ [] X None).
Qed.
(* The whole program. *)
Theorem C77_program : forall p e file l st op s ls v, e_cli_profile e = ProfGlobal -> e_file e = Some file ->
  no_information l -> acceptable l -> in_force (program_layers e file l) (e_tty e) st ->
  said l (OptOperation op) [s] -> text64 p s -> sheet (set_masking st) (set_sort st) op s ls -> fits p (deepest ls) ->
  exists o w c, run_program p e l = Ran o /\ decided (program_layers e file l) "cli_colour" w /\ colour_value w c
    /\ (wants_colours (e_tty e) (v_term v) (v_no_color v) c -> terminal_shows (stdout_bytes v st o) (dressed (render ls)))
    /\ (~ wants_colours (e_tty e) (v_term v) (v_no_color v) c -> terminal_shows (stdout_bytes v st o) (undressed (render ls))).
Proof.
  intros p e file l st op s ls v P Fi N A I S T H F. destruct (proj1 (C71_accepted p e l N) A) as (m & E & D).
  assert (L : load_settings e m = Ok st) by now apply (program_settings e file l). assert (C : chosen m op s) by (apply only_chosen; now apply (described_only l m)).
  destruct I as (v1 & _ & _ & c & D1 & V1 & Sc & _). exists (run_main p e m), v1, c. split; [assumption|]. split; [assumption|]. split; [assumption|].
  pose proof (C77_when v (e_tty e) c) as W. rewrite <- Sc in W. split; intros Q.
  - apply (C77_coloured p e m st op s ls); try assumption. now apply W.
  - apply (C77_uncoloured p e m st op s ls); try assumption. destruct (should_attempt_color v (set_colour st)); [|reflexivity]. exfalso. apply Q. now apply W.
Qed.
Definition with_tsi (s : str) : matches := mkMatches None None None (Some s) None None None None None None None None None None None.
Example C77_example : let m := with_tsi (lit "80 00") in let v := mkVars (Some (lit "xterm")) false in
  exists st ls, load_settings plain_env m = Ok st /\ chosen m OpTsi (lit "80 00") /\ arguments64 p64 m
  /\ sheet (set_masking st) (set_sort st) OpTsi (lit "80 00") ls /\ fits p64 (deepest ls)
  /\ should_attempt_color v (set_colour st) = true /\ should_attempt_color (mkVars (Some (lit "xterm")) true) (set_colour st) = false
  /\ stdout_bytes v st (run_main p64 plain_env m) = [27; 91; 48; 109; 27; 91; 49; 109] ++ lit "10000000 00000000" ++ [10; 27; 91; 48; 109]
       ++ [0xE2; 0x94; 0x94; 32; 27; 91; 48; 109] ++ lit "Offline data authentication was performed" ++ [10; 27; 91; 48; 109].
Proof.
  cbn zeta. eexists (mkSettings TAuto [42] true), _. split; [vm_compute; reflexivity|]. split; [split; [reflexivity|]; exists [OpTvr; OpIad; OpCvr], [OpCvmResults; OpCvmList; OpIdentify; OpAuto; OpBer; OpIngenico; OpServiceCode]; split; [reflexivity|repeat constructor]|].
  split; [intros op s H; destruct op; try discriminate H; injection H as <-; split; [reflexivity|vm_compute; reflexivity]|].
  split; [apply (sheet_value _ _ _ _ (bits_picture 2 tsi_bits tsi_used)); [cbn; tauto|vm_compute; reflexivity]|]. split; [intros _; vm_compute; reflexivity|].
  split; [reflexivity|]. split; [reflexivity|]. vm_compute. reflexivity.
Qed.
