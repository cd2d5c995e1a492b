(** The property of output with colours that is read by other programs. *)

From Coq Require Import ZArith NArith Ascii String List Bool Lia ZifyN ZifyBool ZifyNat Permutation Sorting.
From Verif Require Import Base ModelUtil ModelEnums ModelBitflag ModelSchemas ModelTags ModelTlv ModelValues ModelProcess ModelDisplay
  SpecUtil SpecCodes SpecValues SpecTlv SpecIngenico SpecTags SpecProcess SpecDisplay
  ProofsUtil ProofsGrammar ProofsBer ProofsIngenico ProofsValues PropertiesValues
  PropertiesBer PropertiesIngenico ProofsProcess PropertiesProcess ProofsDisplay ProofsDiagram ProofsScreens ProofsLayout PropertiesDisplay
  SpecPictures ProofsPictures ModelMain SpecMain ProofsMain PropertiesMain ModelCli SpecCli ProofsCli PropertiesCli PropertiesPictures
  SpecReading PropertiesReading ModelTerminal SpecTerminal ProofsTerminal PropertiesTerminal SpecScope PropertiesScope PropertiesRuns SpecStrip.
Import ListNotations.
Local Open Scope N_scope.

(** ** Stripping *)

Lemma strip_app a a' b b' : stripped a a' -> stripped b b' -> stripped (a ++ b) (a' ++ b').
Proof. intros A B. induction A as [|x l r N A IH|ps l r F A IH]; [exact B|now apply stripped_byte|]. cbn [app]. rewrite <- app_assoc. cbn [app]. now apply stripped_sequence. Qed.
Lemma strip_text l : ~ In 27 l -> stripped l l.
Proof. induction l as [|b l IH]; intros N; [constructor|]. cbn [In] in N. apply stripped_byte; [intros ->; tauto|apply IH; tauto]. Qed.
Lemma strip_reset : stripped write_reset [].
Proof. apply (stripped_sequence [48] [] []); [repeat constructor; lia|constructor]. Qed.
Lemma strip_spec c : stripped (write_spec c) [].
Proof.
  unfold write_spec. apply (strip_app _ [] _ []); [apply strip_reset|]. apply (strip_app _ [] _ []).
  - destruct (cs_bold c); [|constructor]. apply (stripped_sequence [49] [] []); [repeat constructor; lia|constructor].
  - destruct (cs_fg c) as [f|]; [|constructor]. apply (stripped_sequence [51; color_digit f] [] []); [repeat constructor; destruct f; cbn; lia|constructor].
Qed.
Lemma no_escape s : Forall (fun c => is_scalar c /\ c <> 27) s -> ~ In 27 (utf8 s).
Proof.
  intros X I. unfold utf8 in I. apply in_flat_map in I. destruct I as (c & Hc & I). rewrite Forall_forall in X. destruct (X c Hc) as [_ Ne]. destruct (N.lt_ge_cases c 128) as [L|L].
  - rewrite (utf8_char_ascii c L) in I. destruct I as [I|[]]. congruence.
  - pose proof (utf8_char_high c L) as H. rewrite Forall_forall in H. specialize (H _ I). lia.
Qed.
Lemma strip_events b l : texts_ok (fun c => is_scalar c /\ c <> 27) l -> forall st, stripped (write_events b l) (utf8 (map snd (screen st l))).
Proof.
  unfold texts_ok, write_events. intros T. induction T as [|x l X T IH]; intros st; [constructor|]. cbn [flat_map screen]. destruct x as [s|c|]; cbn [write_event].
  - rewrite map_app, ink_text. unfold utf8 at 2. rewrite flat_map_app. apply strip_app; [apply strip_text; now apply no_escape|apply IH].
  - apply (strip_app _ []); [destruct b; [apply strip_spec|constructor]|apply IH].
  - apply (strip_app _ []); [destruct b; [apply strip_reset|constructor]|apply IH].
Qed.
(* Stripping has one result. *)
Lemma parameters_end ps ps' l l' : Forall (fun b => 48 <= b <= 57 \/ b = 59) ps -> Forall (fun b => 48 <= b <= 57 \/ b = 59) ps' -> ps ++ 109 :: l = ps' ++ 109 :: l' -> l = l'.
Proof.
  revert ps'. induction ps as [|x ps IH]; intros [|y ps'] F F' E; cbn [app] in E.
  - now injection E.
  - injection E as E1 E2. inversion F'; subst; lia.
  - injection E as E1 E2. inversion F; subst; lia.
  - injection E as E1 E2. inversion F; inversion F'; subst. now apply (IH ps').
Qed.
Lemma strip_unique l r : stripped l r -> forall r', stripped l r' -> r = r'.
Proof.
  induction 1 as [|b l r N A IH|ps l r F A IH]; intros r' B.
  - now inversion B.
  - inversion B; subst; [f_equal; now apply IH|congruence].
  - inversion B as [|b l0 r0 N B'|ps' l0 r0 F' B' E]; subst; [congruence|]. apply IH. now rewrite (parameters_end ps ps' l l0 F F') by congruence.
Qed.
Lemma strip_clean l r : stripped l r -> ~ In 27 r.
Proof. induction 1 as [|b l r N A IH|ps l r F A IH]; [intros []| |exact IH]. intros [E|I]; [now apply N|now apply IH]. Qed.
Lemma existsb_eqb_In x l : existsb (N.eqb x) l = true -> In x l.
Proof. intros H. apply existsb_exists in H. destruct H as (y & I & E). apply N.eqb_eq in E. now subst y. Qed.
(* Sequences have no line ends. *)
Lemma lines_shape l : exists h t, byte_lines l = h :: t.
Proof. induction l as [|b l (h & t & E)]; cbn [byte_lines]; [eauto|]. destruct (b =? 10); [eauto|]. rewrite E. eauto. Qed.
Lemma lines_app x l h t : ~ In 10 x -> byte_lines l = h :: t -> byte_lines (x ++ l) = (x ++ h) :: t.
Proof. intros N E. induction x as [|b x IH]; [exact E|]. cbn [In] in N. cbn [app byte_lines]. rewrite IH by tauto. destruct (N.eqb_spec b 10); [tauto|reflexivity]. Qed.
Lemma strip_lines l r : stripped l r -> Forall2 stripped (byte_lines l) (byte_lines r).
Proof.
  induction 1 as [|b l r N A IH|ps l r F A IH].
  - repeat constructor.
  - cbn [byte_lines]. destruct (N.eqb_spec b 10); [repeat constructor; exact IH|]. destruct (lines_shape l) as (h & t & E), (lines_shape r) as (h' & t' & E'). rewrite E, E' in *. inversion IH; subst. constructor; [now apply stripped_byte|assumption].
  - destruct (lines_shape l) as (h & t & E), (lines_shape r) as (h' & t' & E'). change (27 :: 91 :: ps ++ 109 :: l) with ([27; 91] ++ ps ++ [109] ++ l). rewrite !app_assoc. rewrite (lines_app _ l h t); [|..|exact E].
    + rewrite E, E' in IH. rewrite E'. inversion IH; subst. constructor; [|assumption]. rewrite <- !app_assoc. cbn [app]. now apply stripped_sequence.
    + intros I. rewrite !in_app_iff in I. cbn [In] in I. destruct I as [[I|I]|I]; [lia| |lia]. rewrite Forall_forall in F. specialize (F _ I). lia.
Qed.

(** C131: output with colours read by other programs. *)
(* Whatever the run, without the colour sequences stdout is the text that was printed. *)
Theorem C131_text : forall p e m st v, load_settings e m = Ok st -> arguments64 p m ->
  stripped (stdout_bytes v st (run_main p e m)) (utf8 (text_of (o_stdout (run_main p e m))))
  /\ forall r, stripped (stdout_bytes v st (run_main p e m)) r -> r = utf8 (text_of (o_stdout (run_main p e m))).
Proof.
  intros p e m st v L A. assert (X : stripped (stdout_bytes v st (run_main p e m)) (utf8 (text_of (o_stdout (run_main p e m))))).
  { unfold stdout_bytes, text_of. apply strip_events. apply (screen_texts _ _ None). eapply Forall_impl; [exact harmless_sendable|]. exact (proj1 (C77_harmless p e m st L A)). }
  split; [exact X|]. intros r R. now apply (strip_unique _ _ R).
Qed.
(* Messages on stderr have none. *)
Theorem C131_message : forall p e m st, load_settings e m = Ok st -> arguments64 p m -> stripped (stderr_bytes (run_main p e m)) (stderr_bytes (run_main p e m)).
Proof.
  intros p e m st L A. apply strip_text, no_escape. eapply Forall_impl; [exact harmless_sendable|]. exact (proj2 (C77_harmless p e m st L A)).
Qed.
(* Stdout is then what the same call prints without colours, and line k of the one is line k of the other. *)
Theorem C131_settings : forall p e m st v e' m' st' v', load_settings e m = Ok st -> load_settings e' m' = Ok st' -> arguments64 p m -> same_operations m m' ->
  set_masking st = set_masking st' -> set_sort st = set_sort st' -> should_attempt_color v' (set_colour st') = false ->
  stripped (stdout_bytes v st (run_main p e m)) (stdout_bytes v' st' (run_main p e' m'))
  /\ Forall2 stripped (byte_lines (stdout_bytes v st (run_main p e m))) (byte_lines (stdout_bytes v' st' (run_main p e' m'))).
Proof.
  intros p e m st v e' m' st' v' L L' A S M O W. assert (X : stripped (stdout_bytes v st (run_main p e m)) (stdout_bytes v' st' (run_main p e' m'))).
  { rewrite <- (C93_colour p e m st e' m' st' L L' S M O). unfold stdout_bytes at 2. rewrite W, (write_plain _ None). exact (proj1 (C131_text p e m st v L A)). }
  split; [exact X|]. now apply strip_lines.
Qed.
(* For a sheet: the lines of stdout are, without the sequences, those of the sheet. *)
Theorem C131_sheet : forall p e m st op s ls v, shows p e m st op s ls ->
  stripped (stdout_bytes v st (run_main p e m)) (utf8 (flat_map (fun l => line_text l ++ [10]) ls))
  /\ Forall2 stripped (byte_lines (stdout_bytes v st (run_main p e m))) (byte_lines (utf8 (flat_map (fun l => line_text l ++ [10]) ls))).
Proof.
  intros p e m st op s ls v (L & C & T & H & F). assert (X : stripped (stdout_bytes v st (run_main p e m)) (utf8 (flat_map (fun l => line_text l ++ [10]) ls))).
  { destruct (sheet_sendable p e m st op s ls L C T H F) as [(_ & _ & _ & S & _) Y].
    assert (E : text_of (o_stdout (run_main p e m)) = flat_map (fun l => line_text l ++ [10]) ls).
    { unfold text_of. rewrite S. clear. unfold render. induction ls as [|l ls IH]; [reflexivity|]. cbn [flat_map]. rewrite map_app, IH. f_equal.
      unfold render_line, line_text. rewrite !map_app, ink_text. cbn [map snd]. rewrite <- app_assoc. do 2 f_equal.
      induction (l_spans l) as [|sp sps IH']; [reflexivity|]. cbn [flat_map]. now rewrite map_app, IH', ink_text. }
    rewrite <- E. unfold stdout_bytes. now apply strip_events. }
  split; [exact X|]. now apply strip_lines.
Qed.
(* Searching the output with colours for what stands in a line without them may fail: the sequences stand between the words. *)
Fixpoint foundb (x l : list N) : bool := leqb x (firstn (List.length x) l) || match l with [] => false | _ :: t => foundb x t end.
Lemma found_check x l : found x l -> foundb x l = true.
Proof.
  intros (a & b & ->). induction a as [|y a IH]; cbn [app].
  - assert (X : leqb x (firstn (List.length x) (x ++ b)) = true) by (rewrite firstn_app, Nat.sub_diag, firstn_all, app_nil_r; apply leqb_refl). destruct (x ++ b); cbn [foundb]; now rewrite X.
  - cbn [foundb]. rewrite IH. apply orb_true_r.
Qed.
Theorem C131_found_refuted : exists p e m st v x, load_settings e m = Ok st /\ arguments64 p m /\ found x (utf8 (text_of (o_stdout (run_main p e m)))) /\ ~ found x (stdout_bytes v st (run_main p e m)).
Proof.
  exists p64r, plain_env, (with_ber (lit "8A023030")), (mkSettings TAuto [42] true), (mkVars (Some (lit "xterm")) false), (lit "Tag: 0x8A"). split; [now apply plain_settings|]. split; [|split].
  - intros op s G. destruct op; cbn in G; try discriminate G. injection G as <-. split; vm_compute; reflexivity.
  - exists []. eexists. vm_compute. reflexivity.
  - intros H. apply found_check in H. revert H. vm_compute. discriminate.
Qed.
(* Output with colours cannot be cut at every line end, as head does: some lines end inside their colour, and the terminal keeps it. *)
Theorem C131_head_refuted : exists p e m st v x y, load_settings e m = Ok st /\ arguments64 p m /\ stdout_bytes v st (run_main p e m) = x ++ 10 :: y /\ t_look (receives fresh (x ++ [10])) <> plain_look
  /\ t_look (receives fresh (stdout_bytes v st (run_main p e m))) = plain_look.
Proof.
  set (o := stdout_bytes (mkVars (Some (lit "xterm")) false) (mkSettings TAuto [42] true) (run_main p64r plain_env (with_ber (lit "8A023030")))).
  set (n := (List.length (nth 0 (byte_lines o) []) + 1 + List.length (nth 1 (byte_lines o) []))%nat).
  exists p64r, plain_env, (with_ber (lit "8A023030")), (mkSettings TAuto [42] true), (mkVars (Some (lit "xterm")) false), (firstn n o), (skipn (n + 1) o). split; [now apply plain_settings|]. split; [|split; [|split]].
  - intros op s G. destruct op; cbn in G; try discriminate G. injection G as <-. split; vm_compute; reflexivity.
  - vm_compute. reflexivity.
  - vm_compute. discriminate.
  - vm_compute. reflexivity.
Qed.
(* A run with colours: its lines without the sequences. *)
Example C131_example : exists ls, shows p64r plain_env (with_ber (lit "8A023030")) (mkSettings TAuto [42] true) OpBer (lit "8A023030") ls
  /\ stdout_bytes (mkVars (Some (lit "xterm")) false) (mkSettings TAuto [42] true) (run_main p64r plain_env (with_ber (lit "8A023030"))) <> utf8 (flat_map (fun l => line_text l ++ [10]) ls).
Proof.
  destruct (shown_ber (lit "8A023030")) as (ls & W); [split; vm_compute; reflexivity|vm_compute; reflexivity|]. exists ls. split; [exact W|]. intros E.
  pose proof (strip_clean _ _ (proj1 (C131_sheet _ _ _ _ _ _ _ (mkVars (Some (lit "xterm")) false) W))) as N. rewrite <- E in N. apply N. apply (existsb_eqb_In 27). vm_compute. reflexivity.
Qed.
