(** The properties of a run whose stdout or stderr may fail. *)

From Coq Require Import ZArith NArith List String Ascii Bool Lia ZifyN ZifyBool ZifyNat Permutation Sorting PeanoNat.
From Verif Require Import Base ModelUtil ModelEnums ModelBitflag ModelSchemas ModelTags ModelTlv ModelValues ModelProcess ModelDisplay
  SpecUtil SpecCodes SpecValues SpecTlv SpecIngenico SpecTags SpecProcess SpecDisplay
  ProofsUtil ProofsValues PropertiesUtil PropertiesProcess PropertiesBer ProofsDisplay ProofsScreens ProofsLayout PropertiesDisplay SpecPictures ProofsPictures
  ModelMain SpecMain ProofsMain PropertiesMain PropertiesPictures ModelCli SpecCli ProofsCli PropertiesCli
  ModelTerminal SpecTerminal ProofsTerminal PropertiesTerminal ModelStdout SpecStdout ProofsStdout.
Import ListNotations.
Local Open Scope N_scope.

(** ** The text of a sheet *)

Definition text (ls : list line) : str := map snd (render ls).
Lemma text_ends ls : text ls = [] \/ exists t, text ls = t ++ [10].
Proof.
  unfold text. induction ls as [|l ls IH]; [now left|]. right. unfold render in *. cbn [flat_map]. rewrite map_app. destruct IH as [->|(t & ->)].
  - rewrite app_nil_r. unfold render_line. rewrite !map_app. cbn [map snd]. rewrite app_assoc. now eexists.
  - rewrite app_assoc. now eexists.
Qed.

Lemma speakable_ok l : texts_ok (fun c => is_scalar c /\ c <> 27) l -> Forall speakable l.
Proof. apply Forall_impl. intros [s| |]; trivial. Qed.

(* The message. *)
Lemma stderr_did dev ps : forall s s' ok, s_buffer s = [] -> write_stderr dev s ps = (s', ok) ->
  exists x, did dev s (List.concat ps) s' ok x /\ s_buffer s' = [].
Proof.
  induction ps as [|b ps IH]; intros s s' ok E H; cbn [write_stderr List.concat] in *.
  - injection H as <- <-. exists []. split; [apply did_nothing|assumption].
  - destruct (write_raw dev s b) as [s1 ok1] eqn:W. destruct (write_raw_did _ _ _ _ _ E W) as (x & D & E1). destruct ok1.
    + destruct (IH _ _ _ E1 H) as (y & D' & E2). exists (b ++ y). split; [exact (did_then _ _ _ _ _ _ _ _ _ D D')|assumption].
    + injection H as <- <-. exists x. split; [now apply did_stop|assumption].
Qed.
Lemma stderr_lost dev ps : forall s s', s_buffer s = [] -> write_stderr dev s ps = (s', false) -> lost s (List.concat ps) s'.
Proof.
  induction ps as [|b ps IH]; intros s s' E H; cbn [write_stderr List.concat] in *; [discriminate|].
  destruct (write_raw dev s b) as [s1 ok1] eqn:W. destruct (write_raw_did _ _ _ _ _ E W) as (x & D & E1). destruct ok1.
  - exact (lost_after _ _ _ _ _ _ _ D (IH _ _ E1 H)).
  - injection H as <-. apply lost_before. exact (write_raw_lost _ _ _ _ E W).
Qed.
Lemma silent dev ps : forall s, List.concat ps = [] -> write_stderr dev s ps = (s, true).
Proof.
  induction ps as [|b ps IH]; intros s E; cbn [write_stderr List.concat] in *; [reflexivity|]. apply app_eq_nil in E. destruct E as (-> & E). cbn. now apply IH.
Qed.

Lemma taken_at_end dev s : exists w, s_buffer s = w ++ s_buffer (fst (flush_buf dev s)) /\ sent s = sent (fst (flush_buf dev s)).
Proof.
  destruct (flush_buf dev s) as [s' ok] eqn:F. destruct (flush_did _ _ _ _ F) as (D & _ & w & W). exists w. cbn [fst]. split; [assumption|].
  rewrite (did_sent _ _ _ _ _ _ D). now rewrite app_nil_r.
Qed.

(** C89: a stdout that fails. *)

(* The writes of a run, whatever pieces [print!] and [eprintln!] write their texts in. *)
Definition writes (colours : bool) (o : outcome) (actions : list action) (message : list (list N)) : Prop :=
  Forall2 (acts colours) (o_stdout o) actions /\ List.concat message = stderr_bytes o.

Section Shown.
Context (p : platform) (e : environment) (m : matches) (st : settings) (op : operation) (s : str) (ls : list line) (v : term_vars).
Context (L : load_settings e m = Ok st) (C : chosen m op s) (T : text64 p s) (H : sheet (set_masking st) (set_sort st) op s ls) (F : fits p (deepest ls)).
Context (actions : list action) (message : list (list N)).
Context (W : writes (should_attempt_color v (set_colour st)) (run_main p e m) actions message).

Lemma shown_delivery out err : deliver out err (run_main p e m) actions message
  = let '(x, printed) := perform out new_stream actions in mkDelivery (s_taken (fst (flush_buf out x))) [] (if printed then 0 else 101).
Proof.
  destruct (C73_shown p e m st op s ls L C T H F) as (P & _ & E & _). destruct W as (_ & M). unfold stderr_bytes in M. rewrite E in M.
  unfold deliver. destruct (perform out new_stream actions) as [x [|]]; cbn [negb]; [|reflexivity]. rewrite P, silent by exact M. reflexivity.
Qed.
Lemma shown_spoken : spoken (o_stdout (run_main p e m)) = text ls /\ Forall speakable (o_stdout (run_main p e m)).
Proof.
  destruct (sheet_sendable p e m st op s ls L C T H F) as [(_ & _ & _ & S & _) X]. split; [|now apply speakable_ok].
  unfold text. now rewrite <- S, spoken_screen.
Qed.

(* What the terminal shows is always a beginning of the text, and if the status is 0 all of it. *)
Lemma shown_text out err : let d := deliver out err (run_main p e m) actions message in
  (exists rest, text ls = characters (d_stdout d) ++ rest) /\ (d_status d = 0 -> characters (d_stdout d) = text ls)
  /\ (d_status d = 0 \/ d_status d = 101) /\ d_stderr d = [].
Proof.
  cbn zeta. rewrite shown_delivery. destruct (perform out new_stream actions) as [x ok] eqn:P. cbn [d_status d_stdout d_stderr].
  destruct shown_spoken as (S & K). destruct W as (A & _).
  destruct (perform_thinned out actions new_stream x ok (acts_small _ _ _ A) ltac:(intros []) P) as (z & rest & Th & E & O). cbn [sent new_stream s_taken s_buffer app] in E.
  pose proof (thinned_says _ _ _ A z K Th) as Sz. rewrite S in Sz.
  destruct (taken_at_end out x) as (w & Bw & Es). set (x' := fst (flush_buf out x)) in *. rewrite Es in E. unfold sent in E. rewrite <- app_assoc in E.
  assert (Pre : exists r, text ls = characters (s_taken x') ++ r).
  { rewrite <- (says_shown _ _ Sz), E. apply characters_grow. }
  split; [exact Pre|]. split; [|split; [destruct ok; auto|reflexivity]].
  intros Ok. destruct ok; [|discriminate]. destruct (O eq_refl) as (-> & N). rewrite app_nil_r in E.
  destruct (text_ends ls) as [E0|(t & E0)].
  - destruct Pre as (r & R). rewrite E0 in *. symmetry in R. apply app_eq_nil in R. apply R.
  - rewrite E0 in S. destruct (thinned_last _ _ _ A z t K Th S) as (z1 & z2 & Z & S1 & S2). rewrite E0, <- S.
    apply (tail_unseen z1 z2 _ _ (s_buffer x')); try assumption; [now rewrite <- Z|]. intros I. apply N. rewrite Bw. apply in_or_app. now right.
Qed.

(* On a device that stays broken, the status tells whether all of it is there. *)
Lemma shown_honest out err : for_good out -> let d := deliver out err (run_main p e m) actions message in
  (d_status d = 0 <-> characters (d_stdout d) = text ls) /\ exists rest, stdout_bytes v st (run_main p e m) = d_stdout d ++ rest.
Proof.
  intros G. cbn zeta. split.
  - split; [apply shown_text|]. rewrite shown_delivery. destruct (perform out new_stream actions) as [x ok] eqn:P. cbn [d_status d_stdout]. destruct ok; [reflexivity|].
    intros E. exfalso. destruct shown_spoken as (S & K). destruct W as (A & _). pose proof (lost_characters _ _ out actions x A K P) as Lt.
    assert (B : broken out x). { destruct (perform_on_the_way out actions G (acts_small _ _ _ A) new_stream x false [] ltac:(intros []) P (or_introl eq_refl)) as (_ & B). exact (B eq_refl). }
    destruct (flush_buf out x) as [x' ok'] eqn:Fl. destruct (flush_did _ _ _ _ Fl) as (D & _). cbn [fst] in E. rewrite (did_good _ _ _ _ _ _ D G B) in E. rewrite E, S in Lt. lia.
  - rewrite shown_delivery. destruct (perform out new_stream actions) as [x ok] eqn:P. cbn [d_stdout]. destruct W as (A & _).
    destruct (perform_on_the_way out actions G (acts_small _ _ _ A) new_stream x ok [] ltac:(intros []) P (or_introl eq_refl)) as (Q & _). cbn [app] in Q.
    destruct (flush_buf out x) as [x' ok'] eqn:Fl. destruct (flush_did _ _ _ _ Fl) as (D & _). cbn [fst].
    pose proof (did_on_the_way _ _ _ _ _ _ _ G D Q) as Q'. rewrite app_nil_r, (acts_bytes _ _ _ A) in Q'. unfold stdout_bytes.
    destruct Q' as [Q'|(_ & r & Q')]; [|now exists r]. exists (s_buffer x'). now rewrite <- Q'.
Qed.
Lemma shown_plain out err : should_attempt_color v (set_colour st) = false -> let d := deliver out err (run_main p e m) actions message in
  d_status d = 0 -> d_stdout d = stdout_bytes v st (run_main p e m).
Proof.
  intros U. cbn zeta. rewrite shown_delivery. destruct (perform out new_stream actions) as [x ok] eqn:P. cbn [d_status d_stdout]. destruct ok; [|discriminate]. intros _.
  destruct shown_spoken as (S & K). destruct W as (A & _).
  assert (Co : forall ps, In (Colour ps) actions -> ps = []).
  { intros ps I. rewrite U in A. clear - A I. induction A as [|ev a evs l A _ IH]; [destruct I|]. destruct I as [->|I]; [|now apply IH]. now inversion A. }
  pose proof (perform_plain out actions Co new_stream x true ltac:(intros []) P eq_refl) as Q. cbn [sent new_stream s_taken s_buffer app] in Q.
  rewrite (acts_bytes _ _ _ A) in Q. unfold stdout_bytes.
  destruct (perform_thinned out actions new_stream x true (acts_small _ _ _ A) ltac:(intros []) P) as (z & r0 & _ & _ & O). destruct (O eq_refl) as (_ & N). clear z r0 O.
  destruct (taken_at_end out x) as (w & Bw & Es). set (x' := fst (flush_buf out x)) in *.
  assert (Nx : ~ In 10 (s_buffer x')) by (intros I; apply N; rewrite Bw; apply in_or_app; now right).
  rewrite Es in Q. unfold sent in Q. rewrite <- Q. destruct (s_buffer x') as [|b r] eqn:Bx using rev_ind; [now rewrite app_nil_r|].
  exfalso. clear IHr. rewrite U, (write_plain _ None) in Q. rewrite (spoken_screen _ None), S in Q. destruct (text_ends ls) as [E0|(t & E0)]; rewrite E0 in Q.
  - apply app_eq_nil in Q. destruct Q as (_ & Q). destruct r; discriminate.
  - rewrite utf8_snoc, app_assoc in Q. apply app_inj_tail in Q. destruct Q as (_ & ->). apply Nx. apply in_or_app. right. now left.
Qed.
Lemma shown_dependable out err : dependable out -> deliver out err (run_main p e m) actions message = mkDelivery (stdout_bytes v st (run_main p e m)) [] 0.
Proof.
  intros G. rewrite shown_delivery. destruct (perform out new_stream actions) as [x ok] eqn:P. destruct W as (A & _).
  destruct (perform_dependable out actions G (acts_small _ _ _ A) new_stream x ok ltac:(intros []) P) as (-> & Q). cbn [sent new_stream s_taken s_buffer app] in Q.
  destruct (flush_buf out x) as [x' ok'] eqn:Fl. destruct (flush_did _ _ _ _ Fl) as (D & E & _). cbn [fst].
  destruct ok'; [|exfalso; exact (dependable_not_broken _ _ G (did_fail _ _ _ _ _ _ D eq_refl))].
  f_equal. pose proof (did_sent _ _ _ _ _ _ D) as R. rewrite Q, app_nil_r in R. unfold sent in R. rewrite (E eq_refl), app_nil_r in R. rewrite R. exact (acts_bytes _ _ _ A).
Qed.
End Shown.

(* Whatever stdout does, the terminal shows a beginning of the text, and all of it if the
   status is 0. *)
Theorem C89_shown : forall p e m st op s ls v, load_settings e m = Ok st -> chosen m op s -> text64 p s ->
  sheet (set_masking st) (set_sort st) op s ls -> fits p (deepest ls) ->
  forall actions message out err, writes (should_attempt_color v (set_colour st)) (run_main p e m) actions message ->
  let d := deliver out err (run_main p e m) actions message in
  (exists rest, map snd (render ls) = characters (d_stdout d) ++ rest) /\ (d_status d = 0 -> characters (d_stdout d) = map snd (render ls))
  /\ (d_status d = 0 \/ d_status d = 101) /\ d_stderr d = [].
Proof. intros p e m st op s ls v L C T H F actions message out err W. exact (shown_text p e m st op s ls v L C T H F actions message W out err). Qed.
(* If stdout stays broken once it is broken, the status is 0 exactly if all of the text is
   there, and nothing is sent out of order. *)
Theorem C89_honest : forall p e m st op s ls v, load_settings e m = Ok st -> chosen m op s -> text64 p s ->
  sheet (set_masking st) (set_sort st) op s ls -> fits p (deepest ls) ->
  forall actions message out err, writes (should_attempt_color v (set_colour st)) (run_main p e m) actions message -> for_good out ->
  let d := deliver out err (run_main p e m) actions message in
  (d_status d = 0 <-> characters (d_stdout d) = map snd (render ls)) /\ exists rest, stdout_bytes v st (run_main p e m) = d_stdout d ++ rest.
Proof. intros p e m st op s ls v L C T H F actions message out err W G. exact (shown_honest p e m st op s ls v L C T H F actions message W out err G). Qed.
(* Without colours, a status of 0 means that every byte was taken. *)
Theorem C89_uncoloured : forall p e m st op s ls v, load_settings e m = Ok st -> chosen m op s -> text64 p s ->
  sheet (set_masking st) (set_sort st) op s ls -> fits p (deepest ls) ->
  forall actions message out err, writes (should_attempt_color v (set_colour st)) (run_main p e m) actions message ->
  should_attempt_color v (set_colour st) = false ->
  let d := deliver out err (run_main p e m) actions message in d_status d = 0 -> d_stdout d = stdout_bytes v st (run_main p e m).
Proof. intros p e m st op s ls v L C T H F actions message out err W G. exact (shown_plain p e m st op s ls v L C T H F actions message W out err G). Qed.
(* A stdout that takes something at every call, however little, gets everything. *)
Theorem C89_dependable : forall p e m st op s ls v, load_settings e m = Ok st -> chosen m op s -> text64 p s ->
  sheet (set_masking st) (set_sort st) op s ls -> fits p (deepest ls) ->
  forall actions message out err, writes (should_attempt_color v (set_colour st)) (run_main p e m) actions message -> dependable out ->
  deliver out err (run_main p e m) actions message = mkDelivery (stdout_bytes v st (run_main p e m)) [] 0.
Proof. intros p e m st op s ls v L C T H F actions message out err W G. exact (shown_dependable p e m st op s ls v L C T H F actions message W out err G). Qed.
(* A refused argument: nothing on stdout; the status is 0 exactly if all of the message was
   taken, which otherwise is cut short. *)
Theorem C89_refused : forall p e m st op s er colours, load_settings e m = Ok st -> chosen m op s -> text64 p s -> refused (set_masking st) op s er ->
  forall actions message out err, writes colours (run_main p e m) actions message ->
  let d := deliver out err (run_main p e m) actions message in
  d_stdout d = [] /\ (exists rest, utf8 (error_text er ++ [10]) = d_stderr d ++ rest)
  /\ (d_status d = 0 \/ d_status d = 101) /\ (d_status d = 0 <-> d_stderr d = utf8 (error_text er ++ [10])) /\ (dependable err -> d_status d = 0).
Proof.
  intros p e m st op s er colours L C T R actions message out err (A & M) d.
  destruct (C61_refused p e m st op s er L C T R) as (P & _ & O & E). rewrite O in A. inversion A; subst. unfold stderr_bytes in M. rewrite E in M.
  subst d. unfold deliver. cbn [perform negb]. rewrite P. cbn [flush_buf new_stream s_buffer List.length raw_all fst s_taken]. destruct (write_stderr err new_stream message) as [t ok] eqn:Q.
  destruct (stderr_did _ _ new_stream _ _ eq_refl Q) as (x & D & B). cbn [d_stdout d_stderr d_status]. rewrite M in D.
  pose proof (did_sent _ _ _ _ _ _ D) as Sx. unfold sent in Sx. rewrite B, app_nil_r in Sx. cbn [new_stream s_taken s_buffer app] in Sx.
  split; [reflexivity|]. split; [destruct (did_some _ _ _ _ _ _ D) as (y & Y); exists y; now rewrite Sx|]. split; [destruct ok; auto|]. split; [|].
  - destruct ok.
    + split; [|reflexivity]. intros _. rewrite Sx. exact (did_all _ _ _ _ _ _ D eq_refl).
    + split; [discriminate|]. intros K. exfalso. destruct (stderr_lost _ _ new_stream _ eq_refl Q) as (u & y & r & U & Y & G). cbn [sent new_stream s_taken s_buffer app] in G. rewrite M in U.
      rewrite K in G. rewrite U in G at 1. clear - Y G. assert (L := f_equal (@List.length N) G). rewrite !app_length in L. destruct y; [now destruct Y|cbn [List.length] in L; lia].
  - intros G. destruct ok; [reflexivity|]. exfalso. exact (dependable_not_broken _ _ G (did_fail _ _ _ _ _ _ D eq_refl)).
Qed.
(* In every run, also one that panics in the middle, the terminal shows a beginning of what
   has been printed; after a panic the status is 101. *)
Theorem C89_any : forall p e m st colours, load_settings e m = Ok st -> arguments64 p m ->
  forall actions message out err, writes colours (run_main p e m) actions message ->
  let d := deliver out err (run_main p e m) actions message in
  (exists rest, text_of (o_stdout (run_main p e m)) = characters (d_stdout d) ++ rest)
  /\ (d_status d = 0 \/ d_status d = 101) /\ (o_panic (run_main p e m) = true -> d_status d = 101).
Proof.
  intros p e m st colours L A64 actions message out err (A & _) d. destruct (C77_harmless p e m st L A64) as (Hm & _).
  assert (K : Forall speakable (o_stdout (run_main p e m))).
  { apply speakable_ok. apply (screen_texts _ _ None). eapply Forall_impl; [exact harmless_sendable|exact Hm]. }
  split.
  - subst d. unfold deliver. destruct (perform out new_stream actions) as [x ok] eqn:P.
    destruct (perform_thinned out actions new_stream x ok (acts_small _ _ _ A) ltac:(intros []) P) as (z & rest & Th & E & _). cbn [sent new_stream s_taken s_buffer app] in E.
    pose proof (thinned_says _ _ _ A z K Th) as Sz. destruct (taken_at_end out x) as (w & _ & Es). rewrite Es in E. unfold sent in E. rewrite <- app_assoc in E.
    assert (Pre : exists r, text_of (o_stdout (run_main p e m)) = characters (s_taken (fst (flush_buf out x))) ++ r).
    { unfold text_of. rewrite spoken_screen, <- (says_shown _ _ Sz), E. apply characters_grow. }
    destruct ok; cbn [negb]; [|exact Pre]. destruct (o_panic (run_main p e m)); [exact Pre|]. destruct (write_stderr err new_stream message) as [t said]. exact Pre.
  - subst d. unfold deliver. destruct (perform out new_stream actions) as [x [|]]; cbn [negb]; [|split; [now right|reflexivity]].
    destruct (o_panic (run_main p e m)); [split; [now right|reflexivity]|]. destruct (write_stderr err new_stream message) as [t [|]]; (split; [|discriminate]); auto.
Qed.

(** ** Examples *)

(* A device that takes everything for a number of calls and is broken from then on, and one
   that fails only once. *)
Definition breaks (after : nat) : device := fun n => if Nat.leb after n then Fails else Takes 1000.
Definition hiccups (at_call : nat) : device := fun n => if Nat.eqb at_call n then Fails else Takes 1000.
Lemma breaks_for_good k : for_good (breaks k).
Proof. intros n m L [R|R]; unfold breaks in *; destruct (Nat.leb_spec k n); try discriminate. left. destruct (Nat.leb_spec k m); [reflexivity|lia]. Qed.
(* Each text in one piece. *)
Definition whole (colours : bool) (e : event) : action :=
  match e with
  | Txt s => Print [utf8 s]
  | SetColor c => Colour (if colours then spec_pieces c else [])
  | ResetColor => Colour (if colours then [write_reset] else [])
  end.
Lemma whole_acts colours l : Forall2 (acts colours) l (map (whole colours) l).
Proof. induction l as [|[s|c|] l IH]; cbn [map whole]; constructor; try assumption; constructor. cbn. apply app_nil_r. Qed.

Definition tsi_settings : settings := mkSettings TAuto [42] true.
Definition xterm : term_vars := mkVars (Some (lit "xterm")) false.
Lemma tsi_met s : leqb s (lit "80 00") || leqb s (lit "00 00") = true -> let m := with_tsi s in
  exists ls, load_settings plain_env m = Ok tsi_settings /\ chosen m OpTsi s /\ text64 p64 s
  /\ sheet (set_masking tsi_settings) (set_sort tsi_settings) OpTsi s ls /\ fits p64 (deepest ls).
Proof.
  intros Q. cbn zeta. apply orb_true_iff in Q.
  assert (C : chosen (with_tsi s) OpTsi s).
  { split; [reflexivity|]; exists [OpTvr; OpIad; OpCvr], [OpCvmResults; OpCvmList; OpIdentify; OpAuto; OpBer; OpIngenico; OpServiceCode]; split; [reflexivity|repeat constructor]. }
  destruct Q as [Q|Q]; apply leqb_eq in Q; subst s; (eexists; split; [vm_compute; reflexivity|]; split; [exact C|]; split; [split; [reflexivity|vm_compute; reflexivity]|];
    split; [apply (sheet_value _ _ _ _ (bits_picture 2 tsi_bits tsi_used)); [cbn; tauto|vm_compute; reflexivity]|]; intros _; vm_compute; reflexivity).
Qed.

(* With colours a status of 0 does not mean that every byte was taken: the sequence after the
   last line that ends the bold style can get lost, and the terminal stays bold. *)
Theorem C89_left_bold_refuted : exists p e m st op s ls v actions message out err,
  load_settings e m = Ok st /\ chosen m op s /\ text64 p s /\ sheet (set_masking st) (set_sort st) op s ls /\ fits p (deepest ls)
  /\ writes (should_attempt_color v (set_colour st)) (run_main p e m) actions message /\ for_good out
  /\ let d := deliver out err (run_main p e m) actions message in
     d_status d = 0 /\ d_stdout d <> stdout_bytes v st (run_main p e m) /\ t_look (receives fresh (d_stdout d)) = mkLook true None.
Proof.
  destruct (tsi_met (lit "00 00") eq_refl) as (ls & L & C & T & S & F).
  exists p64, plain_env, (with_tsi (lit "00 00")), tsi_settings, OpTsi, (lit "00 00"), ls, xterm.
  exists (map (whole true) (o_stdout (run_main p64 plain_env (with_tsi (lit "00 00"))))), [], (breaks 1), (breaks 0).
  do 5 (split; [assumption|]). split; [split; [apply whole_acts|vm_compute; reflexivity]|]. split; [apply breaks_for_good|].
  vm_compute. split; [reflexivity|]. split; [|reflexivity]. intros K. discriminate K.
Qed.
(* On a device that recovers, a status of 101 does not mean that something is missing: what
   was waiting is sent when the process ends. *)
Theorem C89_recovered_refuted : exists p e m st op s ls v actions message out err,
  load_settings e m = Ok st /\ chosen m op s /\ text64 p s /\ sheet (set_masking st) (set_sort st) op s ls /\ fits p (deepest ls)
  /\ writes (should_attempt_color v (set_colour st)) (run_main p e m) actions message
  /\ let d := deliver out err (run_main p e m) actions message in d_status d = 101 /\ characters (d_stdout d) = map snd (render ls).
Proof.
  destruct (tsi_met (lit "00 00") eq_refl) as (ls & L & C & T & S & F).
  exists p64, plain_env, (with_tsi (lit "00 00")), tsi_settings, OpTsi, (lit "00 00"), ls, xterm.
  exists (map (whole true) (o_stdout (run_main p64 plain_env (with_tsi (lit "00 00"))))), [], (hiccups 0), (breaks 0).
  do 5 (split; [assumption|]). split; [split; [apply whole_acts|vm_compute; reflexivity]|]. split; [vm_compute; reflexivity|].
  destruct (C73_shown _ _ _ _ _ _ ls L C T S F) as (_ & _ & _ & <- & _). vm_compute. reflexivity.
Qed.
(* A reader that goes away after the first line, one that stays, and a refused argument. *)
Example C89_example : let m := with_tsi (lit "80 00") in let o := run_main p64 plain_env m in let w := map (whole true) (o_stdout o) in
  (exists ls, load_settings plain_env m = Ok tsi_settings /\ chosen m OpTsi (lit "80 00") /\ text64 p64 (lit "80 00")
     /\ sheet (set_masking tsi_settings) (set_sort tsi_settings) OpTsi (lit "80 00") ls /\ fits p64 (deepest ls))
  /\ writes (should_attempt_color xterm (set_colour tsi_settings)) o w [] /\ for_good (breaks 1) /\ dependable (fun _ => Takes 1)
  /\ deliver (breaks 1) (breaks 0) o w [] = mkDelivery ([27; 91; 48; 109; 27; 91; 49; 109] ++ lit "10000000 00000000" ++ [10]) [] 101
  /\ deliver (fun _ => Takes 1) (breaks 0) o w [] = mkDelivery (stdout_bytes xterm tsi_settings o) [] 0
  /\ (let m' := with_tsi (lit "80") in let o' := run_main p64 plain_env m' in
      chosen m' OpTsi (lit "80") /\ refused [42] OpTsi (lit "80") (ByteCountIncorrect Eq 2 1)
      /\ d_status (deliver (breaks 0) (breaks 0) o' [] [stderr_bytes o']) = 101
      /\ deliver (breaks 0) (breaks 1) o' [] [stderr_bytes o'] = mkDelivery [] (stderr_bytes o') 0).
Proof.
  cbn zeta. split; [exact (tsi_met (lit "80 00") eq_refl)|]. split; [split; [apply whole_acts|vm_compute; reflexivity]|]. split; [apply breaks_for_good|].
  split; [intros n; exists 1; split; [reflexivity|lia]|]. split; [vm_compute; reflexivity|]. split; [vm_compute; reflexivity|]. split; [|split; [|split; vm_compute; reflexivity]].
  - split; [reflexivity|]; exists [OpTvr; OpIad; OpCvr], [OpCvmResults; OpCvmList; OpIdentify; OpAuto; OpBer; OpIngenico; OpServiceCode]; split; [reflexivity|repeat constructor].
  - apply refused_tsi. change (ByteCountIncorrect Eq 2 1) with (ByteCountIncorrect Eq 2 (len (hex_bytes (lit "80")))). apply rejected_length; [cbn; tauto|discriminate].
Qed.
