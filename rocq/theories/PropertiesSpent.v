(** C105: what colours add to each line. *)

From Coq Require Import ZArith NArith Ascii String List Bool Lia ZifyN ZifyBool ZifyNat Permutation Sorting.
From Verif Require Import Base ModelUtil ModelEnums ModelBitflag ModelSchemas ModelTags ModelTlv ModelValues ModelProcess ModelDisplay
  SpecUtil SpecCodes SpecValues SpecTlv SpecIngenico SpecTags SpecProcess SpecDisplay
  ProofsUtil ProofsGrammar ProofsBer ProofsIngenico ProofsValues PropertiesValues
  PropertiesBer PropertiesIngenico ProofsProcess PropertiesProcess ProofsDisplay ProofsDiagram ProofsScreens ProofsLayout PropertiesDisplay
  SpecPictures ProofsPictures ModelMain SpecMain ProofsMain PropertiesMain ModelCli SpecCli ProofsCli PropertiesCli PropertiesPictures
  SpecReading PropertiesReading ModelTerminal SpecTerminal ProofsTerminal PropertiesTerminal SpecTells ProofsTells PropertiesTells
  ModelCost SpecCost ProofsCost PropertiesCost SpecSame PropertiesSame SpecJoin PropertiesJoin PropertiesScope PropertiesSize PropertiesColumns PropertiesRuns PropertiesColoured SpecStrip PropertiesStrip.
Import ListNotations.
Local Open Scope N_scope.

(* The first line may have [33 - j] bytes more, each other line 33. *)
Definition longer (j : N) (a b : list N) : Prop :=
  exists h t h' t', byte_lines a = h :: t /\ byte_lines b = h' :: t' /\ len h + j <= len h' + 33 /\ Forall2 (fun c x => len c <= len x + 33) t t'.
Lemma longer_text w a b : forall j, j <= 33 -> longer (if existsb (N.eqb 10) w then 0 else j) a b -> longer j (w ++ a) (w ++ b).
Proof.
  induction w as [|x w IH]; intros j J H; [exact H|]. cbn [existsb] in H. cbn [app]. unfold longer. cbn [byte_lines]. destruct (N.eqb_spec 10 x) as [<-|N].
  - cbn [orb] in H. rewrite N.eqb_refl. assert (X : longer 0 (w ++ a) (w ++ b)) by (apply IH; [lia|]; now destruct (existsb _ w)). destruct X as (h & t & h' & t' & E & E' & L & F). rewrite E, E'. exists [], (h :: t), [], (h' :: t'). repeat split; [lia|]. constructor; [lia|exact F].
  - cbn [orb] in H. destruct (N.eqb_spec x 10) as [->|_]; [congruence|]. destruct (IH j J H) as (h & t & h' & t' & E & E' & L & F). rewrite E, E'. exists (x :: h), t, (x :: h'), t'. repeat split; [rewrite !len_cons; lia|exact F].
Qed.
Lemma longer_sequence w j a b : ~ In 10 w -> longer (j + len w) a b -> longer j (w ++ a) b.
Proof.
  intros N (h & t & h' & t' & E & E' & L & F). exists (w ++ h), t, h', t'. split; [now apply lines_app|]. split; [exact E'|]. split; [rewrite len_app; lia|exact F].
Qed.
Lemma text_ends s : existsb (N.eqb 10) (utf8 s) = existsb (N.eqb 10) s.
Proof.
  unfold utf8. induction s as [|c s IH]; [reflexivity|]. cbn [flat_map existsb]. rewrite existsb_app, IH. f_equal. destruct (N.lt_ge_cases c 128) as [L|L].
  - rewrite (utf8_char_ascii c L). cbn [existsb]. apply orb_false_r.
  - pose proof (utf8_char_high c L) as H. replace (10 =? c) with false by lia. apply not_true_iff_false. intros X. apply existsb_exists in X. destruct X as (b & I & E). rewrite Forall_forall in H. specialize (H b I). lia.
Qed.
Lemma events_longer l : forall st j n, j <= 33 -> spent_after j l = Some n -> longer j (write_events true l) (utf8 (map snd (screen st l))).
Proof.
  unfold write_events. induction l as [|[s|c|] l IH]; intros st j n J H; cbn [spent_after] in H; cbn [flat_map screen].
  - exists [], [], [], []. repeat split; [lia|constructor].
  - rewrite map_app, ink_text. unfold utf8 at 1. rewrite flat_map_app. fold (utf8 s). apply longer_text; [exact J|]. rewrite text_ends. apply (IH st _ n); [destruct (existsb _ s); lia|exact H].
  - match type of H with (if ?x <=? 33 then _ else _) = _ => destruct (N.leb_spec x 33) as [L|]; [|discriminate H] end. apply longer_sequence; [|now apply (IH (Some c) _ n)]. intros I. destruct c as [[|] [[| |]|]]; cbn in I; lia.
  - match type of H with (if ?x <=? 33 then _ else _) = _ => destruct (N.leb_spec x 33) as [L|]; [|discriminate H] end. apply longer_sequence; [|now apply (IH None _ n)]. intros I. cbn in I. lia.
Qed.
(* With colours each line has at most 33 bytes more than without. *)
Theorem C105_lines : forall p e m st op s v, load_settings e m = Ok st -> SpecMain.chosen m op s ->
  Forall2 (fun c x => len c <= len x + 33) (byte_lines (stdout_bytes v st (run_main p e m))) (byte_lines (utf8 (text_of (o_stdout (run_main p e m))))).
Proof.
  intros p e m st op s v L C. rewrite (main_chosen p e m st op s L C). unfold stdout_bytes, text_of. destruct (should_attempt_color v (set_colour st)).
  - destruct (run_spent_lines p st op s) as (n & H). destruct (events_longer _ None 4 n ltac:(lia) H) as (h & t & h' & t' & -> & -> & K & F). constructor; [lia|exact F].
  - rewrite (write_plain _ None). generalize (byte_lines (utf8 (map snd (screen None (o_stdout (run_one p st op s)))))) as x. induction x as [|b x IH]; constructor; [lia|exact IH].
Qed.
(* The bound is reached: the line of the first object in a template. *)
Example C105_lines_example : load_settings plain_env (with_ber (lit "70039C0100")) = Ok (mkSettings TAuto [42] true) /\ SpecMain.chosen (with_ber (lit "70039C0100")) OpBer (lit "70039C0100")
  /\ exists k, len (nth k (byte_lines (stdout_bytes (mkVars (Some (lit "xterm")) false) (mkSettings TAuto [42] true) (run_main p64r plain_env (with_ber (lit "70039C0100"))))) [])
    = len (nth k (byte_lines (utf8 (text_of (o_stdout (run_main p64r plain_env (with_ber (lit "70039C0100"))))))) []) + 33.
Proof.
  split; [now apply plain_settings|]. split.
  - split; [reflexivity|]. exists [OpTvr; OpIad; OpCvr; OpTsi; OpCvmResults; OpCvmList; OpIdentify; OpAuto], [OpIngenico; OpServiceCode]. split; [reflexivity|]. repeat constructor.
  - exists 4%nat. vm_compute. reflexivity.
Qed.
