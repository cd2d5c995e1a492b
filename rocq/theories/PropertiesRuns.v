(** Properties about the lines of a screen, carried over to runs of the program: the screens are those of [run_main]. *)

From Coq Require Import ZArith NArith Ascii String List Bool Lia ZifyN ZifyBool ZifyNat Permutation Sorting.
From Verif Require Import Base ModelUtil ModelEnums ModelBitflag ModelSchemas ModelTags ModelTlv ModelValues ModelProcess ModelDisplay
  SpecUtil SpecCodes SpecValues SpecTlv SpecIngenico SpecTags SpecProcess SpecDisplay
  ProofsUtil ProofsGrammar ProofsBer ProofsIngenico ProofsValues PropertiesValues
  PropertiesBer PropertiesIngenico ProofsProcess PropertiesProcess ProofsDisplay ProofsDiagram ProofsScreens ProofsLayout PropertiesDisplay
  SpecPictures ProofsPictures ModelMain SpecMain ProofsMain PropertiesMain ModelCli SpecCli ProofsCli PropertiesCli PropertiesPictures
  SpecReading PropertiesReading SpecSame PropertiesSame SpecJoin PropertiesJoin PropertiesCut SpecCopied PropertiesCopied
  SpecOptions PropertiesOptions SpecNotation PropertiesNotation SpecMatch SpecExplain PropertiesExplain SpecRules PropertiesRules SpecService PropertiesService SpecCoded PropertiesCoded.
Import ListNotations.
Local Open Scope N_scope.

(* The program shows the lines of this text, and they are not indented too far. *)
Definition shows (p : platform) (e : environment) (m : matches) (st : settings) (op : operation) (s : str) (ls : list line) : Prop :=
  load_settings e m = Ok st /\ SpecMain.chosen m op s /\ text64 p s /\ sheet (set_masking st) (set_sort st) op s ls /\ fits p (deepest ls).
Lemma shows_displays p e m st op s ls : shows p e m st op s ls -> displays (run_main p e m) ls.
Proof. intros (L & C & T & H & F). now apply (C73_shown p e m st op s ls). Qed.

(** ** C76: automatic detection *)

Definition shallow (p : platform) (st : settings) (op : operation) (s : str) : Prop := forall ls, sheet (set_masking st) (set_sort st) op s ls -> fits p (deepest ls).
Lemma auto_as p e m m' st op f s : load_settings e m = Ok st -> load_settings e m' = Ok st -> SpecMain.chosen m OpAuto s -> SpecMain.chosen m' op s -> text64 p s -> shallow p st op s ->
  (forall ls, sheet (set_masking st) (set_sort st) op s ls -> sheet (set_masking st) (set_sort st) OpAuto s (format_lines (Some f) ++ ls)) ->
  (forall er, refused (set_masking st) op s er -> refused (set_masking st) OpAuto s er) ->
  (exists ls, displays (run_main p e m') ls /\ displays (run_main p e m) (format_lines (Some f) ++ ls)) \/ (exists er, complains (run_main p e m') er /\ complains (run_main p e m) er).
Proof.
  intros L L' C C' T D S R. destruct (C73_total p (set_masking st) (set_sort st) op s T) as [(ls & H & _)|(er & H & _)].
  - left. exists ls. split; [now apply (C73_shown p e m' st op s ls L' C' T H (D ls H))|]. apply (C73_shown p e m st OpAuto s _ L C T (S ls H)). rewrite deepest_app, deepest_format, N.max_0_l. now apply D.
  - right. exists er. split; [now apply (C61_refused p e m' st op s)|]. apply (C61_refused p e m st OpAuto s); auto.
Qed.
(* A run of --auto and runs of --ingenico and --ber with the same text. *)
Theorem C76_program : forall p e m mi mb st s, load_settings e m = Ok st -> load_settings e mi = Ok st -> load_settings e mb = Ok st ->
  SpecMain.chosen m OpAuto s -> SpecMain.chosen mi OpIngenico s -> SpecMain.chosen mb OpBer s -> text64 p s -> shallow p st OpIngenico s -> shallow p st OpBer s ->
  (s <> [] -> (exists ns, ingenico_block (set_masking st) s ns) ->
     (exists ls, displays (run_main p e mi) ls /\ displays (run_main p e m) (format_lines (Some Ingenico) ++ ls)) \/ (exists er, complains (run_main p e mi) er /\ complains (run_main p e m) er))
  /\ (s <> [] -> (forall ns, ~ ingenico_block (set_masking st) s ns) -> (exists ns, ber_block (set_masking st) s ns) ->
     (exists ls, displays (run_main p e mb) ls /\ displays (run_main p e m) (format_lines (Some BerTlv) ++ ls)) \/ (exists er, complains (run_main p e mb) er /\ complains (run_main p e m) er))
  /\ (s = [] \/ (forall ns, ~ ingenico_block (set_masking st) s ns) /\ (forall ns, ~ ber_block (set_masking st) s ns) -> complains (run_main p e m) Unrecognised).
Proof.
  intros p e m mi mb st s L Li Lb C Ci Cb T Di Db. split; [|split].
  - intros Ne Ex. apply (auto_as p e m mi st OpIngenico Ingenico s); try assumption.
    + intros ls H. apply C76_shown. split; [exact Ne|]. exists ls. left. auto.
    + intros er H. apply (C76_refused p _ s er T). right. left. auto.
  - intros Ne Nx Ex. apply (auto_as p e m mb st OpBer BerTlv s); try assumption.
    + intros ls H. apply C76_shown. split; [exact Ne|]. exists ls. right. auto.
    + intros er H. apply (C76_refused p _ s er T). right. right. auto.
  - intros H. apply (C61_refused p e m st OpAuto s); try assumption. apply (C76_refused p _ s _ T). left. auto.
Qed.

(** ** C83: the same value *)

(* The lines a run of --tvr, --tsi, ... shows for a value are on the screen of every run that shows TLV data with that value. *)
Theorem C83_program : forall p e m st op t s ls p' e' m' st' op' s' f ns n ls', shows p e m st op s ls -> shows p' e' m' st' op' s' ls' -> In (op, t) value_of_tag ->
  tlv_block (set_masking st') op' s' f ns -> occurs n ns -> rt_tag (node_tag n) = t -> rt_data (node_tag n) = Normal (hex_bytes s) ->
  displays (run_main p e m) ls /\ displays (run_main p' e' m') ls'
  /\ exists i before after, ls' = before ++ SpecSame.object_lines i (node_tag n) ++ heading_row i (lit "Parsed:") :: map (moved (i + 1)) ls ++ after.
Proof.
  intros p e m st op t s ls p' e' m' st' op' s' f ns n ls' A A' I B O Et Ed. split; [now apply (shows_displays p e m st op s)|]. split; [now apply (shows_displays p' e' m' st' op' s')|].
  destruct A as (_ & _ & _ & H & _), A' as (_ & _ & T' & H' & _). now apply (C83_value p' _ _ op t s ls _ _ op' s' f ns n ls' I H T' B O Et Ed H').
Qed.
(* What such a run refuses is refused with the same message. *)
Theorem C83_program_refused : forall p e m st op t s er p' e' m' st' op' s' f ns before r after, load_settings e m = Ok st -> SpecMain.chosen m op s -> text64 p s -> load_settings e' m' = Ok st' -> SpecMain.chosen m' op' s' -> text64 p' s' ->
  In (op, t) value_of_tag -> op <> OpIad -> refused (set_masking st) op s er ->
  tlv_block (set_masking st') op' s' f ns -> flat_map preorder ns = before ++ r :: after -> (forall x e', In x before -> ~ tag_fails x e') -> rt_tag r = t -> rt_data r = Normal (hex_bytes s) ->
  complains (run_main p e m) er /\ complains (run_main p' e' m') er.
Proof.
  intros p e m st op t s er p' e' m' st' op' s' f ns before r after L C T L' C' T' I Ni R B E Nb Et Ed. split; [now apply (C61_refused p e m st op s)|]. apply (C61_refused p' e' m' st' op' s'); try assumption.
  now apply (C83_refused (set_masking st) op t s er _ op' s' f ns before r after).
Qed.
(* The content of a constructed object, given to a run of its own. *)
Theorem C83_program_nested : forall p e m st op s f ns t c v s2 ls m2, shows p e m st op s ls -> load_settings e m2 = Ok st -> SpecMain.chosen m2 OpBer s2 -> text64 p s2 ->
  tlv_block (set_masking st) op s f ns -> occurs (RawNode t c) ns -> c <> [] -> rt_data t = Normal v -> hex_bytes s2 = v ->
  displays (run_main p e m) ls /\ exists ls2 i before after, displays (run_main p e m2) ls2
    /\ ls = before ++ tag_lines t i true ++ heading_row i (lit "Constructed Data Object's Child Tags:") :: map (moved (i + 1)) ls2 ++ after.
Proof.
  intros p e m st op s f ns t c v s2 ls m2 A L2 C2 T2 B O Nc D E. split; [now apply (shows_displays p e m st op s)|]. destruct A as (L & C & T & H & F).
  destruct (C83_nested p _ _ op s f ns t c v s2 ls T T2 B O Nc D E H) as (ls2 & i & before & after & H2 & ->). exists ls2, i, before, after. split; [|reflexivity].
  apply (C73_shown p e m2 st OpBer s2); try assumption. intros K. specialize (F K). rewrite !deepest_app, deepest_cons, deepest_app in F. assert (X : deepest ls2 <= deepest (map (moved (i + 1)) ls2)).
  { pose proof (deepest_moved (i + 1) ls2 [] []) as X. cbn [app] in X. now rewrite app_nil_r in X. }
  lia.
Qed.

(** ** C115: notations *)

(* A safe notation: the run shows the data that was meant. *)
Theorem C115_program : forall p e m st op g f d q, load_settings e m = Ok st -> SpecMain.chosen m op (written f d) -> text64 p (written f d) -> In (op, g) byte_operations ->
  digitless (n_open f) -> digitless (n_before f) -> digitless (n_after f) -> digitless (n_between f) -> nearly_digitless (n_close f) -> bytes_ok d -> g d = Some q -> fits p (deepest (q 0 true)) ->
  displays (run_main p e m) (q 0 true).
Proof.
  intros p e m st op g f d q L C T I D1 D2 D3 D4 D5 B Q F. assert (H : forall d, bytes_ok d -> hex_bytes (written f d) = d) by (apply C115_exact; auto).
  apply (C73_shown p e m st op (written f d)); try assumption. apply (sheet_value _ _ _ _ g); [assumption|]. now rewrite H.
Qed.
(* The same for BER-TLV data: the objects are those of the bytes that were meant. *)
Theorem C115_program_tlv : forall p e m st f d objs ns ns' , load_settings e m = Ok st -> SpecMain.chosen m OpBer (written f d) -> text64 p (written f d) ->
  digitless (n_open f) -> digitless (n_before f) -> digitless (n_after f) -> digitless (n_between f) -> nearly_digitless (n_close f) -> bytes_ok d ->
  ber_objects d objs [] -> ber_trees (set_masking st) objs ns -> Forall (fun t => forall e, ~ tag_fails t e) (flat_map preorder ns) -> (if set_sort st then in_order ns ns' else ns' = ns) -> fits p (deepest (forest_lines ns' 0 true)) ->
  displays (run_main p e m) (forest_lines ns' 0 true).
Proof.
  intros p e m st f d objs ns ns' L C T D1 D2 D3 D4 D5 B O Tr N A F. assert (H : forall d, bytes_ok d -> hex_bytes (written f d) = d) by (apply C115_exact; auto).
  apply (C73_shown p e m st OpBer (written f d)); try assumption. apply (sheet_block _ _ _ _ None ns ns'); try assumption. constructor. exists objs. now rewrite H.
Qed.
(* A C array of a value is refused by the run. *)
Theorem C115_program_array : forall p e m st op n d, load_settings e m = Ok st -> SpecMain.chosen m op (written c_array d) -> text64 p (written c_array d) -> In (op, n) sizes -> bytes_ok d -> len d = n ->
  complains (run_main p e m) (wrong_size op n (3 * n / 2)).
Proof. intros p e m st op n d L C T I B Ln. apply (C61_refused p e m st op (written c_array d)); try assumption. now apply C115_array. Qed.

(** ** Objects in TLV data *)

Theorem C117_program_objects : forall p p' e e' m m' st st' op op' s s' ls ls' f f' ns ns' t t' mask d d', shows p e m st op s ls -> shows p' e' m' st' op' s' ls' ->
  tlv_block (set_masking st) op s f ns -> tlv_block (set_masking st') op' s' f' ns' ->
  In t (flat_map preorder ns) -> In t' (flat_map preorder ns') -> rt_tag t' = rt_tag t -> In (rt_tag t, mask) worded_tags -> rt_data t = Normal d -> rt_data t' = Normal d' ->
  displays (run_main p e m) ls /\ displays (run_main p' e' m') ls' /\ exists i i', incl (tag_lines t i true) ls /\ incl (tag_lines t' i' true) ls'
    /\ (same_words (tag_lines t i true) (tag_lines t' i' true) <-> keep_bits d mask = keep_bits d' mask).
Proof.
  intros p p' e e' m m' st st' op op' s s' ls ls' f f' ns ns' t t' mask d d' A A' B B' I I' E V D D'. split; [now apply (shows_displays p e m st op s)|]. split; [now apply (shows_displays p' e' m' st' op' s')|].
  destruct A as (_ & _ & T & H & _), A' as (_ & _ & T' & H' & _). now apply (C117_objects p p' (set_masking st) (set_masking st') (set_sort st) (set_sort st') op op' s s' ls ls' f f' ns ns' t t' mask d d').
Qed.
Theorem C122_program_objects : forall p e m st op s ls f ns n n' d a b c, shows p e m st op s ls -> tlv_block (set_masking st) op s f ns -> occurs n ns -> occurs n' ns ->
  rt_tag (node_tag n) = [0x8E] -> rt_data (node_tag n) = Normal d -> rt_tag (node_tag n') = [0x9F; 0x34] -> rt_data (node_tag n') = Normal [a; b; c] ->
  displays (run_main p e m) ls /\ exists i i' before after before' after', ls = before ++ tag_lines (node_tag n) i true ++ after /\ ls = before' ++ tag_lines (node_tag n') i' true ++ after'
    /\ forall k, (names (tag_lines (node_tag n) i true) k (tag_lines (node_tag n') i' true) <-> exists x y, rule_at d k x y /\ same_rule x y a b).
Proof.
  intros p e m st op s ls f ns n n' d a b c A B O O' Et Ed Et' Ed'. split; [now apply (shows_displays p e m st op s)|]. destruct A as (_ & _ & T & H & _). now apply (C122_objects p (set_masking st) (set_sort st) op s ls f ns n n' d a b c T H B).
Qed.
Theorem C124_program_objects : forall p e m st op s f ns nd v ls, shows p e m st op s ls -> tlv_block (set_masking st) op s f ns -> occurs nd ns -> rt_tag (node_tag nd) = [0x5F; 0x30] -> rt_data (node_tag nd) = Normal (service_bytes v) -> v <= 999 ->
  displays (run_main p e m) ls /\ exists i before block after, ls = before ++ heading_row i (lit "Parsed:") :: block ++ after
    /\ (forall t w pl ds, In (t, w, pl, ds) service_words -> (says block t w <-> In (digit v pl) ds)) /\ forall i' show' v', v' <= 999 -> (say_same block (service_picture v' i' show') <-> forall pl, same_digit pl (digit v pl) (digit v' pl)).
Proof.
  intros p e m st op s f ns nd v ls A B O Et Ed L. split; [now apply (shows_displays p e m st op s)|]. destruct A as (_ & _ & T & H & _). now apply (C124_objects p (set_masking st) (set_sort st) op s f ns nd v ls T B O Et Ed L H).
Qed.
Theorem C125_program : forall p p' e e' m m' st st' op op' s s' ls ls' f f' ns ns' n n' t d d' q q', shows p e m st op s ls -> shows p' e' m' st' op' s' ls' ->
  tlv_block (set_masking st) op s f ns -> tlv_block (set_masking st') op' s' f' ns' -> occurs n ns -> occurs n' ns' -> In t coded_tags -> rt_tag (node_tag n) = t -> rt_tag (node_tag n') = t -> rt_data (node_tag n) = Normal d -> rt_data (node_tag n') = Normal d' ->
  picture_of t d = Some q -> picture_of t d' = Some q' -> displays (run_main p e m) ls /\ displays (run_main p' e' m') ls'
  /\ exists i i' before before' w w' after after', ls = before ++ heading_row i (lit "Parsed:") :: row (i + 1) [(None, w)] :: after /\ ls' = before' ++ heading_row i' (lit "Parsed:") :: row (i' + 1) [(None, w')] :: after'
    /\ (w = w' <-> alike t d d').
Proof.
  intros p p' e e' m m' st st' op op' s s' ls ls' f f' ns ns' n n' t d d' q q' A A' B B' O O' I Et Et' D D' Q Q'. split; [now apply (shows_displays p e m st op s)|]. split; [now apply (shows_displays p' e' m' st' op' s')|].
  destruct A as (_ & _ & T & H & _), A' as (_ & _ & T' & H' & _). now apply (C125_objects p p' (set_masking st) (set_masking st') (set_sort st) (set_sort st') op op' s s' ls ls' f f' ns ns' n n' t d d' q q').
Qed.

(** ** Examples *)

(* A release build with the usual settings. *)
Definition p64r : platform := {| usize_bits := 64; overflow_checks := false |}.
Definition with_auto (s : str) : matches :=
  mkMatches None None None None None None None (Some s) None None None (Some (lit "auto", SrcDefault)) (Some ([42], SrcDefault)) (Some (true, SrcDefault)) (Some (false, SrcDefault)).
Definition with_ingenico (s : str) : matches :=
  mkMatches None None None None None None None None None (Some s) None (Some (lit "auto", SrcDefault)) (Some ([42], SrcDefault)) (Some (true, SrcDefault)) (Some (false, SrcDefault)).
Definition with_tsi (s : str) : matches :=
  mkMatches None None None (Some s) None None None None None None None (Some (lit "auto", SrcDefault)) (Some ([42], SrcDefault)) (Some (true, SrcDefault)) (Some (false, SrcDefault)).
Lemma chosen_ber s : SpecMain.chosen (with_ber s) OpBer s.
Proof. split; [reflexivity|]. exists [OpTvr; OpIad; OpCvr; OpTsi; OpCvmResults; OpCvmList; OpIdentify; OpAuto], [OpIngenico; OpServiceCode]. split; [reflexivity|]. repeat constructor. Qed.
Lemma chosen_auto s : SpecMain.chosen (with_auto s) OpAuto s.
Proof. split; [reflexivity|]. exists [OpTvr; OpIad; OpCvr; OpTsi; OpCvmResults; OpCvmList; OpIdentify], [OpBer; OpIngenico; OpServiceCode]. split; [reflexivity|]. repeat constructor. Qed.
Lemma chosen_ingenico s : SpecMain.chosen (with_ingenico s) OpIngenico s.
Proof. split; [reflexivity|]. exists [OpTvr; OpIad; OpCvr; OpTsi; OpCvmResults; OpCvmList; OpIdentify; OpAuto; OpBer], [OpServiceCode]. split; [reflexivity|]. repeat constructor. Qed.
Lemma chosen_tsi s : SpecMain.chosen (with_tsi s) OpTsi s.
Proof. split; [reflexivity|]. exists [OpTvr; OpIad; OpCvr], [OpCvmResults; OpCvmList; OpIdentify; OpAuto; OpBer; OpIngenico; OpServiceCode]. split; [reflexivity|]. repeat constructor. Qed.
Lemma shown_ber s : text64 p64r s -> o_stderr (run_main p64r plain_env (with_ber s)) = [] -> exists ls, shows p64r plain_env (with_ber s) (mkSettings TAuto [42] true) OpBer s ls.
Proof.
  intros T E. assert (L : load_settings plain_env (with_ber s) = Ok (mkSettings TAuto [42] true)) by now apply plain_settings.
  destruct (C73_total p64r [42] true OpBer s T) as [(ls & H & _)|(er & R & _)].
  - exists ls. split; [exact L|]. split; [apply chosen_ber|]. split; [exact T|]. split; [exact H|]. intros K. discriminate K.
  - exfalso. destruct (C61_refused p64r plain_env _ _ OpBer s er L (chosen_ber s) T R) as (_ & _ & _ & Z). rewrite E in Z. destruct (error_text er); discriminate Z.
Qed.
(* A TSI by itself and in a template. *)
Example C83_program_example : exists ls ls' ns n, shows p64r plain_env (with_tsi (lit "F8 00")) (mkSettings TAuto [42] true) OpTsi (lit "F8 00") ls
  /\ shows p64r plain_env (with_ber (lit "70049B02F800")) (mkSettings TAuto [42] true) OpBer (lit "70049B02F800") ls'
  /\ tlv_block [42] OpBer (lit "70049B02F800") None ns /\ occurs n ns /\ rt_tag (node_tag n) = [0x9B] /\ rt_data (node_tag n) = Normal (hex_bytes (lit "F8 00")) /\ In (OpTsi, [0x9B]) value_of_tag.
Proof.
  assert (T : text64 p64r (lit "70049B02F800")) by (split; vm_compute; reflexivity). destruct (shown_ber _ T) as (ls' & S); [vm_compute; reflexivity|].
  assert (Q : exists q, bits_picture 2 tsi_bits tsi_used (hex_bytes (lit "F8 00")) = Some q) by (eexists; reflexivity). destruct Q as (q & Q).
  exists (q 0 true), ls'. eexists. eexists. split.
  - split; [now apply plain_settings|]. split; [apply chosen_tsi|]. split; [split; vm_compute; reflexivity|]. split; [|intros K; discriminate K].
    apply (sheet_value _ _ _ _ (bits_picture 2 tsi_bits tsi_used)); [unfold byte_operations; cbn [In]; tauto|exact Q].
  - split; [exact S|]. split; [constructor; apply (ber_block_iff p64r); [assumption|vm_compute; reflexivity]|]. split; [eapply occurs_below; [left; reflexivity|]; apply occurs_here; now left|].
    split; [reflexivity|]. split; [vm_compute; reflexivity|]. unfold value_of_tag. cbn [In]. tauto.
Qed.
(* Text that is BER-TLV data, given to the three options. *)
Example C76_program_example : forall p, overflow_checks p = false -> let s := lit "9B02F800" in
  load_settings plain_env (with_auto s) = Ok (mkSettings TAuto [42] true) /\ load_settings plain_env (with_ingenico s) = Ok (mkSettings TAuto [42] true) /\ load_settings plain_env (with_ber s) = Ok (mkSettings TAuto [42] true)
  /\ SpecMain.chosen (with_auto s) OpAuto s /\ SpecMain.chosen (with_ingenico s) OpIngenico s /\ SpecMain.chosen (with_ber s) OpBer s
  /\ shallow p (mkSettings TAuto [42] true) OpIngenico s /\ shallow p (mkSettings TAuto [42] true) OpBer s /\ exists ns, ber_block [42] s ns.
Proof.
  intros p O s. split; [now apply plain_settings|]. split; [now apply plain_settings|]. split; [now apply plain_settings|]. split; [apply chosen_auto|]. split; [apply chosen_ingenico|]. split; [apply chosen_ber|].
  split; [intros ls _ K; congruence|]. split; [intros ls _ K; congruence|]. eexists. apply (ber_block_iff p64r); [split; vm_compute; reflexivity|]. vm_compute. reflexivity.
Qed.
(* A TSI with colons, and in a C array. *)
Example C115_program_example : exists q, bits_picture 2 tsi_bits tsi_used [0xF8; 0] = Some q /\ SpecMain.chosen (with_tsi (written colons [0xF8; 0])) OpTsi (written colons [0xF8; 0]) /\ digitless (n_between colons)
  /\ SpecMain.chosen (with_tsi (written c_array [0xF8; 0])) OpTsi (written c_array [0xF8; 0]) /\ In (OpTsi, 2) sizes /\ text64 p64 (written c_array [0xF8; 0]).
Proof.
  assert (Q : exists q, bits_picture 2 tsi_bits tsi_used [0xF8; 0] = Some q) by (eexists; reflexivity). destruct Q as (q & Q). exists q. split; [exact Q|]. split; [apply chosen_tsi|].
  split; [apply digitless_iff; reflexivity|]. split; [apply chosen_tsi|]. split; [unfold sizes; cbn [In]; tauto|split; vm_compute; reflexivity].
Qed.
(* An entry mode in TLV data. *)
Example C125_program_example : exists ls, shows p64r plain_env (with_ber (lit "9F390107")) (mkSettings TAuto [42] true) OpBer (lit "9F390107") ls /\ exists ls', shows p64r plain_env (with_ber (lit "E1049F390183")) (mkSettings TAuto [42] true) OpBer (lit "E1049F390183") ls'
  /\ alike [0x9F; 0x39] [0x07] [0x83].
Proof.
  destruct (shown_ber (lit "9F390107")) as (ls & S); [split; vm_compute; reflexivity|vm_compute; reflexivity|]. destruct (shown_ber (lit "E1049F390183")) as (ls' & S'); [split; vm_compute; reflexivity|vm_compute; reflexivity|].
  exists ls. split; [exact S|]. exists ls'. split; [exact S'|]. right. left. unfold twins. cbn [In]. tauto.
Qed.
