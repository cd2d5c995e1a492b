(** C105 with colours: what the colours add to the output. *)

From Coq Require Import ZArith NArith Ascii String List Bool Lia ZifyN ZifyBool ZifyNat Permutation Sorting.
From Verif Require Import Base ModelUtil ModelEnums ModelBitflag ModelSchemas ModelTags ModelTlv ModelValues ModelProcess ModelDisplay
  SpecUtil SpecCodes SpecValues SpecTlv SpecIngenico SpecTags SpecProcess SpecDisplay
  ProofsUtil ProofsGrammar ProofsBer ProofsIngenico ProofsValues PropertiesValues
  PropertiesBer PropertiesIngenico ProofsProcess PropertiesProcess ProofsDisplay ProofsDiagram ProofsScreens ProofsLayout PropertiesDisplay
  SpecPictures ProofsPictures ModelMain SpecMain ProofsMain PropertiesMain ModelCli SpecCli ProofsCli PropertiesCli PropertiesPictures
  SpecReading PropertiesReading ModelTerminal SpecTerminal ProofsTerminal PropertiesTerminal SpecTells ProofsTells PropertiesTells
  ModelCost SpecCost ProofsCost PropertiesCost SpecSame PropertiesSame SpecJoin PropertiesJoin PropertiesScope PropertiesSize PropertiesColumns PropertiesRuns.
Import ListNotations.
Local Open Scope N_scope.

(** ** What colours cost *)

(* The bytes for colours, and the line ends. *)
Definition colour_bytes (l : list event) : N := total (map (fun e => match e with Txt _ => 0 | _ => len (write_event true e) end) l).
Definition feeds (l : list event) : N := N.of_nat (count_occ N.eq_dec (map snd (screen None l)) 10).
Lemma screen_text st st' l : map snd (screen st l) = map snd (screen st' l).
Proof. revert st st'. induction l as [|[s|c|] l IH]; intros st st'; cbn [screen]; [reflexivity| |apply IH|apply IH]. rewrite !map_app, !ink_text. f_equal. apply IH. Qed.
Lemma feeds_app a b : feeds (a ++ b) = feeds a + feeds b.
Proof. unfold feeds. rewrite screen_app, map_app, count_occ_app, (screen_text (style_after None a) None b). lia. Qed.
Lemma colour_app a b : colour_bytes (a ++ b) = colour_bytes a + colour_bytes b.
Proof. unfold colour_bytes. rewrite map_app. apply total_app. Qed.
(* The bytes spent on the line being written, if [j] were spent on it before; nothing if a line has more than 33. *)
Fixpoint spent_after (j : N) (l : list event) : option N :=
  match l with
  | [] => Some j
  | Txt s :: t => spent_after (if existsb (N.eqb 10) s then 0 else j) t
  | e :: t => if j + len (write_event true e) <=? 33 then spent_after (j + len (write_event true e)) t else None
  end.
Lemma spent_app l1 l2 : forall j, spent_after j (l1 ++ l2) = match spent_after j l1 with Some n => spent_after n l2 | None => None end.
Proof. induction l1 as [|[s|c|] l1 IH]; intros j; cbn [app spent_after]; [reflexivity|apply IH| |]; destruct (_ <=? 33); auto. Qed.
Lemma spent_less l : forall j j' n', j <= j' -> spent_after j' l = Some n' -> exists n, spent_after j l = Some n /\ n <= n'.
Proof.
  assert (W : forall e t j j' n', (forall j j' n', j <= j' -> spent_after j' t = Some n' -> exists n, spent_after j t = Some n /\ n <= n') -> j <= j' ->
    (if j' + len (write_event true e) <=? 33 then spent_after (j' + len (write_event true e)) t else None) = Some n' -> exists n, (if j + len (write_event true e) <=? 33 then spent_after (j + len (write_event true e)) t else None) = Some n /\ n <= n').
  { intros e t j j' n' IH L H. destruct (N.leb_spec (j' + len (write_event true e)) 33); [|discriminate H]. destruct (N.leb_spec (j + len (write_event true e)) 33); [|lia]. apply (IH _ (j' + len (write_event true e)) n'); [lia|exact H]. }
  induction l as [|[s|c|] l IH]; intros j j' n' L H; cbn [spent_after] in *.
  - injection H as <-. eauto.
  - apply (IH _ (if existsb (N.eqb 10) s then 0 else j') n'); [destruct (existsb _ s); lia|exact H].
  - now apply (W _ _ j j').
  - now apply (W _ _ j j').
Qed.
(* With [j] bytes already spent on the current line a piece of output leaves at most [k]; no line has more than 33, not even one broken off. *)
Definition spends (j : N) (d : disp) (k : N) : Prop := exists n, spent_after j (evs d) = Some n /\ (dead d = false -> n <= k).
Lemma sp_then j a k b l : spends j a k -> spends k b l -> spends j (a >>> b) l.
Proof.
  intros (n & A1 & A2) (m & B1 & B2). unfold spends, dthen. destruct (dead a) eqn:D; [exists n; rewrite D; split; [exact A1|discriminate]|]. specialize (A2 eq_refl). cbn [evs dead].
  destruct (spent_less _ n k m A2 B1) as (m' & M & L). exists m'. rewrite spent_app, A1. split; [exact M|]. intros X. specialize (B2 X). lia.
Qed.
Lemma sp_nil j : spends j dnil j.
Proof. exists j. split; [reflexivity|lia]. Qed.
Lemma sp_txt j s : spends j (dtxt s) j.
Proof. eexists. split; [reflexivity|]. intros _. destruct (existsb _ s); lia. Qed.
Lemma sp_ln j s : j <= 33 -> spends j (dln s) 0.
Proof. intros _. eexists. split; [reflexivity|]. intros _. rewrite existsb_app. cbn [existsb]. rewrite N.eqb_refl. cbn [orb]. rewrite orb_true_r. lia. Qed.
Lemma sp_event j e k : j + len (write_event true e) <= k -> k <= 33 -> (match e with Txt _ => False | _ => True end) -> spends j (dev e) k.
Proof. intros L K E. unfold spends. destruct e as [s|c|]; [destruct E| |]; cbn [dev evs dead spent_after]; match goal with |- context [?x <=? 33] => destruct (N.leb_spec x 33); [|lia] end; eexists; (split; [reflexivity|]); lia. Qed.
Lemma sp_set j c : j <= 20 -> spends j (dset c) (j + 13).
Proof. intros L. apply sp_event; [|lia|exact I]. assert (len (write_event true (SetColor c)) <= 13); [|lia]. destruct c as [[] [[]|]]; vm_compute; discriminate. Qed.
Lemma sp_bold j : j <= 25 -> spends j (dset bold_colour_spec) (j + 8).
Proof. intros L. apply sp_event; [|lia|exact I]. change (len (write_event true (SetColor bold_colour_spec))) with 8. lia. Qed.
Lemma sp_reset j : j <= 29 -> spends j dreset (j + 4).
Proof. intros L. apply sp_event; [|lia|exact I]. change (len (write_event true ResetColor)) with 4. lia. Qed.
Lemma sp_dead j k : j <= 33 -> spends j (mkDisp [] true) k.
Proof. intros L. exists j. split; [reflexivity|discriminate]. Qed.
Lemma sp_let {A} (r : res A) f j k : j <= 33 -> (forall a, spends j (f a) k) -> spends j (dlet r f) k.
Proof. intros L H. destruct r; cbn [dlet]; try apply H; now apply sp_dead. Qed.
Lemma sp_for {A} (l : list A) f j : (forall x, spends j (f x) j) -> spends j (dfor l f) j.
Proof. intros H. induction l as [|x l IH]; [apply sp_nil|]. eapply sp_then; [apply H|exact IH]. Qed.
Lemma sp_indent j i : spends j (print_indentation i) j. Proof. apply sp_txt. Qed.
Lemma sp_label j i c s : j <= 16 -> spends j (label i c s) (j + 17).
Proof. intros L. unfold label. eapply sp_then; [apply sp_indent|]. eapply sp_then; [apply sp_set; lia|]. eapply sp_then; [apply sp_txt|]. replace (j + 17) with (j + 13 + 4) by lia. apply sp_reset. lia. Qed.
Lemma sp_weaken j d k k' : k <= k' -> spends j d k -> spends j d k'.
Proof. intros L (n & A & B). exists n. split; [exact A|]. intros H. specialize (B H). lia. Qed.
(* A line that ends inside a colour leaves the four bytes of the reset to the next one. *)
Lemma sp_label_ln i c s : spends 4 (label_ln i c s) 4.
Proof. unfold label_ln. eapply sp_then; [apply sp_indent|]. eapply sp_then; [apply sp_set; lia|]. eapply sp_then; [apply sp_ln; lia|]. apply (sp_reset 0). lia. Qed.
Lemma sp_end j s : j <= 33 -> spends j (dln s) 4.
Proof. intros L. apply (sp_weaken _ _ 0); [lia|]. now apply sp_ln. Qed.
Lemma sp_ln_reset j s : j <= 33 -> spends j (dln s >>> dreset) 4.
Proof. intros L. eapply sp_then; [now apply sp_ln|]. apply (sp_reset 0). lia. Qed.
Lemma sp_ln_reset_then j s d k : j <= 33 -> spends 4 d k -> spends j (dln s >>> (dreset >>> d)) k.
Proof. intros L H. eapply sp_then; [now apply sp_ln|]. eapply sp_then; [apply (sp_reset 0); lia|exact H]. Qed.
Ltac sp_step :=
  lazymatch goal with
  | |- spends _ (dln _ >>> dreset) _ => apply sp_ln_reset; lia
  | |- spends _ (dln _ >>> (dreset >>> _)) _ => apply sp_ln_reset_then; [lia|]
  | |- spends _ (_ >>> _) _ => eapply sp_then
  | |- spends _ dnil _ => apply sp_nil
  | |- spends _ (dtxt _) _ => apply sp_txt
  | |- spends _ (print_bytes_small _) _ => apply sp_txt
  | |- spends _ (dln _) _ => apply sp_end; lia
  | |- spends _ (dset bold_colour_spec) _ => apply sp_bold; lia
  | |- spends _ (dset _) _ => apply sp_set; lia
  | |- spends _ dreset _ => apply sp_reset; lia
  | |- spends _ (print_indentation _) _ => apply sp_indent
  | |- spends _ (label _ _ _) _ => apply sp_label; lia
  | |- spends _ (label_ln _ _ _) _ => apply sp_label_ln
  | |- spends _ (mkDisp [] true) _ => apply sp_dead; lia
  | |- spends _ (dlet _ _) _ => apply sp_let; [lia|intros ?]
  | |- spends _ (dfor _ _) _ => apply sp_for; intros ?
  | |- spends _ (if ?b then _ else _) _ => destruct b
  | |- spends _ (match ?b with Some _ => _ | None => _ end) _ => destruct b
  end.
Lemma sp_header_arms p n l : forall c, spends 4 (header_arms p n l c) 4.
Proof. induction l as [|r l IH]; intros c; cbn [header_arms]; repeat sp_step; apply IH. Qed.
Lemma sp_display_bits p n raw ranges ind show : spends 4 (display_bits p n raw ranges ind show) 4.
Proof. unfold display_bits. repeat sp_step; try apply sp_header_arms; unfold explanation_line; repeat sp_step. Qed.
Lemma sp_print_bytes l w i : spends 4 (print_bytes l w i) 4.
Proof. unfold print_bytes. repeat sp_step. Qed.
Lemma sp_print_bytes_pretty l w i : spends 4 (print_bytes_pretty l w i) 4.
Proof. unfold print_bytes_pretty. repeat sp_step. Qed.
Lemma sp_rules p i l : forall k, spends 4 (display_cv_rules p i k l) 4.
Proof. induction l as [|r l IH]; intros k; cbn [display_cv_rules]; [apply sp_nil|]. eapply sp_then; [|apply IH]. unfold display_cv_rule_entry. repeat sp_step. Qed.
Lemma sp_value p v i show : spends 4 (display_value p v i show) 4.
Proof.
  destruct v; cbn [display_value]; try apply sp_display_bits.
  - unfold display_cvm_results. apply sp_let; [lia|]. intros r. apply sp_display_bits.
  - unfold display_cvm_list. cbn zeta. repeat sp_step; apply sp_rules.
  - unfold display_iad, display_bitflag. repeat (sp_step || apply sp_display_bits || apply sp_print_bytes).
  - unfold display_iac_default. eapply sp_then; [apply sp_label_ln|]. apply sp_display_bits.
  - unfold display_iac_denial. eapply sp_then; [apply sp_label_ln|]. apply sp_display_bits.
  - unfold display_iac_online. eapply sp_then; [apply sp_label_ln|]. apply sp_display_bits.
  - unfold display_service_code, service_code_entry. repeat sp_step.
  - unfold display_line. repeat sp_step.
  - unfold display_line. repeat sp_step.
  - unfold display_line. repeat sp_step.
  - unfold display_line. repeat sp_step.
  - unfold display_tag_info. repeat sp_step.
Qed.
Lemma sp_ptag p t i show : spends 4 (display_ptag p t i show) 4.
Proof.
  assert (R : forall r, spends 4 (display_raw_tag p r i) 4).
  { intros r. unfold display_raw_tag. destruct (rt_data r) as [[|]|]; repeat sp_step. apply sp_print_bytes_pretty. }
  assert (N : forall a b c, spends 4 (print_tag_name i a b c) 4).
  { intros a b c. unfold print_tag_name. cbn zeta. repeat sp_step. }
  destruct t; cbn [display_ptag]; repeat (eapply sp_then; [first [apply N|apply R|apply sp_label_ln]|]); try apply R. apply sp_let; [lia|]. intros. apply sp_value.
Qed.
Lemma sp_nodes f l : Forall (fun n => spends 4 (f n) 4) l -> forall first, spends 4 (display_nodes f first l) 4.
Proof. induction 1 as [|n l Hn _ IH]; intros first; cbn [display_nodes]; [apply sp_nil|]. eapply sp_then; [destruct first; [apply sp_nil|apply sp_end; lia]|]. eapply sp_then; [exact Hn|]. apply IH. Qed.
Lemma sp_node p show n : forall i, spends 4 (display_pnode p show n i) 4.
Proof.
  induction n as [t c IH] using pnode_tree_ind. intros i. cbn [display_pnode]. eapply sp_then; [apply sp_ptag|]. destruct c as [|x c']; [apply sp_nil|].
  remember (x :: c') as c eqn:Ec. eapply sp_then; [apply sp_label_ln|]. apply sp_let; [lia|]. intros a. apply sp_nodes. eapply Forall_impl; [|exact IH]. intros n Hn. apply Hn.
Qed.
Lemma sp_block p l i show : spends 4 (display_block p l i show) 4.
Proof. apply sp_nodes, Forall_forall. intros n _. apply sp_node. Qed.

(** ** Runs *)

Lemma spent_bound l : forall j n, spent_after j l = Some n -> j <= 33 -> j + colour_bytes l <= 33 * feeds l + n /\ n <= 33.
Proof.
  assert (W : forall e t j n, (match e with Txt _ => False | _ => True end) -> (forall j n, spent_after j t = Some n -> j <= 33 -> j + colour_bytes t <= 33 * feeds t + n /\ n <= 33) ->
    (if j + len (write_event true e) <=? 33 then spent_after (j + len (write_event true e)) t else None) = Some n -> j + colour_bytes (e :: t) <= 33 * feeds (e :: t) + n /\ n <= 33).
  { intros e t j n E IH H. destruct (N.leb_spec (j + len (write_event true e)) 33) as [L|]; [|discriminate H]. destruct (IH _ _ H L) as [A B]. change (e :: t) with ([e] ++ t). rewrite colour_app, feeds_app.
    assert (X : colour_bytes [e] = len (write_event true e) + 0) by (destruct e; [destruct E|reflexivity|reflexivity]). rewrite X. lia. }
  induction l as [|[s|c|] l IH]; intros j n H J; cbn [spent_after] in H.
  - injection H as <-. change (colour_bytes []) with 0. lia.
  - change (Txt s :: l) with ([Txt s] ++ l). rewrite colour_app, feeds_app. change (colour_bytes [Txt s]) with 0. destruct (existsb (N.eqb 10) s) eqn:X.
    + destruct (IH _ _ H ltac:(lia)) as [A B]. assert (F : 1 <= feeds [Txt s]); [|lia]. apply existsb_exists in X. destruct X as (c & I & E). apply N.eqb_eq in E. subst c. unfold feeds. cbn [screen]. rewrite app_nil_r, ink_text. apply (count_occ_In N.eq_dec) in I. lia.
    + destruct (IH _ _ H J) as [A B]. lia.
  - now apply W.
  - now apply W.
Qed.
Lemma spent d : spends 4 d 4 -> exists n, spent_after 4 (evs d) = Some n.
Proof. intros (n & A & _). now exists n. Qed.
Lemma run_spent_lines p st op s : exists n, spent_after 4 (o_stdout (run_one p st op s)) = Some n.
Proof.
  assert (Op : forall A (r : res A) d, (forall a, spends 4 (d a) 4) -> exists n, spent_after 4 (o_stdout (run_op r d)) = Some n).
  { intros A r d H. destruct r as [a|e| |]; try (exists 4; reflexivity). cbn [run_op o_stdout]. now apply spent. }
  unfold run_one. destruct (value_result op s) as [r|]; [apply Op; intros v; apply sp_value|].
  destruct (tlv_result p (set_masking st) op s) as [r|]; [|exists 4; reflexivity]. apply Op. intros [f b]. cbn [fst snd]. eapply sp_then; [|apply sp_block].
  destruct f as [f|]; [|apply sp_nil]. unfold header, auto_header. repeat sp_step.
Qed.
Lemma run_spent p st op s : colour_bytes (o_stdout (run_one p st op s)) <= 33 * feeds (o_stdout (run_one p st op s)) + 29.
Proof. destruct (run_spent_lines p st op s) as (n & H). destruct (spent_bound _ _ _ H ltac:(lia)). lia. Qed.
Lemma coloured_len l : len (write_events true l) = len (utf8 (map snd (screen None l))) + colour_bytes l.
Proof.
  unfold write_events, colour_bytes. assert (X : forall st, len (flat_map (write_event true) l) = len (utf8 (map snd (screen st l))) + total (map (fun e => match e with Txt _ => 0 | _ => len (write_event true e) end) l)); [|apply X].
  induction l as [|x l IH]; intros st; [reflexivity|]. cbn [flat_map map]. rewrite len_app. change (total (?a :: ?b)) with (a + total b). destruct x as [s|c|]; cbn [screen].
  - rewrite map_app, ink_text. unfold utf8. rewrite flat_map_app, len_app. rewrite (IH st). unfold utf8. cbn [write_event]. unfold utf8. lia.
  - rewrite (IH (Some c)). lia.
  - rewrite (IH None). lia.
Qed.
(* Colours add at most 33 bytes for each line that was ended and 29 for the last: the output is bounded with colours as well. *)
Theorem C105_coloured : forall p e m st op s v, load_settings e m = Ok st -> SpecMain.chosen m op s -> text64 p s ->
  len (stdout_bytes v st (run_main p e m)) <= len (utf8 (text_of (o_stdout (run_main p e m)))) + 33 * N.of_nat (count_occ N.eq_dec (text_of (o_stdout (run_main p e m))) 10) + 29
  /\ len (stdout_bytes v st (run_main p e m)) <= 1545 * (len s * len s + 34 * len s + 64) + 8 * len s + 29.
Proof.
  intros p e m st op s v L C T. assert (X : len (stdout_bytes v st (run_main p e m)) <= len (utf8 (text_of (o_stdout (run_main p e m)))) + 33 * N.of_nat (count_occ N.eq_dec (text_of (o_stdout (run_main p e m))) 10) + 29).
  { unfold stdout_bytes, text_of. destruct (should_attempt_color v (set_colour st)).
    - rewrite coloured_len. rewrite (main_chosen p e m st op s L C). pose proof (run_spent p st op s) as R. unfold feeds in R. lia.
    - rewrite (write_plain _ None). lia. }
  split; [exact X|]. pose proof (C105_program p e m st op s L C T) as H. pose proof (C88_program p e m st op s L C T) as K. pose proof (utf8_len (text_of (o_stdout (run_main p e m)))) as U. lia.
Qed.
(* A run with colours: what is written is longer than the text. *)
Example C105_coloured_example : load_settings plain_env (with_ber (lit "8A023030")) = Ok (mkSettings TAuto [42] true) /\ SpecMain.chosen (with_ber (lit "8A023030")) OpBer (lit "8A023030") /\ text64 p64r (lit "8A023030")
  /\ len (utf8 (text_of (o_stdout (run_main p64r plain_env (with_ber (lit "8A023030")))))) < len (stdout_bytes (mkVars (Some (lit "xterm")) false) (mkSettings TAuto [42] true) (run_main p64r plain_env (with_ber (lit "8A023030")))).
Proof.
  split; [now apply plain_settings|]. split; [|split; [split; vm_compute; reflexivity|vm_compute; reflexivity]].
  split; [reflexivity|]. exists [OpTvr; OpIad; OpCvr; OpTsi; OpCvmResults; OpCvmList; OpIdentify; OpAuto], [OpIngenico; OpServiceCode]. split; [reflexivity|]. repeat constructor.
Qed.
