(** The properties of what is copied from the screen into another command. *)

From Coq Require Import ZArith NArith String List Bool Lia ZifyN ZifyBool ZifyNat Permutation Sorting.
From Verif Require Import Base ModelUtil ModelEnums ModelBitflag ModelSchemas ModelTags ModelTlv ModelValues ModelProcess ModelDisplay
  SpecUtil SpecCodes SpecValues SpecTlv SpecIngenico SpecTags SpecProcess SpecDisplay
  ProofsUtil ProofsGrammar ProofsBer ProofsIngenico ProofsValues PropertiesValues
  PropertiesBer PropertiesIngenico ProofsProcess PropertiesProcess ProofsDisplay ProofsDiagram ProofsScreens ProofsLayout PropertiesDisplay
  SpecPictures ProofsPictures ModelMain SpecMain ProofsMain PropertiesMain ModelCli SpecCli ProofsCli PropertiesCli PropertiesPictures
  SpecReading PropertiesReading ModelTerminal SpecTerminal ProofsTerminal PropertiesTerminal SpecTells ProofsTells PropertiesTells
  SpecSame PropertiesSame SpecJoin PropertiesJoin PropertiesCut SpecCopied.
Import ListNotations.
Local Open Scope N_scope.

(** ** Dumps *)

Lemma tabs_no_digits n : filter is_hex_digitb (repeat 9 n) = [].
Proof. apply filter_none. intros x H. apply repeat_spec in H. now subst. Qed.
Lemma columns_digits w (f : list N -> str) i ls : (forall l, In l ls -> filter is_hex_digitb (firstn w (f l)) = hex_text l) ->
  filter is_hex_digitb (columns w (map (fun l => row i [(None, f l)]) ls)) = hex_text (List.concat ls).
Proof.
  intros H. unfold columns. induction ls as [|l ls IH]; [reflexivity|]. cbn [map flat_map l_tabs l_spans row snd List.concat]. rewrite app_nil_r, !filter_app, hex_text_app.
  rewrite tabs_no_digits, (H l (or_introl eq_refl)), IH by (intros x I; apply H; now right). cbn [app filter]. change (is_hex_digitb 10) with false. cbv iota. now rewrite app_nil_r.
Qed.
Lemma chunks_whole (d : list N) : List.concat (chunks 16 d) = d /\ Forall (fun x => 1 <= len x /\ len x <= 16) (chunks 16 d).
Proof. pose proof (cut_chunks 16 d ltac:(lia)) as C. change (N.to_nat 16) with 16%nat in C. destruct (C55_lines 16 d _ ltac:(lia) C) as (E & F & _). auto. Qed.
Lemma wide_copied d i w : bytes_ok d -> (47 <= w <= 49)%nat -> hex_bytes (columns w (wide_dump i d)) = d.
Proof.
  intros H W. rewrite hex_bytes_eq. apply read_back; [assumption|]. destruct (chunks_whole d) as [E F]. rewrite <- E at 2.
  apply columns_digits. intros l I. rewrite Forall_forall in F. destruct (F l I) as [L1 L2].
  pose proof (ProofsScreens.chunks_bytes 16 d l H I) as B.
  assert (P : (List.length (spaced (map byte_text l)) + 1 = 3 * List.length l)%nat) by (apply spaced_bytes_length; intros ->; cbn in L1; lia).
  unfold len in *. unfold pad_right. rewrite <- app_assoc, firstn_app. rewrite firstn_all2 by lia. rewrite filter_app, digits_spaced by assumption.
  rewrite filter_none; [apply app_nil_r|]. intros c Hc. rewrite firstn_app, repeat_length in Hc.
  replace (w - _ - _)%nat with 0%nat in Hc by (change (N.to_nat 49) with 49%nat; lia).
  cbn [firstn] in Hc. rewrite app_nil_r in Hc. assert (Ic : In c (repeat 32 (N.to_nat 49 - List.length (spaced (map byte_text l))))).
  { rewrite <- (firstn_skipn (w - List.length (spaced (map byte_text l)))). apply in_or_app. now left. }
  apply repeat_spec in Ic. now subst.
Qed.
Lemma tag_sound p masks op s f ns n : text64 p s -> tlv_block masks op s f ns -> occurs n ns -> tag_ok (node_tag n).
Proof.
  intros T B O. assert (F : forest_ok ns).
  { assert (R : exists r, tlv_result p masks op s = Some r) by (inversion B; subst; eexists; reflexivity). destruct R as [r R].
    destruct (tlv_settles p masks op s r T R) as (X & _ & _ & _ & _ & G). apply X in B. exact (G f ns B). }
  unfold forest_ok in F. rewrite Forall_forall in F. apply F. apply (occurs_preorder _ _ O). destruct n. now left.
Qed.
Lemma not_failing p masks sort op s f ns ls n : text64 p s -> tlv_block masks op s f ns -> occurs n ns -> sheet masks sort op s ls -> forall e, ~ tag_fails (node_tag n) e.
Proof.
  intros T B O H. inversion H as [g q I E|m Oo D Le|f' ns0 m B' N A]; subst.
  - exfalso. unfold byte_operations in I. cbn [In] in I. inversion B; subst; repeat (destruct I as [I|I]; [discriminate|]); destruct I.
  - inversion B.
  - destruct (tlv_block_det p _ _ _ _ _ _ _ T B B') as [<- <-]. rewrite Forall_forall in N. apply N, (occurs_preorder _ _ O). destruct n. now left.
Qed.
(* The lines of an object: its tag, its data, and what follows. *)
Lemma object_between p masks sort op s f ns n ls d : text64 p s -> tlv_block masks op s f ns -> occurs n ns -> sheet masks sort op s ls ->
  rt_data (node_tag n) = Normal d -> d <> [] ->
  exists i before after, ls = before ++ tag_row i (node_tag n) (tag_title (node_tag n)) :: heading_row i (lit "Raw:") :: wide_dump (i + 1) d ++ meaning_lines (node_tag n) i true ++ after.
Proof.
  intros T B O H E N. destruct (object_shown p _ _ _ _ _ _ _ _ T B O H) as (n' & i & b & a & -> & R). apply shown_tag in R. destruct n' as [t c]. cbn [node_tag] in R. subst t.
  exists i, b. eexists. cbn [tree_lines]. unfold tag_lines, data_lines. rewrite E. destruct d as [|x d]; [congruence|]. cbn [app]. rewrite <- !app_assoc. cbn [app]. rewrite <- ?app_assoc. reflexivity.
Qed.
Lemma picture_or_iad op t d r : In (op, t) value_of_tag -> rt_tag r = t -> rt_data r = Normal d -> bytes_ok d -> (forall e, ~ tag_fails r e) ->
  (exists q, picture_of t d = Some q) \/ picture_of t d = None /\ op = OpIad /\ ~ (exists cci dki cvr counters rest, iad_layout d cci dki cvr counters rest /\ (cci = 0xA5 \/ cci = 0xA6)).
Proof.
  intros I Et Ed Hd F. assert (D : data_ok r) by (unfold data_ok; now rewrite Ed).
  apply (ok_iff_not_fails r D) in F. destruct F as [pt F]. apply (process_facts r D) in F.
  assert (In t interpreted_tags) as J by (unfold value_of_tag in I; cbn [In] in I; among I; injection I as <- <-; cbn; tauto).
  destruct F as [U|x K [M|M]|x d' v K E V|x d' E P].
  - exfalso. rewrite Et in U. now apply interpreted_known in U.
  - congruence.
  - rewrite Et in M. contradiction.
  - left. rewrite Et in V. assert (d' = d) as -> by congruence. destruct (picture_value t d v Hd V) as (q & Q & _). eauto.
  - assert (d' = d) as -> by congruence. rewrite Et in P. destruct (picture_of t d) as [q|] eqn:Q; [left; eauto|right]. split; [reflexivity|].
    unfold value_of_tag in I. cbn [In] in I. among I; injection I as <- <-; inversion P; subst; auto.
Qed.

(* Tags are never empty. *)
Lemma trees_named masks b objs rest ns : ber_objects b objs rest -> ber_trees masks objs ns -> Forall (fun n => rt_tag (node_tag n) <> []) ns.
Proof.
  intros H. revert ns. induction H as [|b t v mid objs rest O _ IH]; intros ns Ht; inversion Ht as [|o n os ns' Tn Ts]; subst; constructor; [|now apply IH].
  inversion O as [t' l v' rest' Tg _ _]; subst. inversion Tn; subst; cbn [node_tag rt_tag]; inversion Tg; discriminate.
Qed.
Lemma texts_named masks s es ns : ing_text masks s es -> ing_nodes masks es ns -> Forall (fun n => rt_tag (node_tag n) <> []) ns.
Proof.
  intros H Hn. assert (E : Forall (fun e => ie_tag e <> []) es).
  { clear Hn. assert (F : forall f e, ing_field masks f e -> ie_tag e <> []) by (intros f e F; inversion F as [ty td tag ld n fmt txt d (_ & k & _ & Nt & _) _ _]; subst; exact Nt).
    induction H; repeat constructor; eauto. }
  clear H. induction Hn as [|e es ns Ty _ IH|e es n ns Ty N _ IH]; [constructor|apply IH; now inversion E|]. inversion E as [|? ? Ne E']; subst. constructor; [|now apply IH].
  inversion N; subst; exact Ne.
Qed.
Lemma block_named masks op s f ns : tlv_block masks op s f ns -> Forall (fun n => rt_tag (node_tag n) <> []) ns.
Proof.
  intros B. inversion B as [s' ns' (objs & O & H)|s' ns' (_ & es & O & H)|s' ns' _ (_ & es & O & H)|s' ns' _ _ (objs & O & H)]; subst; eauto using trees_named, texts_named.
Qed.
Lemma occurs_named masks n ns : occurs n ns -> Forall (fun n => exists t d, ing_node masks t d n) ns -> Forall (fun n => rt_tag (node_tag n) <> []) ns -> rt_tag (node_tag n) <> [].
Proof.
  intros O. induction O as [ns H|m ns H O IH]; intros F G; rewrite Forall_forall in F, G.
  - now apply G.
  - destruct (F m H) as (t & d & I). inversion I as [|v objs cs Ty Ho Ht]; subst; cbn [node_children] in *; [inversion O as [? X|? ? X _]; destruct X|].
    apply IH; [eapply ber_trees_made; eassumption|eapply trees_named; eassumption].
Qed.

(** C91: data copied from the screen. *)
(* The data of a tag, selected as a block of columns below "Raw:", is shown by the operation
   for such values as it is shown below "Parsed:". *)
Theorem C91_value : forall p masks sort op t w masks' sort' op' s' f ns n d ls', In (op, t) value_of_tag -> (47 <= w <= 49)%nat ->
  text64 p s' -> tlv_block masks' op' s' f ns -> occurs n ns -> rt_tag (node_tag n) = t -> rt_data (node_tag n) = Normal d -> d <> [] -> sheet masks' sort' op' s' ls' ->
  exists i before dump after, ls' = before ++ tag_row i (node_tag n) (tag_title (node_tag n)) :: heading_row i (lit "Raw:") :: dump ++ after /\ dump <> []
    /\ ((exists ls rest, sheet masks sort op (columns w dump) ls /\ after = heading_row i (lit "Parsed:") :: map (moved (i + 1)) ls ++ rest)
        \/ op = OpIad /\ refused masks OpIad (columns w dump) NonCcdCompliant).
Proof.
  intros p masks sort op t w masks' sort' op' s' f ns n d ls' I W T B O Et Ed Nd H.
  assert (Hd : bytes_ok d) by (destruct (tag_sound p _ _ _ _ _ _ T B O) as [_ D]; unfold data_ok in D; now rewrite Ed in D).
  destruct (object_between p _ _ _ _ _ _ _ _ d T B O H Ed Nd) as (i & before & after & ->). exists i, before, (wide_dump (i + 1) d), (meaning_lines (node_tag n) i true ++ after).
  split; [reflexivity|]. split.
  { intros E. apply (f_equal (fun l => hex_bytes (columns w l))) in E. rewrite wide_copied in E by assumption. now apply Nd. }
  unfold meaning_lines. rewrite Ed, Et. destruct (picture_or_iad op t d (node_tag n) I Et Ed Hd (not_failing p _ _ _ _ _ _ _ _ T B O H)) as [[q Q]|(Q & -> & L)]; rewrite Q.
  - left. exists (q 0 true), after. split; [|rewrite <- (picture_movable _ _ _ Q), N.add_0_l; reflexivity].
    assert (X : exists g, In (op, g) byte_operations /\ g d = Some q) by (unfold value_of_tag in I; cbn [In] in I; among I; injection I as <- <-; eexists; (split; [cbn [byte_operations In]; tauto|exact Q])).
    destruct X as (g & X & Y). apply (sheet_value masks sort op _ g q X). now rewrite wide_copied.
  - right. split; [reflexivity|]. constructor. now rewrite wide_copied.
Qed.
(* The data of a template, copied in the same way, is shown by the BER-TLV operation as the
   child tags are. *)
Theorem C91_template : forall p masks sort op s f ns t c d w ls, text64 p s -> tlv_block masks op s f ns -> occurs (RawNode t c) ns -> c <> [] ->
  rt_data t = Normal d -> (47 <= w <= 49)%nat -> sheet masks sort op s ls -> (forall i, text64 p (columns w (wide_dump i d))) ->
  exists i before dump middle after ls2, ls = before ++ tag_row i t (tag_title t) :: heading_row i (lit "Raw:") :: dump ++ middle
      ++ heading_row i (lit "Constructed Data Object's Child Tags:") :: map (moved (i + 1)) ls2 ++ after
    /\ sheet masks sort OpBer (columns w dump) ls2.
Proof.
  intros p masks sort op s f ns t c d w ls T B O N Ed W H T2.
  assert (Hd : bytes_ok d) by (destruct (tag_sound p _ _ _ _ _ _ T B O) as [_ D]; unfold data_ok in D; cbn [node_tag] in D; now rewrite Ed in D).
  destruct (C83_nested p masks sort op s f ns t c d (columns w (wide_dump 0 d)) ls T (T2 0) B O N Ed (wide_copied d 0 w Hd W) H) as (ls2 & i & before & after & S & ->).
  exists i, before, (wide_dump (i + 1) d), (meaning_lines t i true), after, ls2. split.
  - unfold tag_lines, data_lines. rewrite Ed. destruct d as [|x d]; [|cbn [app]; rewrite <- !app_assoc; cbn [app]; rewrite <- ?app_assoc; reflexivity].
    exfalso. pose proof (block_made p masks op s f ns T B) as M. destruct (occurs_made masks _ _ O) as (t0 & d0 & I). { eapply Forall_impl; [|exact M]. intros a [X _]. exact X. }
    inversion I as [|v' objs cs Ty Ho Ht]; subst; [contradiction|]. cbn [rt_data] in Ed. injection Ed as ->. apply ber_objects_nil_inv in Ho. subst. inversion Ht; subst. contradiction.
  - assert (R : forall s', hex_bytes s' = d -> sheet masks sort OpBer s' ls2 <-> sheet masks sort OpBer (columns w (wide_dump 0 d)) ls2).
    { intros s' Es. assert (K : forall x y, hex_bytes x = hex_bytes y -> sheet masks sort OpBer x ls2 -> sheet masks sort OpBer y ls2).
      { intros x y Exy Hx. inversion Hx as [g q I E|m Oo D Le|f' ns0 m B' N' A]; subst.
        - exfalso. unfold byte_operations in I. cbn [In] in I. repeat (destruct I as [I|I]; [discriminate|]). destruct I.
        - discriminate.
        - inversion B' as [x' ns' BB| | |]; subst. apply (sheet_block masks sort OpBer y None ns0 m); [|assumption|assumption]. constructor. unfold ber_block in *. now rewrite <- Exy. }
      split; apply K; rewrite Es, (wide_copied d 0 w Hd W); reflexivity. }
    apply R; [now apply wide_copied|assumption].
Qed.
(* A tag copied from its line is identified by the name shown there. *)
Theorem C91_tag : forall p masks sort masks' sort' op' s' f ns n ls', text64 p s' -> tlv_block masks' op' s' f ns -> occurs n ns -> sheet masks' sort' op' s' ls' ->
  exists i before after tag length title, ls' = before ++ row i [(heading, lit "Tag:"); (None, lit " 0x"); (bold, tag); (None, lit " - " ++ length ++ lit " - " ++ title)] :: after
    /\ exists name rest, sheet masks sort OpIdentify tag (titled 0 heading (lit "Name:") (lit "             " ++ name) :: rest)
      /\ (title = name \/ In (hex_bytes tag) [[0x8A]; [0x9C]; [0x9F; 0x10]]).
Proof.
  intros p masks sort masks' sort' op' s' f ns n ls' T B O H.
  destruct (tag_sound p _ _ _ _ _ _ T B O) as [Ht _]. set (tag := hex_text (rt_tag (node_tag n))).
  assert (Q : hex_bytes tag = rt_tag (node_tag n)).
  { rewrite hex_bytes_eq. apply read_back; [assumption|]. apply filter_all. now apply hex_text_digits. }
  assert (K : exists b l, rt_tag (node_tag n) = b :: l).
  { pose proof (block_made p masks' op' s' f ns T B) as M.
    pose proof (occurs_named masks' n ns O ltac:(eapply Forall_impl; [|exact M]; intros a [X _]; exact X) (block_named _ _ _ _ _ B)) as X. destruct (rt_tag (node_tag n)) as [|b l]; [congruence|eauto]. }
  destruct K as (b & l & K).
  assert (S : exists ls, sheet masks sort OpIdentify tag ls) by (eexists; eapply (sheet_value masks sort OpIdentify tag identify_picture); [cbn [byte_operations In]; tauto|rewrite Q, K; reflexivity]).
  destruct S as [ls S]. destruct (C83_name p masks sort tag ls masks' sort' op' s' f ns n ls' S T B O (eq_sym Q) H) as (name & title & i & before & after & rest & E & E' & L).
  exists i, before, after, tag, (length_text (rt_data (node_tag n))), title. split; [exact E'|]. exists name, rest. split; [now rewrite <- E|]. tauto.
Qed.
(* Whole lines also hold the readable characters, which may be digits. *)
Theorem C91_lines_refuted : exists s f ns n ls i before dump after d, text64 p64 s /\ tlv_block [42] OpBer s f ns /\ occurs n ns /\ sheet [42] true OpBer s ls
  /\ ls = before ++ tag_row i (node_tag n) (tag_title (node_tag n)) :: heading_row i (lit "Raw:") :: dump ++ heading_row i (lit "Parsed:") :: after
  /\ rt_tag (node_tag n) = [0x9B] /\ rt_data (node_tag n) = Normal d
  /\ (exists lines, sheet [42] true OpTsi (columns 48 dump) lines) /\ refused [42] OpTsi (whole_lines dump) (ByteCountIncorrect Eq 2 3).
Proof.
  set (t := mkRawTag [0x9B] TagClass_ContextSpecific Primitive (Normal [0x41; 0x42])). set (s := lit "9B024142").
  assert (T : text64 p64 s) by (split; vm_compute; reflexivity).
  assert (B : tlv_block [42] OpBer s None [RawNode t []]) by (apply (tlv_settles p64 [42] OpBer s _ T eq_refl); vm_compute; reflexivity).
  assert (Q : exists q, bits_picture 2 tsi_bits tsi_used [0x41; 0x42] = Some q) by (eexists; reflexivity). destruct Q as [q Q].
  assert (D : forall e, ~ tag_fails t e).
  { intros e (d & E & K). cbn [t rt_tag rt_data] in E, K. injection E as <-. inversion K as [? n ? I L| | | | | | |]; subst. apply L. cbn [fixed_lengths In] in I.
    among I; try discriminate; injection I as <-; reflexivity. }
  assert (O : in_order [RawNode t []] [RawNode t []]).
  { apply (in_order_intro _ [RawNode t []]); [reflexivity|repeat constructor|reflexivity|]. repeat constructor. apply (in_order_intro _ []); constructor. }
  exists s, None, [RawNode t []], (RawNode t []). eexists. exists 0, [], (wide_dump 1 [0x41; 0x42]), (q 1 true), [0x41; 0x42].
  split; [exact T|]. split; [exact B|]. split; [now apply occurs_here; left|]. split; [|split; [|split; [reflexivity|split; [reflexivity|split]]]].
  - apply (sheet_block [42] true OpBer s None [RawNode t []] [RawNode t []] B); [|exact O]. constructor; [exact D|constructor].
  - cbn [format_lines app forest_lines map separated tree_lines node_tag]. rewrite app_nil_r. unfold tag_lines, meaning_lines. cbn [rt_data rt_tag t].
    change (picture_of [0x9B] [0x41; 0x42]) with (bits_picture 2 tsi_bits tsi_used [0x41; 0x42]). rewrite Q. reflexivity.
  - eexists. apply (sheet_value _ _ _ _ (bits_picture 2 tsi_bits tsi_used) q); [cbn [byte_operations In]; tauto|].
    rewrite wide_copied; [assumption| |lia]. repeat constructor.
  - constructor. change 3 with (len (hex_bytes (whole_lines (wide_dump 1 [65; 66])))). constructor; [cbn [fixed_lengths In]; tauto|]. vm_compute. intros K. discriminate K.
Qed.
(* The same for two runs of the program. *)
Lemma deepest_moved k ls a b : deepest ls <= deepest (a ++ map (moved k) ls ++ b).
Proof.
  assert (M : forall l x, In x l -> l_tabs x <= deepest l).
  { unfold deepest. induction l as [|y l IH]; intros x I; [destruct I|]. cbn [map fold_right]. destruct I as [->|I]; [lia|]. specialize (IH x I). lia. }
  assert (U : forall l z, (forall x, In x l -> l_tabs x <= z) -> deepest l <= z).
  { unfold deepest. induction l as [|y l IH]; intros z H; cbn [map fold_right]; [lia|]. pose proof (H y (or_introl eq_refl)). specialize (IH z (fun x I => H x (or_intror I))). lia. }
  apply U. intros x I. transitivity (l_tabs (moved k x)); [unfold moved; destruct (l_spans x); cbn [l_tabs]; lia|].
  apply M, in_or_app. right. apply in_or_app. left. now apply in_map.
Qed.
Theorem C91_program : forall p op t w e' m' st' op' s' f ns n d ls', In (op, t) value_of_tag -> (47 <= w <= 49)%nat ->
  load_settings e' m' = Ok st' -> chosen m' op' s' -> text64 p s' -> tlv_block (set_masking st') op' s' f ns -> occurs n ns ->
  rt_tag (node_tag n) = t -> rt_data (node_tag n) = Normal d -> d <> [] -> sheet (set_masking st') (set_sort st') op' s' ls' -> fits p (deepest ls') ->
  displays (run_main p e' m') ls'
  /\ exists i before dump after, ls' = before ++ tag_row i (node_tag n) (tag_title (node_tag n)) :: heading_row i (lit "Raw:") :: dump ++ after
    /\ forall e m st, load_settings e m = Ok st -> chosen m op (columns w dump) -> text64 p (columns w dump) ->
       (exists ls rest, displays (run_main p e m) ls /\ after = heading_row i (lit "Parsed:") :: map (moved (i + 1)) ls ++ rest)
       \/ op = OpIad /\ complains (run_main p e m) NonCcdCompliant.
Proof.
  intros p op t w e' m' st' op' s' f ns n d ls' I W L' C' T' B O Et Ed Nd H F. split; [exact (C73_shown p e' m' st' op' s' ls' L' C' T' H F)|].
  destruct (C91_value p [] false op t w _ _ op' s' f ns n d ls' I W T' B O Et Ed Nd H) as (i & before & dump & after & E & _ & R). exists i, before, dump, after. split; [assumption|].
  intros e m st L C T. destruct R as [(ls & rest & S & ->)|(-> & R)].
  - left. exists ls, rest. split; [|reflexivity]. apply (C73_shown p e m st op _ ls L C T).
    + assert (X : exists g, In (op, g) byte_operations) by (unfold value_of_tag in I; cbn [In] in I; among I; injection I as <- <-; eexists; cbn [byte_operations In]; tauto).
      destruct X as [g X]. destruct (sheet_of_value _ _ _ _ _ g X S) as (q & Q & ->). now apply (sheet_value _ _ _ _ g q).
    + intros V. eapply N.le_lt_trans; [|exact (F V)]. rewrite E.
      replace (before ++ _) with ((before ++ tag_row i (node_tag n) (tag_title (node_tag n)) :: heading_row i (lit "Raw:") :: dump ++ [heading_row i (lit "Parsed:")]) ++ map (moved (i + 1)) ls ++ rest); [apply deepest_moved|].
      rewrite <- app_assoc. cbn [app]. now rewrite <- app_assoc.
  - right. split; [reflexivity|]. apply (C61_refused p e m st OpIad _ _ L C T). inversion R as [|? X| | | | | | | | | | | |? ? ? ? ? ? ? ? B']; subst; [now constructor|inversion B'].
Qed.
Example C91_example : exists f ns n, In (OpTsi, [0x9B]) value_of_tag /\ text64 p64 (lit "70049B02E800") /\ tlv_block [42] OpBer (lit "70049B02E800") f ns /\ occurs n ns
  /\ rt_tag (node_tag n) = [0x9B] /\ rt_data (node_tag n) = Normal [0xE8; 0x00] /\ (exists ls, sheet [42] true OpBer (lit "70049B02E800") ls)
  /\ (exists t c, occurs (RawNode t c) ns /\ c <> [] /\ rt_data t = Normal [0x9B; 2; 0xE8; 0] /\ text64 p64 (columns 48 (wide_dump 1 [0x9B; 2; 0xE8; 0])))
  /\ exists lines, sheet [] false OpTsi (columns 48 (wide_dump 2 [0xE8; 0x00])) lines.
Proof.
  set (n := RawNode (mkRawTag [0x9B] TagClass_ContextSpecific Primitive (Normal [0xE8; 0])) []).
  set (m := RawNode (mkRawTag [0x70] TagClass_Application Constructed (Normal [0x9B; 2; 0xE8; 0])) [n]). set (s := lit "70049B02E800").
  assert (T : text64 p64 s) by (split; vm_compute; reflexivity).
  assert (B : tlv_block [42] OpBer s None [m]) by (apply (tlv_settles p64 [42] OpBer s _ T eq_refl); vm_compute; reflexivity).
  exists None, [m], n. split; [cbn; tauto|]. split; [exact T|]. split; [exact B|]. split; [apply (occurs_below _ m); [now left|]; apply occurs_here; now left|].
  split; [reflexivity|]. split; [reflexivity|]. split; [|split].
  - destruct (C73_total p64 [42] true OpBer s T) as [(ls & H & _)|(e & R & _)]; [now exists ls|exfalso].
    destruct (C61_refused p64 plain_env (with_ber s) (mkSettings TAuto [42] true) OpBer s e) as (_ & _ & Z & _); [now apply plain_settings| |assumption|exact R|revert Z; vm_compute; intros Z; discriminate Z].
    split; [reflexivity|]. exists [OpTvr; OpIad; OpCvr; OpTsi; OpCvmResults; OpCvmList; OpIdentify; OpAuto], [OpIngenico; OpServiceCode]. split; [reflexivity|]. repeat constructor.
  - do 2 eexists. split; [apply occurs_here; left; reflexivity|]. split; [discriminate|]. split; [reflexivity|]. split; vm_compute; reflexivity.
  - eexists. apply (sheet_value _ _ _ _ (bits_picture 2 tsi_bits tsi_used)); [cbn [byte_operations In]; tauto|reflexivity].
Qed.
