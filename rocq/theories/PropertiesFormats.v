(** The properties of the same data in different formats. *)

From Coq Require Import ZArith NArith String List Bool Lia ZifyN ZifyBool ZifyNat Permutation Sorting.
From Verif Require Import Base ModelUtil ModelEnums ModelBitflag ModelSchemas ModelTags ModelTlv ModelValues ModelProcess ModelDisplay
  SpecUtil SpecCodes SpecValues SpecTlv SpecIngenico SpecTags SpecProcess SpecDisplay
  ProofsUtil ProofsGrammar ProofsBer ProofsIngenico ProofsValues PropertiesValues
  PropertiesBer PropertiesIngenico ProofsProcess PropertiesProcess ProofsDisplay ProofsDiagram ProofsScreens ProofsLayout PropertiesDisplay
  SpecPictures ProofsPictures ModelMain SpecMain ProofsMain PropertiesMain ModelCli SpecCli ProofsCli PropertiesCli PropertiesPictures
  SpecReading PropertiesReading ModelTerminal SpecTerminal ProofsTerminal PropertiesTerminal SpecTells ProofsTells PropertiesTells
  SpecSame PropertiesSame SpecMasking PropertiesMasking SpecJoin PropertiesJoin PropertiesCut SpecWrap PropertiesWrap SpecFormats.
Import ListNotations.
Local Open Scope N_scope.

(** ** The trees of the objects *)

Definition nodes_of (masks : list N) (os : list (list N * emv_data)) (ns : list raw_node) : Prop :=
  Forall2 (fun x n => ing_node masks (fst x) (snd x) n) os ns.

Lemma nodes_det masks os ns : nodes_of masks os ns -> forall ns', nodes_of masks os ns' -> ns = ns'.
Proof.
  induction 1 as [|x n os ns H _ IH]; intros ns' H'; inversion H' as [|? n' ? ns0 A B]; subst; [reflexivity|].
  f_equal; [now apply (ing_node_det masks (fst x) (snd x))|now apply IH].
Qed.
Lemma nodes_inj masks os ns : nodes_of masks os ns -> forall os', nodes_of masks os' ns -> os = os'.
Proof.
  induction 1 as [|[t d] n os ns H _ IH]; intros os' H'; inversion H' as [|[t' d'] ? os0 ? A B]; subst; [reflexivity|].
  cbn [fst snd] in *. apply ing_node_parts in H. apply ing_node_parts in A. destruct H as (<- & <- & _), A as (<- & <- & _). f_equal. now apply IH.
Qed.
Lemma tree_node masks t v n d : ber_tree masks (t, v) n -> reported masks v d -> ing_node masks t d n.
Proof.
  intros H R. inversion H as [? ? d' R' C|? ? objs cs Hc Hm Ho Ht]; subst.
  - assert (d' = d) as -> by (destruct R as [[M ->]|[M ->]], R' as [[M' ->]|[M' ->]]; tauto).
    constructor. destruct C as [C|[C|C]]; [now left|right; left|].
    + destruct R as [[_ ->]|[M _]]; [reflexivity|tauto].
    + destruct R as [[_ ->]|[_ ->]]; [right; now left|right; right; eauto].
  - destruct R as [[M _]|[_ ->]]; [tauto|]. econstructor; eassumption.
Qed.
Lemma trees_nodes masks objs ns : ber_trees masks objs ns -> forall os, Forall2 (fun o x => fst x = fst o /\ reported masks (snd o) (snd x)) objs os -> nodes_of masks os ns.
Proof.
  induction 1 as [|[t v] n objs ns T _ IH]; intros os H; inversion H as [|? [t' d] ? os' [E R] F]; subst; [constructor|].
  cbn [fst snd] in *. subst t'. constructor; [now apply (tree_node masks t v)|now apply IH].
Qed.
Lemma taken_nodes masks es ns : ing_nodes masks es ns <-> nodes_of masks (map (fun e => (ie_tag e, ie_data e)) (filter (fun e => ie_type e =? letter_T) es)) ns.
Proof.
  split.
  - induction 1 as [|e es ns Ty _ IH|e es n ns Ty N _ IH]; cbn [filter].
    + constructor.
    + apply N.eqb_neq in Ty. now rewrite Ty.
    + apply N.eqb_eq in Ty. rewrite Ty. cbn [map]. now constructor.
  - revert ns. induction es as [|e es IH]; intros ns H; cbn [filter] in H; [inversion H; constructor|].
    destruct (ie_type e =? letter_T) eqn:Ty.
    + apply N.eqb_eq in Ty. cbn [map] in H. inversion H as [|? n ? ns' A B]; subst. apply ing_nodes_take; auto.
    + apply N.eqb_neq in Ty. apply ing_nodes_skip; auto.
Qed.
Lemma reported_some masks v : exists d, reported masks v d.
Proof.
  destruct (masked_dec masks v) as [M|M]; [exists Masked; now left|exists (Normal v); now right].
Qed.
Lemma node_some masks t d : (forall v, d = Normal v -> bytes_ok v) -> exists n, ing_node masks t d n.
Proof.
  intros B. destruct (type_of (first_byte t)) eqn:Ty; [eexists; constructor; now left|].
  destruct d as [v|]; [|eexists; constructor; auto].
  destruct (parse_bytes masks v) as [ns|e| |] eqn:E.
  - apply parse_bytes_sound in E; [|now apply B]. destruct E as (objs & O & T). eexists. econstructor; eassumption.
  - eexists. constructor. right. right. exists v. split; [reflexivity|]. intros (objs & O). destruct (parse_bytes_accepts masks v objs (B v eq_refl) O). congruence.
  - eexists. constructor. right. right. exists v. split; [reflexivity|]. intros (objs & O). destruct (parse_bytes_accepts masks v objs (B v eq_refl) O). congruence.
  - eexists. constructor. right. right. exists v. split; [reflexivity|]. intros (objs & O). destruct (parse_bytes_accepts masks v objs (B v eq_refl) O). congruence.
Qed.
Lemma nodes_some masks os : Forall (fun x => forall v, snd x = Normal v -> bytes_ok v) os -> exists ns, nodes_of masks os ns.
Proof.
  induction 1 as [|x os B _ [ns IH]]; [exists []; constructor|]. destruct (node_some masks (fst x) (snd x) B) as [n N]. exists (n :: ns). now constructor.
Qed.
Lemma entries_ok masks s es : ascii_text s -> ing_text masks s es -> Forall (fun e => forall v, ie_data e = Normal v -> bytes_ok v) es.
Proof.
  intros Ha Ht. induction Ht as [|f e F|f e sep rest es F Ht IH]; [constructor| |].
  - constructor; [|constructor]. intros v E. assert (N1 : inext masks f = Ok (e, [])) by (apply inext_iff; exists f; rewrite app_nil_r; auto).
    now destruct (inext_bytes masks f e [] v Ha N1 E).
  - apply ascii_app in Ha. destruct Ha as [Hf Hr]. apply ascii_cons in Hr. destruct Hr as [_ Hr]. constructor; [|now apply IH].
    intros v E. assert (N1 : inext masks f = Ok (e, [])) by (apply inext_iff; exists f; rewrite app_nil_r; auto).
    now destruct (inext_bytes masks f e [] v Hf N1 E).
Qed.
Lemma ber_held masks s os : ber_holds masks s os -> exists ns, nodes_of masks os ns /\ ber_block masks s ns.
Proof.
  intros (objs & O & R). assert (B : bytes_ok (hex_bytes s)) by (rewrite hex_bytes_eq; apply parse_hex_str_bytes).
  destruct (parse_bytes_accepts masks _ objs B O) as [ns E]. apply parse_bytes_sound in E; [|assumption]. destruct E as (objs' & O' & T).
  rewrite <- (ber_objects_det _ _ _ O O') in T. exists ns. split; [now apply (trees_nodes masks objs)|exists objs; auto].
Qed.
Lemma ingenico_held masks s os : ingenico_holds masks s os -> exists ns, nodes_of masks os ns /\ ingenico_block masks s ns.
Proof.
  intros (A & es & T & ->). destruct (nodes_some masks (map (fun e => (ie_tag e, ie_data e)) (filter (fun e => ie_type e =? letter_T) es))) as [ns N].
  { apply Forall_map. pose proof (entries_ok masks s es A T) as F. rewrite Forall_forall in *. intros e I. apply filter_In in I. cbn [snd]. now apply F. }
  exists ns. split; [assumption|]. split; [assumption|]. exists es. split; [assumption|]. now apply taken_nodes.
Qed.
Lemma reported_each masks (objs : list (list N * list N)) : exists os : list (list N * emv_data), Forall2 (fun o x => fst x = fst o /\ reported masks (snd o) (snd x)) objs os.
Proof.
  induction objs as [|[t v] objs [os IH]]; [exists []; constructor|]. destruct (reported_some masks v) as [d R]. exists ((t, d) :: os). now constructor.
Qed.
Lemma ber_holding masks s ns : ber_block masks s ns -> exists os, nodes_of masks os ns /\ ber_holds masks s os.
Proof.
  intros (objs & O & T). destruct (reported_each masks objs) as [os R]. exists os. split; [now apply (trees_nodes masks objs)|]. exists objs. auto.
Qed.
Lemma ingenico_holding masks s ns : ingenico_block masks s ns -> exists os, nodes_of masks os ns /\ ingenico_holds masks s os.
Proof.
  intros (A & es & T & N). eexists. split; [apply taken_nodes; eassumption|]. split; [assumption|]. exists es. auto.
Qed.
Lemma held masks op s f os : holds masks op s f os -> exists ns, nodes_of masks os ns /\ tlv_block masks op s f ns.
Proof.
  intros H. destruct H as [s os H|s os H|s os Ne H|s os Ne No H].
  - destruct (ber_held _ _ _ H) as (ns & N & B). exists ns. split; [assumption|now constructor].
  - destruct (ingenico_held _ _ _ H) as (ns & N & B). exists ns. split; [assumption|now constructor].
  - destruct (ingenico_held _ _ _ H) as (ns & N & B). exists ns. split; [assumption|now constructor].
  - destruct (ber_held _ _ _ H) as (ns & N & B). exists ns. split; [assumption|]. constructor; [assumption| |assumption].
    intros ns' K. destruct (ingenico_holding _ _ _ K) as (os' & _ & K'). now apply (No os').
Qed.
Lemma holding masks op s f ns : tlv_block masks op s f ns -> exists os, nodes_of masks os ns /\ holds masks op s f os.
Proof.
  intros H. destruct H as [s ns H|s ns H|s ns Ne H|s ns Ne No H].
  - destruct (ber_holding _ _ _ H) as (os & N & B). exists os. split; [assumption|now constructor].
  - destruct (ingenico_holding _ _ _ H) as (os & N & B). exists os. split; [assumption|now constructor].
  - destruct (ingenico_holding _ _ _ H) as (os & N & B). exists os. split; [assumption|now constructor].
  - destruct (ber_holding _ _ _ H) as (os & N & B). exists os. split; [assumption|]. constructor; [assumption| |assumption].
    intros os' K. destruct (ingenico_held _ _ _ K) as (ns' & _ & K'). now apply (No ns').
Qed.

(** ** C95: what is shown depends on the data, not on how it is written *)

(* A text holds at most one list of objects, and exactly one if it is well formed. *)
Theorem C95_one : forall p masks op s f f' os os', text64 p s -> holds masks op s f os -> holds masks op s f' os' -> f = f' /\ os = os'.
Proof.
  intros p masks op s f f' os os' T H H'. apply held in H. apply held in H'. destruct H as (ns & N & B), H' as (ns' & N' & B').
  destruct (tlv_block_det p _ _ _ _ _ _ _ T B B') as [<- <-]. split; [reflexivity|]. now apply (nodes_inj masks os ns).
Qed.
Theorem C95_found : forall masks sort op s ls, In op [OpAuto; OpBer; OpIngenico] -> sheet masks sort op s ls -> exists f os, holds masks op s f os.
Proof.
  intros masks sort op s ls I H. inversion H as [g q J E|n O D N|f ns m B N A]; subst.
  - exfalso. unfold byte_operations in J. cbn [In] in I, J. destruct I as [<-|[<-|[<-|[]]]]; repeat (destruct J as [J|J]; [discriminate|]); destruct J.
  - exfalso. cbn [In] in I. intuition discriminate.
  - destruct (holding _ _ _ _ _ B) as (os & _ & K). eauto.
Qed.
(* Texts that hold the same objects are shown alike but for the format announced. *)
Theorem C95_shown : forall p masks sort op op' s s' f f' os ls, text64 p s -> holds masks op s f os -> holds masks op' s' f' os ->
  sheet masks sort op s ls -> exists ls0, ls = format_lines f ++ ls0 /\ sheet masks sort op' s' (format_lines f' ++ ls0).
Proof.
  intros p masks sort op op' s s' f f' os ls T H H' S. apply held in H. apply held in H'. destruct H as (ns & N & B), H' as (ns' & N' & B').
  rewrite <- (nodes_det masks os ns N ns' N') in B'. inversion S as [g q J E|n O D K|f0 ns0 m B0 K A]; subst.
  - exfalso. unfold byte_operations in J. cbn [In] in J. inversion B; subst; repeat (destruct J as [J|J]; [discriminate|]); destruct J.
  - inversion B.
  - destruct (tlv_block_det p _ _ _ _ _ _ _ T B B0) as [<- <-]. exists (forest_lines m 0 true). split; [reflexivity|]. now apply (sheet_block _ _ _ _ f' ns m).
Qed.
(* What refuses one refuses the other. *)
Theorem C95_refused : forall p masks op op' s s' f f' os e, text64 p s -> holds masks op s f os -> holds masks op' s' f' os ->
  refused masks op s e -> refused masks op' s' e.
Proof.
  intros p masks op op' s s' f f' os e T H H' R. apply held in H. apply held in H'. destruct H as (ns & N & B), H' as (ns' & N' & B').
  rewrite <- (nodes_det masks os ns N ns' N') in B'. destruct (tlv_op _ _ _ _ _ B) as [_ L]. destruct (L p) as [x X].
  destruct (tlv_settles p masks op s x T X) as (Y & _ & Z & _). apply Y in B. destruct (Z e R) as [K|(f0 & ns0 & K & (before & t & after & E & F & G))]; [congruence|].
  assert (ns0 = ns) as -> by congruence. now apply (refused_tag masks op' s' f' ns before t after e).
Qed.
(* And only those: what is on the screen tells the format announced and the objects. *)
Theorem C95_tells : forall p masks op op' s s' f f' os os' ls ls', text64 p s -> text64 p s' -> holds masks op s f os -> holds masks op' s' f' os' ->
  sheet masks false op s ls -> sheet masks false op' s' ls' -> (characters ls = characters ls' <-> f = f' /\ os = os').
Proof.
  intros p masks op op' s s' f f' os os' ls ls' T T' H H' S S'. apply held in H. apply held in H'. destruct H as (ns & N & B), H' as (ns' & N' & B').
  rewrite (C82_blocks p masks false op op' s s' f f' ns ns' ls ls' T T' B B' S S'). split; intros [-> E]; (split; [reflexivity|]); subst.
  - now apply (nodes_inj masks os ns').
  - now apply (nodes_det masks os').
Qed.
(* Sorted, it tells them up to their order. *)
Lemma nodes_objects masks os ns : nodes_of masks os ns -> os = map (fun n => (rt_tag (node_tag n), rt_data (node_tag n))) ns.
Proof.
  induction 1 as [|[t d] n os ns H _ IH]; [reflexivity|]. cbn [fst snd map] in *. apply ing_node_parts in H. destruct H as (-> & -> & _). now f_equal.
Qed.
Theorem C95_tells_sorted : forall p masks op op' s s' f f' os os' ls ls', text64 p s -> text64 p s' -> holds masks op s f os -> holds masks op' s' f' os' ->
  sheet masks true op s ls -> sheet masks true op' s' ls' -> characters ls = characters ls' -> f = f' /\ Permutation os os'.
Proof.
  intros p masks op op' s s' f f' os os' ls ls' T T' H H' S S' C. apply held in H. apply held in H'. destruct H as (ns & N & B), H' as (ns' & N' & B'). split.
  - now apply (C82_blocks p masks true op op' s s' f f' ns ns' ls ls' T T' B B' S S').
  - rewrite (nodes_objects _ _ _ N), (nodes_objects _ _ _ N'). apply Permutation_map. now apply (C82_sorted_same p masks true op op' s s' f f' ns ns' ls ls').
Qed.
(* The program: all it does is the same, crashes included. *)
Theorem C95_program : forall p e e' m m' st op op' s s' f os, load_settings e m = Ok st -> load_settings e' m' = Ok st ->
  chosen m op s -> chosen m' op' s' -> text64 p s -> text64 p s' -> holds (set_masking st) op s f os -> holds (set_masking st) op' s' f os ->
  run_main p e m = run_main p e' m'.
Proof.
  intros p e e' m m' st op op' s s' f os L L' C C' T T' H H'. rewrite (main_chosen p e m st op s L C), (main_chosen p e' m' st op' s' L' C').
  apply held in H. apply held in H'. destruct H as (ns & N & B), H' as (ns' & N' & B'). rewrite <- (nodes_det _ os ns N ns' N') in B'.
  assert (X : forall op s, text64 p s -> tlv_block (set_masking st) op s f ns -> value_result op s = None /\ tlv_result p (set_masking st) op s = Some (Ok (f, ns))).
  { clear. intros op s T B. destruct (tlv_op _ _ _ _ _ B) as [_ Q]. destruct (Q p) as [x X]. destruct (tlv_settles p _ op s x T X) as (Y & _).
    pose proof (proj2 (Y f ns) B) as ->. split; [inversion B; reflexivity|assumption]. }
  destruct (X op s T B) as [V R], (X op' s' T' B') as [V' R']. unfold run_one. now rewrite V, V', R, R'.
Qed.
Lemma hex_digits_forall l : forallb is_hex_digitb l = true -> Forall is_hex_digit l.
Proof. rewrite forallb_forall, Forall_forall. intros H c I. now apply is_hex_digitb_spec, H. Qed.
(* That the bytes alone decide is false: they are masked or not as they are written. *)
Lemma sample_holds masks op s f ns : text64 p64 s -> tlv_result p64 masks op s = Some (Ok (f, ns)) -> holds masks op s f (map (fun n => (rt_tag (node_tag n), rt_data (node_tag n))) ns).
Proof.
  intros T E. destruct (tlv_settles p64 masks op s _ T E) as (Y & _). pose proof (proj1 (Y f ns) eq_refl) as B. apply holding in B. destruct B as (os & N & H).
  now rewrite <- (nodes_objects _ _ _ N).
Qed.
Theorem C95_bytes_refuted : exists t v s s' d d', ber_objects (hex_bytes s) [(t, v)] [] /\ ing_writes_all [42] [(t, v)] s'
  /\ holds [42] OpBer s None [(t, d)] /\ holds [42] OpIngenico s' None [(t, d')] /\ d <> d'.
Proof.
  exists [0x5A], [42; 42], (lit "5A022A2A"), (lit "T5A:02:h2A2A"), Masked, (Normal [42; 42]). split.
  { change (hex_bytes (lit "5A022A2A")) with ([0x5A] ++ [2] ++ [42; 42]). apply one_object; [now apply ber_tag_short|apply (ber_len_short 2); lia|discriminate]. }
  split.
  { apply iwa_last. apply (ing_writes_intro [42] letter_T [0x5A] [42; 42] (lit "5A") (lit "02") letter_h (lit "2A2A") 0%nat); try (vm_compute; reflexivity).
    - apply hex_digits_forall. reflexivity.
    - apply hex_digits_forall. reflexivity.
    - vm_compute. lia.
    - intros (_ & m & [<-|[]] & F). inversion F. discriminate.
    - right. split; [reflexivity|]. split; [apply hex_digits_forall; reflexivity|]. split; reflexivity. }
  split; [refine (eq_ind _ (fun os => holds [42] OpBer (lit "5A022A2A") None os) _ _ _); [eapply (sample_holds [42] OpBer); [split; reflexivity|vm_compute; reflexivity]|reflexivity]|].
  split; [refine (eq_ind _ (fun os => holds [42] OpIngenico (lit "T5A:02:h2A2A") None os) _ _ _); [eapply (sample_holds [42] OpIngenico); [split; reflexivity|vm_compute; reflexivity]|reflexivity]|discriminate].
Qed.
Example C95_example : exists os, List.length os = 3%nat /\ holds [42] OpBer (lit "9F36 8101 05, 7003 5A0131 57032A2A2A") None os
  /\ holds [42] OpIngenico (lit "T9F36:01:h05,D11:00:a|T0070:0003:h5a0131 T57:02:h****") None os.
Proof.
  eexists. split; [|split; [eapply sample_holds; [split; reflexivity|vm_compute; reflexivity]|]].
  - reflexivity.
  - match goal with |- holds _ _ _ _ ?os => let x := eval vm_compute in os in change os with x end.
    refine (eq_ind _ (fun os => holds [42] OpIngenico (lit "T9F36:01:h05,D11:00:a|T0070:0003:h5a0131 T57:02:h****") None os) _ _ _);
      [eapply (sample_holds [42] OpIngenico); [split; reflexivity|vm_compute; reflexivity]|reflexivity].
Qed.
