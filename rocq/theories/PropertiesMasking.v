(** The properties of masking. *)

From Coq Require Import ZArith NArith List String Ascii Bool Lia ZifyN ZifyBool ZifyNat Permutation Sorting.
From Verif Require Import Base ModelUtil ModelEnums ModelBitflag ModelSchemas ModelTags ModelTlv ModelValues ModelProcess ModelDisplay
  SpecUtil SpecCodes SpecValues SpecTlv SpecIngenico SpecTags SpecProcess SpecDisplay SpecMasking
  ProofsUtil ProofsBer ProofsGrammar ProofsIngenico ProofsValues PropertiesValues
  PropertiesBer PropertiesIngenico ProofsProcess PropertiesProcess
  SpecPictures ProofsPictures ModelMain SpecMain ProofsMain PropertiesMain PropertiesPictures.
Import ListNotations.
Local Open Scope N_scope.

(** C21: what the parsers report as masked. *)

Lemma tree_reported masks objs ns : ber_trees masks objs ns -> Forall2 (fun o n => rt_tag (node_tag n) = fst o /\ reported masks (snd o) (rt_data (node_tag n))) objs ns.
Proof.
  induction objs as [|o objs IH] in ns |- *; intros H; inversion H as [|? n ? ns' T Ts]; subst; constructor; [|now apply IH].
  destruct T as [t v d R C|t v os cs C M O Ts']; cbn [node_tag rt_tag rt_data fst snd]; (split; [reflexivity|]); [assumption|right; auto].
Qed.
(* BER-TLV: a value is masked exactly when it consists of one masking character. *)
Theorem C21_ber_values : forall p masks bytes ns objs, input64 p bytes -> ber_parse p masks bytes = Ok ns -> ber_objects bytes objs [] ->
  Forall2 (fun o n => rt_tag (node_tag n) = fst o /\ reported masks (snd o) (rt_data (node_tag n))) objs ns.
Proof.
  intros p masks bytes ns objs Hi H O. apply C11_ber_grammar in H; [|assumption]. destruct H as (objs' & O' & T).
  rewrite (C11_ber_grammar_unambiguous bytes objs objs' O O'). now apply tree_reported.
Qed.
(* At no depth is a masked value reported as data. *)
Theorem C21_ber_never_shown : forall p masks bytes ns n v, input64 p bytes -> ber_parse p masks bytes = Ok ns ->
  occurs n ns -> rt_data (node_tag n) = Normal v -> ~ masked masks v.
Proof.
  intros p masks bytes ns n v Hi H. apply C11_ber_grammar in H; [|assumption]. destruct H as (objs & _ & T).
  assert (K : Forall (fun t => forall v, rt_data t = Normal v -> ~ masked masks v) (flat_map preorder ns)).
  { revert T. apply (ber_trees_mind masks (fun _ n _ => Forall (fun t => forall v, rt_data t = Normal v -> ~ masked masks v) (preorder n))
      (fun _ ns _ => Forall (fun t => forall v, rt_data t = Normal v -> ~ masked masks v) (flat_map preorder ns))); clear.
    - intros t v d R C. cbn [preorder flat_map]. constructor; [|constructor]. cbn [rt_data]. intros w ->. destruct R as [[_ R]|[M R]]; [discriminate|]. now injection R as ->.
    - intros t v os cs C M O Ts IH. cbn [preorder]. constructor; [|assumption]. cbn [rt_data]. intros w E. now injection E as <-.
    - constructor.
    - intros o n os ns T IHT Ts IHTs. cbn [flat_map]. now apply Forall_app. }
  intros Oc D. revert v D. assert (In (node_tag n) (flat_map preorder ns)); [|rewrite Forall_forall in K; now apply K].
  clear -Oc. induction Oc as [ns I|m ns I Oc IH]; apply in_flat_map.
  - exists n. split; [assumption|]. destruct n. now left.
  - exists m. split; [assumption|]. destruct m as [t c]. right. exact IH.
Qed.
Lemma single_field p masks ty td tag ld n fmt txt d : text64 p (ty :: td ++ colon :: ld ++ colon :: fmt :: txt) -> ascii_text (ty :: td ++ colon :: ld ++ colon :: fmt :: txt) ->
  ty = letter_T -> tag_digits td tag -> length_digits ld n -> ing_data masks n fmt txt d ->
  exists nd, ingenico_parse p masks (ty :: td ++ colon :: ld ++ colon :: fmt :: txt) = Ok [nd] /\ rt_tag (node_tag nd) = tag /\ rt_data (node_tag nd) = d.
Proof.
  intros Hi Ha -> Ht Hl Hd. pose proof (ing_field_intro masks letter_T td tag ld n fmt txt d Ht Hl Hd) as F. set (e := mkEntry letter_T tag d) in *.
  assert (Be : forall v, ie_data e = Normal v -> bytes_ok v) by (intros v; now apply (field_data_bytes masks _ e v Ha F)).
  destruct (ing_child_ok masks e Be) as [nd En]. apply (ing_child_node masks e nd Be) in En. exists nd. split.
  - apply C24_ingenico_grammar; [assumption|]. split; [assumption|]. exists [e]. split; [now constructor|]. apply ing_nodes_take; [reflexivity|assumption|constructor].
  - cbn [ie_tag ie_data e] in En. inversion En; subst; cbn; auto.
Qed.
(* Ingenico, text form: the text itself is compared. *)
Theorem C21_ingenico_text : forall p masks td tag ld txt, let s := letter_T :: td ++ colon :: ld ++ colon :: letter_a :: txt in
  text64 p s -> ascii_text s -> tag_digits td tag -> length_digits ld (len txt) ->
  exists n, ingenico_parse p masks s = Ok [n] /\ rt_tag (node_tag n) = tag
    /\ (masked masks txt -> rt_data (node_tag n) = Masked) /\ (~ masked masks txt -> rt_data (node_tag n) = Normal txt).
Proof.
  intros p masks td tag ld txt s Hi Ha Ht Hl. destruct (masked_dec masks txt) as [M|M].
  - destruct (single_field p masks letter_T td tag ld (len txt) letter_a txt Masked Hi Ha eq_refl Ht Hl) as (n & E & T & D); [apply ing_data_ascii; [reflexivity|left; auto]|].
    exists n. repeat split; [assumption|assumption|auto|contradiction].
  - destruct (single_field p masks letter_T td tag ld (len txt) letter_a txt (Normal txt) Hi Ha eq_refl Ht Hl) as (n & E & T & D); [apply ing_data_ascii; [reflexivity|right; auto]|].
    exists n. repeat split; [assumption|assumption|contradiction|auto].
Qed.
(* Ingenico, hex form: the digits are compared, not the bytes. *)
Theorem C21_ingenico_hex : forall p masks td tag ld k txt, let s := letter_T :: td ++ colon :: ld ++ colon :: letter_h :: txt in
  text64 p s -> ascii_text s -> tag_digits td tag -> length_digits ld k -> len txt = 2 * k ->
  (masked masks txt -> exists n, ingenico_parse p masks s = Ok [n] /\ rt_tag (node_tag n) = tag /\ rt_data (node_tag n) = Masked)
  /\ (~ masked masks txt -> Forall is_hex_digit txt ->
      exists n, ingenico_parse p masks s = Ok [n] /\ rt_tag (node_tag n) = tag /\ rt_data (node_tag n) = Normal (bytes_of_digits txt)).
Proof.
  intros p masks td tag ld k txt s Hi Ha Ht Hl Hn. split.
  - intros M. now apply (single_field p masks letter_T td tag ld k letter_h txt Masked Hi Ha eq_refl Ht Hl), ing_data_masked.
  - intros M F. now apply (single_field p masks letter_T td tag ld k letter_h txt _ Hi Ha eq_refl Ht Hl), ing_data_hex.
Qed.
(* So the two formats do not agree on which values are masked. *)
Theorem C21_formats_agree_refuted : exists masks t v n n',
  ber_parse p64 masks (std_object t v) = Ok [n] /\ ingenico_parse p64 masks (std_field t v) = Ok [n']
  /\ rt_data (node_tag n) = Masked /\ rt_data (node_tag n') = Normal v.
Proof. exists [42], [0x5A], [42; 42]. do 2 eexists. split; [vm_compute; reflexivity|]. split; [vm_compute; reflexivity|]. split; reflexivity. Qed.
Theorem C21_formats_agree_converse_refuted : exists masks t v n n',
  ber_parse p64 masks (std_object t v) = Ok [n] /\ ingenico_parse p64 masks (std_field t v) = Ok [n']
  /\ rt_data (node_tag n) = Normal v /\ rt_data (node_tag n') = Masked.
Proof. exists [65], [0x5A], [0xAA]. do 2 eexists. split; [vm_compute; reflexivity|]. split; [vm_compute; reflexivity|]. split; reflexivity. Qed.

(** C74: more masking characters only hide. *)

Lemma masked_incl masks masks' v : incl masks masks' -> masked masks v -> masked masks' v.
Proof. intros I (L & m & H & F). split; [assumption|]. exists m. auto. Qed.
Lemma trees_hide masks masks' : incl masks masks' -> forall objs ns, ber_trees masks objs ns -> forall ns', ber_trees masks' objs ns' -> hides_masked masks' ns ns'.
Proof.
  intros I. unfold hides_masked.
  apply (ber_trees_mind masks (fun o n _ => forall n', ber_tree masks' o n' -> hides (masked masks') (fun v => ~ masked masks' v) n n')
    (fun os ns _ => forall ns', ber_trees masks' os ns' -> hides_all (masked masks') (fun v => ~ masked masks' v) ns ns')).
  - intros t v d R C n' T'. destruct R as [[M ->]|[M ->]].
    + assert (M' : masked masks' v) by now apply (masked_incl masks). inversion T' as [? ? d' R' C'|]; subst; [|contradiction].
      destruct R' as [[_ ->]|[K _]]; [constructor|contradiction].
    + inversion T' as [? ? d' R' C'|? ? objs cs C' M' O' Ts']; subst.
      * destruct R' as [[K ->]|[K ->]]; [now constructor|]. constructor; [assumption|constructor].
      * exfalso. destruct C as [C|[C|C]]; [congruence|contradiction|]. apply C. eauto.
  - intros t v objs cs C M O Ts IH n' T'. inversion T' as [? ? d' R' C'|? ? objs' cs' _ M' O' Ts']; subst.
    + destruct R' as [[K ->]|[K ->]]; [rewrite C; now constructor|]. exfalso. destruct C' as [C'|[C'|C']]; [congruence|contradiction|]. apply C'. eauto.
    + rewrite (ber_objects_det _ _ _ O' O) in Ts'. constructor; [assumption|]. now apply IH.
  - intros ns' H. inversion H. constructor.
  - intros o n os ns T IHT Ts IHTs ns' H. inversion H; subst. constructor; auto.
Qed.
(* BER-TLV: with more masking characters the same text is accepted, exactly the values that
   consist of one of the characters are hidden, and everything else stays. *)
Theorem C74_ber : forall p masks masks' bytes ns, input64 p bytes -> incl masks masks' -> ber_parse p masks bytes = Ok ns ->
  exists ns', ber_parse p masks' bytes = Ok ns' /\ hides_masked masks' ns ns'.
Proof.
  intros p masks masks' bytes ns Hi I H. destruct (proj1 (proj1 (C16_ber_acceptance_ignores_masks p masks masks' bytes Hi)) (ex_intro _ ns H)) as [ns' H'].
  exists ns'. split; [assumption|]. apply C11_ber_grammar in H, H'; try assumption. destruct H as (objs & O & T), H' as (objs' & O' & T').
  rewrite (C11_ber_grammar_unambiguous bytes objs' objs O' O) in T'. now apply (trees_hide masks masks' I objs).
Qed.

Scheme hides_mind := Induction for hides Sort Prop with hides_all_mind := Induction for hides_all Sort Prop.
Lemma hides_weaken (h k h' k' : list N -> Prop) : (forall v, h v -> h' v) -> (forall v, k v -> k' v) -> forall l l', hides_all h k l l' -> hides_all h' k' l l'.
Proof.
  intros Hh Hk. apply (hides_all_mind h k (fun n n' _ => hides h' k' n n') (fun l l' _ => hides_all h' k' l l')); intros; constructor; auto.
Qed.
(* Ingenico: the same, except that hex values are compared as text. *)
Lemma data_hides masks masks' k fmt txt d : incl masks masks' -> ing_data masks k fmt txt d -> exists d', ing_data masks' k fmt txt d'
  /\ (d' = d \/ exists v, d = Normal v /\ d' = Masked).
Proof.
  intros I H. destruct H as [txt d L R|txt L M|txt L M F].
  - destruct R as [[M ->]|[M ->]].
    + exists Masked. split; [constructor; [assumption|left; split; [now apply (masked_incl masks)|reflexivity]]|auto].
    + destruct (masked_dec masks' txt) as [M'|M']; [exists Masked|exists (Normal txt)]; (split; [constructor; [assumption|]|]); [left; auto|eauto|right; auto|auto].
  - exists Masked. split; [apply ing_data_masked; [assumption|now apply (masked_incl masks)]|auto].
  - destruct (masked_dec masks' txt) as [M'|M']; [exists Masked|exists (Normal (bytes_of_digits txt))]; (split; [|eauto]); [now apply ing_data_masked|now apply ing_data_hex].
Qed.
Definition entry_hides (e e' : ing_entry) : Prop :=
  ie_type e' = ie_type e /\ ie_tag e' = ie_tag e /\ (ie_data e' = ie_data e \/ exists v, ie_data e = Normal v /\ ie_data e' = Masked).
Lemma field_hides masks masks' f e : incl masks masks' -> ing_field masks f e -> exists e', ing_field masks' f e' /\ entry_hides e e'.
Proof.
  intros I H. destruct H as [ty td tag ld n fmt txt d Ht Hl Hd]. destruct (data_hides masks masks' n fmt txt d I Hd) as (d' & Hd' & K).
  exists (mkEntry ty tag d'). split; [econstructor; eassumption|]. repeat split. exact K.
Qed.
Lemma text_hides masks masks' s es : incl masks masks' -> ing_text masks s es -> exists es', ing_text masks' s es' /\ Forall2 entry_hides es es'.
Proof.
  intros I H. induction H as [|f e F|f e sep rest es F T IH].
  - exists []. split; constructor.
  - destruct (field_hides masks masks' f e I F) as (e' & F' & K). exists [e']. split; [now constructor|constructor; [assumption|constructor]].
  - destruct (field_hides masks masks' f e I F) as (e' & F' & K), IH as (es' & T' & Ks). exists (e' :: es'). split; constructor; assumption.
Qed.
Lemma entry_bytes masks s es : ascii_text s -> ing_text masks s es -> Forall (fun e => forall v, ie_data e = Normal v -> bytes_ok v) es.
Proof.
  intros Ha H. induction H as [|f e F|f e sep rest es F T IH].
  - constructor.
  - constructor; [|constructor]. intros v. now apply (field_data_bytes masks f e v).
  - apply ascii_app in Ha. destruct Ha as [Hf Hr]. apply ascii_cons in Hr. constructor; [intros v; now apply (field_data_bytes masks f e v)|]. now apply IH.
Qed.
Lemma node_same masks masks' tag d n n' : incl masks masks' -> ing_node masks tag d n -> ing_node masks' tag d n' ->
  hides (fun _ => True) (fun _ => True) n n'.
Proof.
  intros I H H'. destruct H as [d C|v objs cs C O Ts].
  - inversion H' as [d1 C'|v objs cs C' O' Ts']; subst.
    + destruct d as [v|]; [constructor; [exact Logic.I|constructor]|constructor].
    + exfalso. destruct C as [C|[C|(w & Ew & C)]]; [congruence|discriminate C|]. injection Ew as <-. apply C. eauto.
  - inversion H' as [d1 C'|v' objs' cs' C' O' Ts']; subst.
    + exfalso. destruct C' as [C'|[C'|(w & Ew & C')]]; [congruence|discriminate C'|]. injection Ew as <-. apply C'. eauto.
    + rewrite (ber_objects_det _ _ _ O' O) in Ts'. constructor; [exact Logic.I|].
      pose proof (trees_hide masks masks' I objs cs Ts cs' Ts') as K. revert K. apply hides_weaken; auto.
Qed.
Lemma node_hides masks masks' e e' n : incl masks masks' -> (forall v, ie_data e = Normal v -> bytes_ok v) -> entry_hides e e' -> ing_node masks (ie_tag e) (ie_data e) n ->
  exists n', ing_node masks' (ie_tag e') (ie_data e') n' /\ hides (fun _ => True) (fun _ => True) n n'.
Proof.
  intros I B (_ & Et & Ed) H. rewrite Et. destruct Ed as [Ed|(v & Ed & Ed')].
  - rewrite Ed. destruct (ing_child_ok masks' e B) as [n' N']. apply (ing_child_node masks' e n' B) in N'. exists n'. split; [assumption|].
    exact (node_same masks masks' _ _ n n' I H N').
  - rewrite Ed'. exists (RawNode (mkRawTag (ie_tag e) (class_of (first_byte (ie_tag e))) (type_of (first_byte (ie_tag e))) Masked) []).
    split; [constructor; auto|]. rewrite Ed in H. inversion H as [d0 C|w objs cs C O Ts]; subst; [now constructor|]. rewrite C. now constructor.
Qed.
Theorem C74_ingenico : forall p masks masks' s ns, text64 p s -> incl masks masks' -> ingenico_parse p masks s = Ok ns ->
  exists ns', ingenico_parse p masks' s = Ok ns' /\ hides_some ns ns'.
Proof.
  intros p masks masks' s ns Hi I H. apply C24_ingenico_grammar in H; [|assumption]. destruct H as (Ha & es & T & Ns).
  destruct (text_hides masks masks' s es I T) as (es' & T' & K). pose proof (entry_bytes masks s es Ha T) as B.
  assert (X : exists ns', ing_nodes masks' es' ns' /\ hides_some ns ns').
  { clear T T'. revert ns Ns. induction K as [|e e' es es' Ke K IH]; intros ns Ns.
    - inversion Ns. exists []. split; constructor.
    - inversion B as [|? ? Be Bs]; subst. specialize (IH Bs). inversion Ns as [|? ? ? Hty Ns'|? ? n ns0 Hty Nn Ns']; subst.
      + destruct (IH ns Ns') as (ns' & N1 & N2). exists ns'. split; [|assumption]. apply ing_nodes_skip; [|assumption]. now rewrite (proj1 Ke).
      + destruct (IH ns0 Ns') as (ns' & N1 & N2). destruct (node_hides masks masks' e e' n I Be Ke Nn) as (n' & M1 & M2). exists (n' :: ns').
        split; [apply ing_nodes_take; [now rewrite (proj1 Ke)|assumption|assumption]|now constructor]. }
  destruct X as (ns' & N1 & N2). exists ns'. split; [|assumption]. apply C24_ingenico_grammar; [assumption|]. eauto.
Qed.
(* Hiding values never makes a block unreadable. *)
Theorem C74_processing : forall ns ns', hides_some ns ns' ->
  Forall (fun t => forall e, ~ tag_fails t e) (flat_map preorder ns) -> Forall (fun t => forall e, ~ tag_fails t e) (flat_map preorder ns').
Proof.
  unfold hides_some.
  apply (hides_all_mind (fun _ => True) (fun _ => True)
    (fun n n' _ => Forall (fun t => forall e, ~ tag_fails t e) (preorder n) -> Forall (fun t => forall e, ~ tag_fails t e) (preorder n'))
    (fun l l' _ => Forall (fun t => forall e, ~ tag_fails t e) (flat_map preorder l) -> Forall (fun t => forall e, ~ tag_fails t e) (flat_map preorder l'))).
  - intros t c ty v below _ _. constructor; [|constructor]. intros e (d & K & _). discriminate.
  - intros t c ty H. exact H.
  - intros t c ty v below below' _ K IH H. cbn [preorder] in *. inversion H; subst. constructor; auto.
  - auto.
  - intros n n' l l' Hn IHn Hl IHl H. cbn [flat_map] in *. apply Forall_app in H. apply Forall_app. split; [apply IHn|apply IHl]; tauto.
Qed.
(* So what is shown with some masking characters is shown with more of them, less the hidden values. *)
Theorem C74_program : forall p masks masks' sort op s ls, text64 p s -> op = OpBer \/ op = OpIngenico -> incl masks masks' ->
  sheet masks sort op s ls -> exists ls', sheet masks' sort op s ls'.
Proof.
  intros p masks masks' sort op s ls T Op I H. destruct (C73_total p masks' sort op s T) as [(ls' & S & _)|(e & R & _ & _)]; [eauto|]. exfalso.
  inversion H as [f q X|n X|f ns ns0 B O S]; subst.
  { destruct Op as [-> | ->]; cbn in X; repeat (destruct X as [X|X]; [discriminate X|]); destruct X. }
  { destruct Op; discriminate. }
  assert (X : exists ns', tlv_block masks' op s f ns' /\ hides_some ns ns').
  { destruct Op as [-> | ->]; inversion B as [? ? Bl|? ? Bl| |]; subst.
    - apply (ber_block_iff p) in Bl; [|assumption]. destruct (C74_ber p masks masks' _ ns (hex_input64 p s T) I Bl) as (ns' & P & K). exists ns'. split.
      + constructor. now apply (ber_block_iff p).
      + revert K. apply hides_weaken; auto.
    - apply (ingenico_block_iff p) in Bl; [|assumption]. destruct (C74_ingenico p masks masks' s ns T I Bl) as (ns' & P & K). exists ns'. split; [|assumption].
      constructor. now apply (ingenico_block_iff p). }
  destruct X as (ns' & B' & K). pose proof (C74_processing ns ns' K O) as O'.
  assert (A : exists ns2, if sort then in_order ns' ns2 else ns2 = ns').
  { destruct sort; [|eauto]. exists (map strip (sort_nodes (map conv ns'))). replace ns' with (map strip (map conv ns')) at 1.
    - apply arranged_strip. now apply C37_sort_arranges.
    - rewrite map_map. rewrite <- (map_id ns') at 2. apply map_ext. exact conv_strip. }
  destruct A as [ns2 A]. destruct (C73_total p masks' sort op s T) as [(ls2 & _ & _ & NR)|(e' & _ & _ & NS)]; [now apply (NR e)|].
  apply (NS (format_lines f ++ forest_lines ns2 0 true)). now apply (sheet_block masks' sort op s f ns').
Qed.
(* Automatic detection: a further masking character can turn BER-TLV into Ingenico, which may then be refused. *)
Theorem C74_auto_refuted : exists s ls e, text64 p64 s /\ sheet [] true OpAuto s ls /\ refused [42] OpAuto s e.
Proof.
  set (s := lit "T5A:03:h******;T9B:01:h00"). assert (T : text64 p64 s) by (split; reflexivity).
  destruct (C73_total p64 [] true OpAuto s T) as [(ls & S & _)|(e & R & _)].
  - destruct (C73_total p64 [42] true OpAuto s T) as [(ls' & _ & _ & N)|(e & R & _)]; [|eauto 6].
    exfalso. apply (N (ByteCountIncorrect Eq 2 1)).
    destruct (tlv_settles p64 [42] OpAuto s _ T eq_refl) as (Y & _).
    eapply (refused_tag [42] OpAuto s (Some Ingenico) _ [_] _ []); [apply Y; vm_compute; reflexivity|reflexivity| |].
    + intros x e [<-|[]] (d & K & _). discriminate.
    + eexists. split; [reflexivity|]. apply (rejected_length [0x9B] 2 [0]); [cbn; tauto|discriminate].
  - exfalso. destruct (tlv_settles p64 [] OpAuto s _ T eq_refl) as (_ & _ & Z & _). destruct (Z e R) as [Z'|(f & ns & Z' & F)]; [vm_compute in Z'; discriminate Z'|].
    vm_compute in Z'. injection Z' as <- <-. destruct F as (b & t & a & E & _ & d & D & Rj). cbn in E. destruct b as [|? b]; cbn in E; [|destruct b; discriminate].
    injection E as <- <-. cbn in D. injection D as <-. cbn [rt_tag] in Rj. inversion Rj as [? ? ? In0 L| | | | | | |]; subst. cbn in In0. repeat (destruct In0 as [In0|In0]; [discriminate|]). destruct In0.
Qed.
(* Masked values look alike: neither the character nor the length is reported. *)
Theorem C74_alike : forall p masks bytes bytes' objs objs' ns, input64 p bytes -> input64 p bytes' ->
  ber_objects bytes objs [] -> ber_objects bytes' objs' [] -> Forall2 (alike masks) objs objs' ->
  ber_parse p masks bytes = Ok ns -> ber_parse p masks bytes' = Ok ns.
Proof.
  intros p masks bytes bytes' objs objs' ns Hi Hi' O O' A H. apply C11_ber_grammar in H; [|assumption]. destruct H as (objs0 & O0 & T).
  rewrite (C11_ber_grammar_unambiguous bytes objs0 objs O0 O) in T. clear objs0 O0. apply C11_ber_grammar; [assumption|]. exists objs'. split; [assumption|].
  clear -A T. revert ns T. induction A as [|[t v] [t' v'] os os' (Et & K) A IH]; intros ns T; inversion T as [|? n ? ns' Tn Ts]; subst; constructor; [|now apply IH].
  cbn [fst snd] in *. subst t'. destruct K as [->|[M M']]; [assumption|].
  inversion Tn as [? ? d R C|? ? objs cs C N O Ts']; subst; [|contradiction]. destruct R as [[_ ->]|[N _]]; [|contradiction].
  apply ber_tree_leaf; [left; auto|auto].
Qed.
(* Inside a constructed value they do not: the parent's raw bytes are shown. *)
Theorem C74_alike_nested_refuted : exists masks t v v' ns ns', masked masks v /\ masked masks v'
  /\ ber_parse p64 masks (std_object [0x70] (std_object t v)) = Ok ns /\ ber_parse p64 masks (std_object [0x70] (std_object t v')) = Ok ns' /\ ns <> ns'.
Proof.
  exists [42], [0x5A], [42; 42], [42; 42; 42]. do 2 eexists.
  split; [split; [cbn; lia|]; exists 42; split; [cbn; tauto|repeat constructor]|]. split; [split; [cbn; lia|]; exists 42; split; [cbn; tauto|repeat constructor]|].
  split; [vm_compute; reflexivity|]. split; [vm_compute; reflexivity|]. discriminate.
Qed.
Example C74_example : exists ns ns', ber_parse p64 [] [0x70; 4; 0x5A; 2; 42; 42] = Ok ns /\ ber_parse p64 [42] [0x70; 4; 0x5A; 2; 42; 42] = Ok ns'
  /\ ns <> ns' /\ exists ls, sheet [] true OpBer (lit "70045A022A2A") ls.
Proof.
  do 2 eexists. split; [vm_compute; reflexivity|]. split; [vm_compute; reflexivity|]. split; [discriminate|].
  destruct (C73_total p64 [] true OpBer (lit "70045A022A2A")) as [(ls & S & _)|(e & R & _)]; [split; reflexivity|eauto|exfalso].
  assert (T : text64 p64 (lit "70045A022A2A")) by (split; reflexivity).
  destruct (tlv_settles p64 [] OpBer _ _ T eq_refl) as (_ & _ & Z & _). destruct (Z e R) as [Z'|(f & ns & Z' & F)]; [vm_compute in Z'; discriminate Z'|].
  vm_compute in Z'. injection Z' as <- <-. destruct F as (b & t & a & E & _ & d & D & Rj). cbn in E.
  assert (N : ~ In (rt_tag t) interpreted_tags).
  { destruct b as [|? [|? [|? b]]]; cbn in E; try discriminate; injection E as _ <- _ || injection E as <- _; cbn; intuition discriminate. }
  apply N. clear -Rj. inversion Rj as [t' n d' In0 L| | | | | | |]; subst; try (cbn; tauto). cbn in In0. cbn. intuition congruence.
Qed.
