(** Further theorems about earlier properties. *)

From Coq Require Import ZArith NArith String List Bool Lia ZifyN ZifyBool ZifyNat.
From Verif Require Import Base ModelUtil ModelEnums ModelBitflag ModelSchemas ModelTags ModelTlv ModelValues ModelProcess ModelDisplay
  SpecUtil SpecCodes SpecValues SpecTlv SpecIngenico SpecTags SpecProcess SpecDisplay
  ProofsUtil ProofsGrammar ProofsBer ProofsIngenico ProofsValues PropertiesValues
  PropertiesBer PropertiesIngenico ProofsProcess PropertiesProcess ProofsDisplay ProofsDiagram ProofsScreens ProofsLayout PropertiesDisplay
  SpecPictures ProofsPictures ModelMain SpecMain ProofsMain PropertiesMain ModelCli SpecCli ProofsCli PropertiesCli PropertiesPictures
  SpecReading PropertiesReading SpecMasking PropertiesMasking.
Import ListNotations.
Local Open Scope N_scope.

(** ** C17: the same behind other objects *)

Theorem C17_long_zero_length_after : forall p masks a na t k, input64 p (a ++ t ++ (128 + N.of_nat k) :: repeat 0 k) -> ber_parse p masks a = Ok na ->
  ber_tag t -> (k <= 4)%nat -> ber_parse p masks (a ++ t ++ (128 + N.of_nat k) :: repeat 0 k) = Err NonCompliant.
Proof.
  intros p masks a na t k Hi Ha T Hk. apply (C14_ber_compositional p masks a _ na Hi Ha). apply C17_long_zero_length_last; [now apply input64_app in Hi|assumption|assumption].
Qed.
Theorem C17_short_zero_length_after : forall p masks a na t, input64 p (a ++ t ++ [0]) -> ber_parse p masks a = Ok na -> ber_tag t ->
  ber_parse p masks (a ++ t ++ [0]) = Ok (na ++ [RawNode (mkRawTag t (class_of (first_byte t)) (type_of (first_byte t)) (Normal [])) []]).
Proof.
  intros p masks a na t Hi Ha T. apply (C14_ber_compositional p masks a _ na Hi Ha). apply C17_short_zero_length_last; [now apply input64_app in Hi|assumption].
Qed.
Example C17_after_example : input64 p64 ([0x84; 0] ++ [0x9F; 0x27] ++ [0x82; 0; 0]) /\ (exists na, ber_parse p64 [] [0x84; 0] = Ok na) /\ ber_tag [0x9F; 0x27].
Proof.
  split; [in64|]. split; [eexists; vm_compute; reflexivity|]. apply (ber_tag_long 0x9F [] 0x27); vm_compute; auto.
Qed.

(** ** C18: the identification of a tag *)

Theorem C18_identify : forall b t i, bytes_ok (b :: t) -> tag_info_try_from (b :: t) = Ok i -> ti_class i = class_of b /\ ti_type i = type_of b.
Proof. intros b t i H E. destruct (C39_tag_info b t H) as (i' & E' & _ & C & T & _). assert (K : i = i') by congruence. now rewrite K. Qed.
Theorem C18_identify_shown : forall masks sort s b t ls, hex_bytes s = b :: t -> sheet masks sort OpIdentify s ls ->
  exists name tag class type, ls = [name; tag; titled 0 heading (lit "Class:") (lit "            " ++ lit class); titled 0 heading (lit "Data Object Type:") (lit " " ++ lit type)]
    /\ In (class_of b, class) [(TagClass_Universal, "Universal"); (TagClass_Application, "Application"); (TagClass_ContextSpecific, "Context-Specific"); (TagClass_Private, "Private")]%string
    /\ In (type_of b, type) [(Primitive, "Primitive"); (Constructed, "Constructed")]%string.
Proof.
  intros masks sort s b t ls Hb H. inversion H as [f q J Q|n E D L|f ns ns' B _ _]; subst; [|discriminate E|inversion B].
  assert (Q' : identify_picture (hex_bytes s) = Some q).
  { cbn [byte_operations In] in J. repeat (destruct J as [J|J]; [first [discriminate J|assert (F : f = snd (OpIdentify, f)) by reflexivity; rewrite <- J in F; cbn [snd] in F; subst f; exact Q]|]). destruct J. }
  clear Q J H. rewrite Hb in Q'. cbn [identify_picture] in Q'. match type of Q' with Some ?x = _ => assert (E : q = x) by congruence end. rewrite E. clear E Q'.
  assert (B : b < 256) by (pose proof (hex_bytes_ok s) as K; rewrite Hb in K; now inversion K).
  do 2 eexists. exists (nth (N.to_nat (b / 64)) ["Universal"; "Application"; "Context-Specific"; "Private"]%string EmptyString), (if N.testbit b 5 then "Constructed" else "Primitive")%string.
  split; [cbn beta; destruct (N.testbit b 5); reflexivity|]. split.
  - unfold class_of. assert (K : b / 64 < 4) by (apply N.div_lt_upper_bound; lia). destruct (b / 64) as [|[[x|x|]|[x|x|]|]]; try lia; cbn; tauto.
  - unfold type_of. replace (N.testbit b 5) with (N.odd (b / 32)); [destruct (N.odd (b / 32)); cbn; tauto|]. rewrite <- N.bit0_odd. change 32 with (2 ^ 5). now rewrite N.div_pow2_bits.
Qed.
Example C18_identify_example : exists ls, hex_bytes (lit "9F1A") = [0x9F; 0x1A] /\ sheet [] false OpIdentify (lit "9F1A") ls.
Proof.
  destruct (identify_picture (hex_bytes (lit "9F1A"))) as [q|] eqn:Q; [|discriminate Q]. exists (q 0 true). split; [reflexivity|].
  apply (sheet_value [] false OpIdentify _ identify_picture); [cbn [byte_operations In]; tauto|exact Q].
Qed.

(** ** C74: why an Ingenico value is hidden *)

(* Hidden as text, or as the text of its hex digits. *)
Definition masked_digits (masks v : list N) : Prop :=
  v <> [] /\ exists m, In m masks /\ is_hex_digit m /\ Forall (fun b => b = 17 * hex_value m) v.
Definition hides_field (masks : list N) (n n' : raw_node) : Prop :=
  match n, n' with
  | RawNode (mkRawTag t c ty d) below, RawNode (mkRawTag t' c' ty' d') below' =>
      t' = t /\ c' = c /\ ty' = ty
      /\ match d, d' with
         | Masked, Masked => below = [] /\ below' = []
         | Normal v, Masked => below' = [] /\ (masked masks v \/ masked_digits masks v)
         | Normal v, Normal v' => v' = v /\ hides_masked masks below below'
         | Masked, Normal _ => False
         end
  end.
Lemma digits_masked masks txt : masked masks txt -> Forall is_hex_digit txt -> masked_digits masks (bytes_of_digits txt).
Proof.
  intros (L & m & I & F) H. destruct txt as [|a [|b txt]]; [cbn in L; lia|cbn in L; lia|]. split; [discriminate|]. exists m. split; [assumption|].
  split; [inversion F; subst; now inversion H|]. assert (G : forall k l, (List.length l <= k)%nat -> Forall (fun b => b = m) l -> Forall (fun b => b = 17 * hex_value m) (bytes_of_digits l)).
  { induction k as [|k IH]; intros [|x [|y l]] K Fl; try constructor; try (cbn in K; lia).
    - inversion Fl as [|? ? -> Fl']; inversion Fl' as [|? ? -> _]; subst. lia.
    - apply IH; [cbn in K; lia|]. now inversion Fl as [|? ? _ Fl']; inversion Fl'. }
  exact (G _ _ (le_n _) F).
Qed.
Definition entry_why (masks : list N) (e e' : ing_entry) : Prop :=
  ie_type e' = ie_type e /\ ie_tag e' = ie_tag e
  /\ (ie_data e' = ie_data e \/ exists v, ie_data e = Normal v /\ ie_data e' = Masked /\ (masked masks v \/ masked_digits masks v)).
Lemma data_why masks masks' k fmt txt d : incl masks masks' -> ing_data masks k fmt txt d -> exists d', ing_data masks' k fmt txt d'
  /\ (d' = d \/ exists v, d = Normal v /\ d' = Masked /\ (masked masks' v \/ masked_digits masks' v)).
Proof.
  intros I H. destruct H as [txt d L R|txt L M|txt L M F].
  - destruct R as [[M ->]|[M ->]].
    + exists Masked. split; [constructor; [assumption|left; split; [now apply (masked_incl masks)|reflexivity]]|auto].
    + destruct (masked_dec masks' txt) as [M'|M']; [exists Masked|exists (Normal txt)]; (split; [constructor; [assumption|]|]); [left; auto|right; exists txt; auto|right; auto|auto].
  - exists Masked. split; [apply ing_data_masked; [assumption|now apply (masked_incl masks)]|auto].
  - destruct (masked_dec masks' txt) as [M'|M']; [exists Masked|exists (Normal (bytes_of_digits txt))]; [split; [now apply ing_data_masked|right]|split; [now apply ing_data_hex|now left]].
    exists (bytes_of_digits txt). repeat split. right. now apply digits_masked.
Qed.
Lemma field_why masks masks' f e : incl masks masks' -> ing_field masks f e -> exists e', ing_field masks' f e' /\ entry_why masks' e e'.
Proof.
  intros I H. destruct H as [ty td tag ld n fmt txt d Ht Hl Hd]. destruct (data_why masks masks' n fmt txt d I Hd) as (d' & Hd' & K).
  exists (mkEntry ty tag d'). split; [econstructor; eassumption|]. repeat split. exact K.
Qed.
Lemma text_why masks masks' s es : incl masks masks' -> ing_text masks s es -> exists es', ing_text masks' s es' /\ Forall2 (entry_why masks') es es'.
Proof.
  intros I H. induction H as [|f e F|f e sep rest es F T IH].
  - exists []. split; constructor.
  - destruct (field_why masks masks' f e I F) as (e' & F' & K). exists [e']. split; [now constructor|constructor; [assumption|constructor]].
  - destruct (field_why masks masks' f e I F) as (e' & F' & K), IH as (es' & T' & Ks). exists (e' :: es'). split; constructor; assumption.
Qed.
Lemma node_unchanged masks masks' tag d n n' : incl masks masks' -> ing_node masks tag d n -> ing_node masks' tag d n' -> hides_field masks' n n'.
Proof.
  intros I H H'. destruct H as [d C|v objs cs C O Ts].
  - inversion H' as [d1 C'|v objs cs C' O' Ts']; subst.
    + cbn [hides_field]. repeat split. destruct d as [v|]; (split; [reflexivity|]); [constructor|reflexivity].
    + exfalso. destruct C as [C|[C|(w & Ew & C)]]; [congruence|discriminate C|]. injection Ew as <-. apply C. eauto.
  - inversion H' as [d1 C'|v' objs' cs' C' O' Ts']; subst.
    + exfalso. destruct C' as [C'|[C'|(w & Ew & C')]]; [congruence|discriminate C'|]. injection Ew as <-. apply C'. eauto.
    + rewrite (ber_objects_det _ _ _ O' O) in Ts'. cbn [hides_field]. split; [reflexivity|]. split; [reflexivity|]. split; [reflexivity|]. split; [reflexivity|].
      exact (trees_hide masks masks' I objs cs Ts cs' Ts').
Qed.
Lemma node_why masks masks' e e' n : incl masks masks' -> (forall v, ie_data e = Normal v -> bytes_ok v) -> entry_why masks' e e' -> ing_node masks (ie_tag e) (ie_data e) n ->
  exists n', ing_node masks' (ie_tag e') (ie_data e') n' /\ hides_field masks' n n'.
Proof.
  intros I B (_ & Et & Ed) H. rewrite Et. destruct Ed as [Ed|(v & Ed & Ed' & W)].
  - rewrite Ed. destruct (ing_child_ok masks' e B) as [n' N']. apply (ing_child_node masks' e n' B) in N'. exists n'. split; [assumption|].
    exact (node_unchanged masks masks' _ _ n n' I H N').
  - rewrite Ed'. exists (RawNode (mkRawTag (ie_tag e) (class_of (first_byte (ie_tag e))) (type_of (first_byte (ie_tag e))) Masked) []).
    split; [constructor; auto|]. rewrite Ed in H. inversion H as [d0 C|w objs cs C O Ts]; subst; cbn [hides_field]; repeat split; try assumption; now rewrite C.
Qed.
Theorem C74_ingenico_why : forall p masks masks' s ns, text64 p s -> incl masks masks' -> ingenico_parse p masks s = Ok ns ->
  exists ns', ingenico_parse p masks' s = Ok ns' /\ Forall2 (hides_field masks') ns ns'.
Proof.
  intros p masks masks' s ns Hi I H. apply C24_ingenico_grammar in H; [|assumption]. destruct H as (Ha & es & T & Ns).
  destruct (text_why masks masks' s es I T) as (es' & T' & K). pose proof (entry_bytes masks s es Ha T) as B.
  assert (X : exists ns', ing_nodes masks' es' ns' /\ Forall2 (hides_field masks') ns ns').
  { clear T T'. revert ns Ns. induction K as [|e e' es es' Ke K IH]; intros ns Ns.
    - inversion Ns. exists []. split; constructor.
    - inversion B as [|? ? Be Bs]; subst. specialize (IH Bs). inversion Ns as [|? ? ? Hty Ns'|? ? n ns0 Hty Nn Ns']; subst.
      + destruct (IH ns Ns') as (ns' & N1 & N2). exists ns'. split; [|assumption]. apply ing_nodes_skip; [|assumption]. now rewrite (proj1 Ke).
      + destruct (IH ns0 Ns') as (ns' & N1 & N2). destruct (node_why masks masks' e e' n I Be Ke Nn) as (n' & M1 & M2). exists (n' :: ns').
        split; [apply ing_nodes_take; [now rewrite (proj1 Ke)|assumption|assumption]|now constructor]. }
  destruct X as (ns' & N1 & N2). exists ns'. split; [|assumption]. apply C24_ingenico_grammar; [assumption|]. eauto.
Qed.
Example C74_why_example : exists ns ns', text64 p64 (lit "T84:02:hAAAA") /\ ingenico_parse p64 [] (lit "T84:02:hAAAA") = Ok ns
  /\ ingenico_parse p64 [65] (lit "T84:02:hAAAA") = Ok ns' /\ ns <> ns' /\ masked_digits [65] [0xAA; 0xAA].
Proof.
  do 2 eexists. split; [split; vm_compute; reflexivity|]. split; [vm_compute; reflexivity|]. split; [vm_compute; reflexivity|]. split; [intros K; discriminate K|].
  split; [discriminate|]. exists 65. split; [now left|]. split; [now apply is_hex_digitb_spec|]. repeat constructor.
Qed.
