(** Final theorems for tag processing, names, sorting and equality: C22, C33-C39, C66, C67. *)

From Coq Require Import ZArith NArith List String Ascii Bool Lia ZifyN ZifyBool ZifyNat Permutation Sorting.
From Verif Require Import Base ModelUtil ModelEnums ModelBitflag ModelSchemas ModelTags ModelTlv ModelValues ModelProcess
  SpecUtil SpecCodes SpecValues SpecTags SpecTlv SpecIngenico ProofsUtil ProofsBer ProofsGrammar ProofsIngenico PropertiesBer
  PropertiesIngenico ProofsValues PropertiesValues SpecProcess ProofsProcess.
Import ListNotations.
Local Open Scope N_scope.

(** C35: the exact processed form of every tag. *)
Theorem C35_processed_form : forall raw pt, data_ok raw -> (process_emv_tag raw = Ok pt <-> processed raw pt).
Proof. intros raw pt H. apply process_facts. exact H. Qed.
Theorem C35_names : forall t s, identify_tag t = Some s <-> known_name t s.
Proof. exact identify_iff. Qed.
Theorem C35_unknown : forall t, identify_tag t = None <-> unknown_tag t.
Proof. exact identify_none. Qed.
(* The name shown. *)
Theorem C35_shown_name : forall raw pt, data_ok raw -> process_emv_tag raw = Ok pt ->
  match pt with
  | PRaw r => r = raw /\ unknown_tag (rt_tag raw)
  | PParsed s _ r => r = raw /\ known_name (rt_tag raw) s
  | PAnnotated s r => r = raw /\ (known_name (rt_tag raw) s
      \/ In (rt_tag raw) [[0x8A]; [0x9C]; [0x9F; 0x10]] /\ exists d x, rt_data raw = Normal d /\ tolerated (rt_tag raw) d x /\ s = lit x)
  end.
Proof.
  intros raw pt Hd H. apply C35_processed_form in H; [|assumption]. inversion H as [U|s Hs _|s d v Hs Hd' Hv|s d Hd' Ht]; subst; auto.
  split; [reflexivity|]. right. split; [|eauto]. inversion Ht; cbn; tauto.
Qed.
Example C35_example : exists pt, processed (mkRawTag [0x95] TagClass_ContextSpecific Primitive (Normal [0; 0; 0; 0; 0])) pt
  /\ known_name [0x95] (lit "Terminal Verification Results (TVR)") /\ unknown_tag [0xDF; 0x01].
Proof.
  eexists. split; [|split].
  - apply C35_processed_form; [repeat constructor|]. vm_compute. reflexivity.
  - apply C35_names. vm_compute. reflexivity.
  - apply C35_unknown. vm_compute. reflexivity.
Qed.

(** C36: exactly which tags fail. *)
Theorem C36_failures : forall raw e, data_ok raw -> (process_emv_tag raw = Err e <-> tag_fails raw e).
Proof. intros raw e H. apply process_facts. exact H. Qed.
Theorem C36_no_panic : forall raw, data_ok raw -> process_emv_tag raw <> Panic /\ process_emv_tag raw <> NoFuel.
Proof. intros raw H. now apply process_facts. Qed.
Theorem C36_only_interpreted_unmasked_tags_fail : forall raw e, data_ok raw -> process_emv_tag raw = Err e ->
  In (rt_tag raw) interpreted_tags /\ rt_data raw <> Masked.
Proof.
  intros raw e Hd H. apply C36_failures in H; [|assumption]. destruct H as (d & Ed & R). split; [|congruence].
  inversion R as [t n d' Hin L| | | | | | |]; subst; try (cbn; tauto).
  cbn in Hin. repeat (destruct Hin as [Hin|Hin]; [injection Hin as <- _; cbn; tauto|]). destruct Hin.
Qed.
(* Issuer application data never fails. *)
Theorem C36_iad_never_fails : forall raw, data_ok raw -> rt_tag raw = [0x9F; 0x10] -> exists pt, process_emv_tag raw = Ok pt.
Proof.
  intros raw Hd Ht. destruct (C36_no_panic raw Hd) as [Np Nf]. destruct (process_emv_tag raw) as [pt|e| |] eqn:E; try contradiction; [eauto|].
  apply C36_failures in E; [|assumption]. destruct E as (d & _ & R). rewrite Ht in R. inversion R as [t n d' Hin L| | | | | | |]; subst.
  cbn in Hin. repeat (destruct Hin as [Hin|Hin]; [discriminate|]). destruct Hin.
Qed.
(* 8A and 9C never fail because their code is unrecognised. *)
Theorem C36_unrecognised_codes_tolerated : forall raw, data_ok raw -> In (rt_tag raw) [[0x8A]; [0x9C]; [0x9F; 0x10]] ->
  process_emv_tag raw <> Err Unrecognised /\ process_emv_tag raw <> Err NonCcdCompliant.
Proof.
  intros raw Hd Ht. split; intros E; apply C36_failures in E; try assumption; destruct E as (d & _ & R);
    inversion R; subst; cbn in Ht; repeat (destruct Ht as [Ht|Ht]; [congruence|]); destruct Ht.
Qed.
(* "Unrecognised codes are tolerated" is false of terminal types and POS entry modes. *)
Theorem C36_unknown_codes_tolerated_refuted : exists a b,
  process_emv_tag a = Err Unrecognised /\ rt_tag a = [0x9F; 0x35] /\ process_emv_tag b = Err Unrecognised /\ rt_tag b = [0x9F; 0x39]
  /\ (forall good r, process_block good = Ok r -> process_block (good ++ [RawNode a []]) = Err Unrecognised)
  /\ (forall good r, process_block good = Ok r -> process_block (good ++ [RawNode b []]) = Err Unrecognised).
Proof.
  exists (mkRawTag [0x9F; 0x35] TagClass_ContextSpecific Primitive (Normal [0x17])),
         (mkRawTag [0x9F; 0x39] TagClass_ContextSpecific Primitive (Normal [0x0B])).
  split; [vm_compute; reflexivity|]. split; [reflexivity|]. split; [vm_compute; reflexivity|]. split; [reflexivity|].
  split; intros good r E; unfold process_block in *; rewrite mapM_app, E; vm_compute; reflexivity.
Qed.
Example C36_example : tag_fails (mkRawTag [0x95] TagClass_ContextSpecific Primitive (Normal [1])) (ByteCountIncorrect Eq 5 1)
  /\ data_ok (mkRawTag [0x95] TagClass_ContextSpecific Primitive (Normal [1])).
Proof. split; [exists [1]; split; [reflexivity|apply (rejected_length [0x95] 5 [1]); [cbn; tauto|discriminate]]|repeat constructor]. Qed.

(** C22: masked values. *)
Theorem C22_masked_never_interpreted : forall raw, rt_data raw = Masked ->
  process_emv_tag raw = Ok (PRaw raw) /\ unknown_tag (rt_tag raw)
  \/ exists s, process_emv_tag raw = Ok (PAnnotated s raw) /\ known_name (rt_tag raw) s.
Proof.
  intros raw H. assert (Hd : data_ok raw) by (unfold data_ok; now rewrite H).
  destruct (identify_tag (rt_tag raw)) as [s|] eqn:I.
  - right. exists s. apply identify_iff in I. split; [|assumption]. apply C35_processed_form; [assumption|]. now apply processed_named; [|left].
  - left. apply identify_none in I. split; [|assumption]. apply C35_processed_form; [assumption|]. now constructor.
Qed.
Lemma children_ok_masked p masks n : children_ok p masks n -> rt_data (node_tag n) = Masked -> node_children n = [].
Proof. unfold children_ok. intros H E. rewrite E in H. destruct (rt_type (node_tag n)); assumption. Qed.
Theorem C22_masked_no_children_ber : forall p masks bytes ns n, input64 p bytes -> ber_parse p masks bytes = Ok ns ->
  occurs n ns -> rt_data (node_tag n) = Masked -> node_children n = [].
Proof. intros p masks bytes ns n Hi H Ho. apply (children_ok_masked p masks). now apply (C19_ber_children p masks bytes ns). Qed.
Theorem C22_masked_no_children_ingenico : forall p masks s ns n, text64 p s -> ingenico_parse p masks s = Ok ns ->
  occurs n ns -> rt_data (node_tag n) = Masked -> node_children n = [].
Proof. intros p masks s ns n Hi H Ho. apply (children_ok_masked p masks). now apply (C19_ingenico_children p masks s ns). Qed.
Example C22_example : exists ns, ber_parse p64 [0x2A] [0x70; 2; 0x2A; 0x2A] = Ok ns /\ ns = [RawNode (mkRawTag [0x70] TagClass_Application Constructed Masked) []].
Proof. eexists. split; [vm_compute; reflexivity|reflexivity]. Qed.

(** C33: processing keeps the data. *)
Theorem C33_data_preserved : forall l r, process_block l = Ok r -> map strip r = l.
Proof. exact process_block_strip. Qed.

Lemma process_nodes_exact l : Forall (fun n => forest_data_ok [n] -> forall pn, process_node n = Ok pn <-> processed_node n pn) l ->
  forest_data_ok l -> forall pl, mapM process_node l = Ok pl <-> processed_forest l pl.
Proof.
  induction 1 as [|n l Hn _ IH]; intros Hd pl.
  - split; [intros H; injection H as <-; constructor|intros H; inversion H; reflexivity].
  - unfold forest_data_ok in *. cbn [flat_map] in Hd. apply Forall_app in Hd. destruct Hd as [H1 H2].
    specialize (IH H2). assert (H1' : Forall data_ok (flat_map preorder [n])) by (cbn [flat_map]; now rewrite app_nil_r). specialize (Hn H1').
    rewrite mapM_cons. split.
    + destruct (process_node n) as [pn| | |]; try discriminate. cbn [bind].
      destruct (mapM process_node l) as [ps| | |]; try discriminate. intros H. injection H as <-. constructor; [now apply Hn|now apply IH].
    + intros H. inversion H as [|? pn ? ps Hp Hf]; subst. apply Hn in Hp. apply IH in Hf. rewrite Hp. cbn [bind]. now rewrite Hf.
Qed.
Lemma process_node_exact n : forest_data_ok [n] -> forall pn, process_node n = Ok pn <-> processed_node n pn.
Proof.
  induction n as [t c IH] using raw_tree_ind. intros Hd pn. unfold forest_data_ok in Hd. cbn [flat_map preorder app] in Hd. rewrite app_nil_r in Hd.
  inversion Hd as [|? ? Ht Hc]; subst. pose proof (process_nodes_exact c IH Hc) as Ec. rewrite process_node_eq. split.
  - destruct (process_emv_tag t) as [pt| | |] eqn:T; try discriminate. cbn [bind].
    destruct (mapM process_node c) as [pc| | |]; try discriminate. intros H. injection H as <-. constructor; [now apply C35_processed_form|now apply Ec].
  - intros H. inversion H as [? pt ? pc Hp Hf]; subst. apply C35_processed_form in Hp; [|assumption]. apply Ec in Hf. rewrite Hp. cbn [bind]. now rewrite Hf.
Qed.
(* The processed block, node by node. *)
Theorem C33_processed_block : forall l r, forest_data_ok l -> (process_block l = Ok r <-> processed_forest l r).
Proof. intros l r H. apply process_nodes_exact; [|assumption]. apply Forall_forall. intros n _. apply process_node_exact. Qed.
Example C33_example : exists r, process_block [RawNode (mkRawTag [0x70] TagClass_Application Constructed (Normal [0x9B; 2; 0xF8; 0]))
     [RawNode (mkRawTag [0x9B] TagClass_ContextSpecific Primitive (Normal [0xF8; 0])) []]] = Ok r /\ List.length r = 1%nat.
Proof. eexists. split; [vm_compute; reflexivity|reflexivity]. Qed.

(** C34: success and first failure. *)
Lemma ok_iff_not_fails t : data_ok t -> ((exists pt, process_emv_tag t = Ok pt) <-> forall e, ~ tag_fails t e).
Proof.
  intros H. destruct (process_facts t H) as (_ & Fe & Np & Nf). split.
  - intros [pt P] e F. apply Fe in F. congruence.
  - intros F. destruct (process_emv_tag t) as [pt|e| |]; try contradiction; [eauto|]. exfalso. apply (F e). now apply Fe.
Qed.
Lemma rmap_unit_ok {A} (r : res A) : rmap (fun _ => tt) r = Ok tt <-> exists a, r = Ok a.
Proof. rewrite rmap_ok. split; [intros (a & -> & _); eauto|intros [a ->]; eauto]. Qed.
Theorem C34_success : forall l, forest_data_ok l ->
  ((exists r, process_block l = Ok r) <-> forall t e, In t (flat_map preorder l) -> ~ tag_fails t e).
Proof.
  intros l H. rewrite <- rmap_unit_ok, process_block_tags, all_tags_ok, Forall_forall. unfold forest_data_ok in H. rewrite Forall_forall in H. split.
  - intros F t e Hin. apply ok_iff_not_fails; auto.
  - intros F t Hin. apply ok_iff_not_fails; auto.
Qed.
Theorem C34_first_failure : forall l e, forest_data_ok l ->
  (process_block l = Err e <->
   exists before t after, flat_map preorder l = before ++ t :: after
     /\ (forall x e', In x before -> ~ tag_fails x e') /\ tag_fails t e).
Proof.
  intros l e H. rewrite <- (rmap_err (fun _ => tt)), process_block_tags, all_tags_err. unfold forest_data_ok in H. split.
  - intros (b & t & a & E & F & X). exists b, t, a. rewrite E in H. apply Forall_app in H. destruct H as [Hb Ht]. inversion Ht; subst.
    split; [assumption|]. rewrite Forall_forall in *. split; [|now apply C36_failures]. intros x e' Hx. apply ok_iff_not_fails; auto.
  - intros (b & t & a & E & F & X). exists b, t, a. rewrite E in H. apply Forall_app in H. destruct H as [Hb Ht]. inversion Ht; subst.
    split; [assumption|]. rewrite Forall_forall in *. split; [|now apply C36_failures]. intros x Hx. apply ok_iff_not_fails; auto.
Qed.
Theorem C34_no_panic : forall l, forest_data_ok l -> process_block l <> Panic /\ process_block l <> NoFuel.
Proof.
  intros l H. destruct (all_tags_no_panic _ H) as [A B]. rewrite <- process_block_tags in A, B.
  split; intros E; rewrite E in *; [now apply A|now apply B].
Qed.

(* Parsed forests hold bytes, so the theorems above apply to everything the parsers return. *)
Lemma ber_objects_values bytes objs rest : bytes_ok bytes -> ber_objects bytes objs rest ->
  forall o, In o objs -> bytes_ok (fst o) /\ bytes_ok (snd o).
Proof.
  intros Hb H. induction H as [|b t v mid objs rest O _ IH]; [intros o []|].
  destruct (ber_object_bytes _ _ _ _ Hb O) as (Ht & Hv & Hm). intros o [<-|Hin]; [auto|now apply IH].
Qed.
Lemma reported_ok masks v d : bytes_ok v -> reported masks v d -> match d with Normal x => bytes_ok x | Masked => True end.
Proof. intros Hv [[_ ->]|[_ ->]]; [exact I|assumption]. Qed.
Lemma ber_trees_ok masks objs ns : (forall o, In o objs -> bytes_ok (fst o) /\ bytes_ok (snd o)) -> ber_trees masks objs ns -> forest_ok ns.
Proof.
  intros Hb T. revert Hb.
  apply (ber_trees_mind masks (fun o n _ => bytes_ok (fst o) -> bytes_ok (snd o) -> Forall tag_ok (preorder n))
           (fun os ns _ => (forall o, In o os -> bytes_ok (fst o) /\ bytes_ok (snd o)) -> forest_ok ns)) with (l := objs) (l0 := ns); try exact T; clear.
  - intros t v d R _ Ht Hv. cbn. constructor; [|constructor]. split; [exact Ht|]. unfold data_ok. cbn. now apply (reported_ok masks v).
  - intros t v objs children Ty Nm O Ts IH Ht Hv. cbn [preorder]. constructor; [split; [exact Ht|exact Hv]|].
    apply IH. now apply (ber_objects_values v objs []).
  - intros _. constructor.
  - intros o n os ns Tn IHn Tns IHns H. unfold forest_ok. cbn [flat_map]. apply Forall_app. split.
    + apply IHn; apply H; now left.
    + apply IHns. intros o' Ho. apply H. now right.
Qed.
Theorem C34_parsed_ber_ok : forall p masks bytes ns, input64 p bytes -> ber_parse p masks bytes = Ok ns -> forest_ok ns.
Proof.
  intros p masks bytes ns Hi H. apply C11_ber_grammar in H; [|assumption]. destruct H as (objs & O & T).
  apply (ber_trees_ok masks objs); [|assumption]. apply (ber_objects_values bytes objs []); [apply Hi|assumption].
Qed.
Lemma hex_digits_bytes ds : Forall is_hex_digit ds -> bytes_ok (bytes_of_digits ds).
Proof. intros H. apply bytes_of_digits_bytes. eapply Forall_impl; [|exact H]. intros c. apply is_hex_digitb_spec. Qed.
Lemma ing_field_ok masks f e : ascii_text f -> ing_field masks f e ->
  bytes_ok (ie_tag e) /\ match ie_data e with Normal x => bytes_ok x | Masked => True end.
Proof.
  intros Ha F. destruct F as [ty td tag ld n fmt txt d (Htd & k & Et & _) _ D]. cbn. split.
  - assert (B : bytes_ok (bytes_of_digits td)) by (apply hex_digits_bytes; exact Htd). rewrite Et in B. now apply bytes_ok_app in B.
  - apply ascii_cons in Ha. destruct Ha as [_ Ha]. apply ascii_app in Ha. destruct Ha as [_ Ha]. apply ascii_cons in Ha. destruct Ha as [_ Ha].
    apply ascii_app in Ha. destruct Ha as [_ Ha]. apply ascii_cons in Ha. destruct Ha as [_ Ha]. apply ascii_cons in Ha. destruct Ha as [_ Ha].
    destruct D as [txt d L R|txt L M|txt L M Hx]; [|exact I|].
    + apply (reported_ok masks txt d); [|assumption]. eapply Forall_impl; [|exact Ha]. intros c Hc. unfold is_byte. cbn in Hc. lia.
    + apply hex_digits_bytes. exact Hx.
Qed.
Lemma ing_text_ok masks s es : ascii_text s -> ing_text masks s es ->
  forall e, In e es -> bytes_ok (ie_tag e) /\ match ie_data e with Normal x => bytes_ok x | Masked => True end.
Proof.
  intros Ha T. induction T as [|f e F|f e sep rest es F _ IH]; [intros e []| |].
  - intros e' [<-|[]]. now apply (ing_field_ok masks f).
  - apply ascii_app in Ha. destruct Ha as [Hf Hr]. apply ascii_cons in Hr. intros e' [<-|Hin]; [now apply (ing_field_ok masks f)|].
    apply IH; [apply Hr|assumption].
Qed.
Lemma ing_nodes_ok masks es ns : (forall e, In e es -> bytes_ok (ie_tag e) /\ match ie_data e with Normal x => bytes_ok x | Masked => True end) ->
  ing_nodes masks es ns -> forest_ok ns.
Proof.
  intros H N. induction N as [|e es ns Ty N IH|e es n ns Ty Nn N IH]; [constructor| |].
  - apply IH. intros e' He. apply H. now right.
  - unfold forest_ok. cbn [flat_map]. apply Forall_app. split; [|apply IH; intros e' He; apply H; now right].
    destruct (H e (or_introl eq_refl)) as [Ht Hd]. destruct Nn as [d C|v objs children Tc O T].
    + constructor; [split; assumption|constructor].
    + cbn [preorder]. constructor; [split; assumption|]. apply (ber_trees_ok masks objs); [|assumption]. now apply (ber_objects_values v objs []).
Qed.
Theorem C34_parsed_ingenico_ok : forall p masks s ns, text64 p s -> ingenico_parse p masks s = Ok ns -> forest_ok ns.
Proof.
  intros p masks s ns Hi H. apply C24_ingenico_grammar in H; [|assumption]. destruct H as (Ha & es & T & N).
  apply (ing_nodes_ok masks es); [|assumption]. now apply (ing_text_ok masks s).
Qed.
Lemma forest_ok_data l : forest_ok l -> forest_data_ok l.
Proof. intros H. eapply Forall_impl; [|exact H]. intros t [_ Hd]. exact Hd. Qed.
(* Parsing followed by processing never panics. *)
Theorem C34_pipeline_no_panic : forall p masks ns,
  (exists bytes, input64 p bytes /\ ber_parse p masks bytes = Ok ns) \/ (exists s, text64 p s /\ ingenico_parse p masks s = Ok ns) ->
  process_block ns <> Panic /\ process_block ns <> NoFuel.
Proof.
  intros p masks ns H. apply C34_no_panic, forest_ok_data. destruct H as [(bytes & Hi & H)|(s & Hi & H)].
  - now apply (C34_parsed_ber_ok p masks bytes).
  - now apply (C34_parsed_ingenico_ok p masks s).
Qed.
Example C34_example : forest_data_ok [RawNode (mkRawTag [0x9B] TagClass_ContextSpecific Primitive (Normal [0xF8])) []]
  /\ process_block [RawNode (mkRawTag [0x9B] TagClass_ContextSpecific Primitive (Normal [0xF8])) []] = Err (ByteCountIncorrect Eq 2 1).
Proof. split; [repeat constructor|vm_compute; reflexivity]. Qed.

(** C37: sorting. *)
Theorem C37_sort_arranges : forall l l', sort_nodes l = l' <-> arranged l l'.
Proof.
  intros l l'. assert (A : arranged l (sort_nodes l)) by (apply sort_fuel_arranged; reflexivity). split.
  - intros <-. exact A.
  - intros H. now apply (arranged_unique l).
Qed.
Theorem C37_idempotent : forall l, sort_nodes (sort_nodes l) = sort_nodes l.
Proof. intros l. apply C37_sort_arranges. apply (arranged_idem l). now apply C37_sort_arranges. Qed.
(* Siblings of the top level stay siblings: same nodes up to their children's order. *)
Theorem C37_top_level_permuted : forall l, Permutation (map (fun n => match n with PNode t _ => t end) l)
                                                      (map (fun n => match n with PNode t _ => t end) (sort_nodes l)).
Proof.
  intros l. assert (A : arranged l (sort_nodes l)) by now apply C37_sort_arranges.
  inversion A as [? m ? P S F E]; subst. apply (Permutation_map (fun n => match n with PNode t _ => t end)) in P. rewrite P.
  clear -E. induction E; cbn; [constructor|]. now constructor.
Qed.
Example C37_example :
  let leaf t d := PNode (PRaw (mkRawTag t TagClass_Private Primitive (Normal d))) [] in
  sort_nodes [leaf [2] [1]; PNode (PRaw (mkRawTag [1; 1] TagClass_Private Constructed (Normal []))) [leaf [9] []; leaf [8] []]; leaf [1] [2]; leaf [1] [1]]
  = [leaf [1] [2]; leaf [1] [1]; PNode (PRaw (mkRawTag [1; 1] TagClass_Private Constructed (Normal []))) [leaf [8] []; leaf [9] []]; leaf [2] [1]].
Proof. reflexivity. Qed.

(** C38: ordering versus equality. *)
Theorem C38_cmp : forall a b,
  (raw_tag_cmp a b = Eq <-> rt_tag a = rt_tag b)
  /\ (raw_tag_cmp a b = Lt <-> dict_lt (rt_tag a) (rt_tag b))
  /\ (raw_tag_cmp a b = Gt <-> dict_lt (rt_tag b) (rt_tag a)).
Proof.
  intros a b. unfold raw_tag_cmp. pose proof (dict_cases (rt_tag a) (rt_tag b)) as D. destruct (lex_cmp (rt_tag a) (rt_tag b)).
  - rewrite D. repeat split; try reflexivity; try discriminate; intros H; exfalso; now apply dict_irrefl in H.
  - repeat split; try reflexivity; try discriminate; try (intros _; assumption); intros H; exfalso.
    + rewrite H in D. now apply dict_irrefl in D.
    + now apply dict_antisym in D.
  - repeat split; try reflexivity; try discriminate; try (intros _; assumption); intros H; exfalso.
    + rewrite H in D. now apply dict_irrefl in D.
    + now apply dict_antisym in D.
Qed.
Theorem C38_strict_order : forall a b c, ~ dict_lt a a /\ (dict_lt a b -> dict_lt b c -> dict_lt a c) /\ (dict_lt a b \/ a = b \/ dict_lt b a).
Proof.
  intros a b c. split; [apply dict_irrefl|]. split; [apply dict_trans|]. pose proof (dict_cases a b) as D. destruct (lex_cmp a b); auto.
Qed.
Theorem C38_equal_implies_cmp_equal : forall a b, raw_tag_eqb a b = true -> raw_tag_cmp a b = Eq.
Proof. intros a b H. apply raw_tag_eqb_iff in H. subst. now apply C38_cmp. Qed.
Theorem C38_cmp_equal_implies_equal_refuted : exists a b, raw_tag_cmp a b = Eq /\ raw_tag_eqb a b = false.
Proof. exists (mkRawTag [1] TagClass_Universal Primitive (Normal [])), (mkRawTag [1] TagClass_Universal Primitive Masked). split; reflexivity. Qed.

(** C39: the tag table. *)
Definition ber_tagb (t : list N) : bool :=
  match t with
  | [b] => negb (b mod 32 =? 31)
  | [b; c] => (b mod 32 =? 31) && (c <? 128)
  | _ => false
  end.
Lemma ber_tagb_ok t : ber_tagb t = true -> ber_tag t.
Proof.
  destruct t as [|b [|c [|d t]]]; try discriminate; cbn [ber_tagb]; intros H.
  - apply ber_tag_short. lia.
  - rewrite andb_true_iff in H. apply (ber_tag_long b [] c); [lia|constructor|lia].
Qed.
Lemma known_tags_ok t s : known_name t s -> ber_tag t /\ bytes_ok t /\ (List.length t <= 2)%nat.
Proof.
  intros (n & x & Hin & -> & _).
  assert (Z : forallb (fun r => ber_tagb (number_tag (fst r)) && forallb (fun b => b <? 256) (number_tag (fst r))) emv_tag_names = true)
    by (vm_compute; reflexivity).
  rewrite forallb_forall in Z. specialize (Z _ Hin). cbn [fst] in Z. apply andb_true_iff in Z. destruct Z as [Z1 Z2].
  split; [now apply ber_tagb_ok|]. split.
  - apply Forall_forall. rewrite forallb_forall in Z2. intros b Hb. specialize (Z2 b Hb). unfold is_byte. lia.
  - unfold number_tag. destruct (n <? 256); cbn; lia.
Qed.
Theorem C39_known_tags_are_complete : forall t s, identify_tag t = Some s -> ber_tag t.
Proof. intros t s H. apply identify_iff in H. now apply known_tags_ok in H. Qed.
Theorem C39_known_tags_are_parsed : forall p masks t s, usize_bits p = 64 -> identify_tag t = Some s ->
  ber_parse p masks (t ++ [0])
  = Ok [RawNode (mkRawTag t (class_of (first_byte t)) (type_of (first_byte t)) (Normal [])) []].
Proof.
  intros p masks t s Hp H. apply identify_iff in H. destruct (known_tags_ok t s H) as (T & B & L).
  apply C17_short_zero_length_last; [|assumption]. split; [assumption|]. split.
  - apply bytes_ok_app. split; [assumption|]. repeat constructor.
  - unfold len. rewrite app_length. cbn. assert (X : N.of_nat (List.length t + 1) <= 3) by lia.
    eapply N.le_lt_trans; [exact X|]. reflexivity.
Qed.
Theorem C39_distinct : forall n m x y, In (n, x) emv_tag_names -> In (m, y) emv_tag_names -> number_tag n = number_tag m -> x = y.
Proof.
  intros n m x y H1 H2 E. assert (K1 : known_name (number_tag n) (lit x)) by (exists n, x; auto).
  assert (K2 : known_name (number_tag n) (lit y)) by (exists m, y; auto).
  assert (D : distinct_tags (map fst tag_rows) = true) by (vm_compute; reflexivity).
  assert (L1 : lookup_tag (number_tag n) tag_rows = Some x).
  { apply lookup_complete; [assumption|]. apply in_map_iff. exists (n, x). split; [reflexivity|exact H1]. }
  assert (L2 : lookup_tag (number_tag n) tag_rows = Some y).
  { apply lookup_complete; [assumption|]. apply in_map_iff. exists (m, y). cbn [fst snd]. split; [rewrite E; reflexivity|exact H2]. }
  congruence.
Qed.
Theorem C39_tag_info : forall b t, bytes_ok (b :: t) ->
  exists i, tag_info_try_from (b :: t) = Ok i /\ ti_tag i = b :: t /\ ti_class i = class_of b /\ ti_type i = type_of b
    /\ (forall s, ti_name i = Some s <-> known_name (b :: t) s).
Proof.
  intros b t Hb. apply bytes_ok_cons in Hb. destruct Hb as [Hb _]. unfold tag_info_try_from.
  assert (L : (len (b :: t) <? 1) = false) by (apply N.ltb_ge; unfold len; cbn [List.length]; lia). rewrite L.
  change (index (b :: t) 0) with (@Ok N b). cbn [bind]. rewrite (tag_metadata_spec b Hb). cbn [bind fst snd].
  eexists. split; [reflexivity|]. cbn. repeat split; try reflexivity; apply identify_iff.
Qed.
Theorem C39_tag_info_empty : tag_info_try_from [] = Err (ByteCountIncorrect Gt 1 0).
Proof. reflexivity. Qed.
Example C39_example : identify_tag [0x9F; 0x02] = Some (lit "Amount, Authorised (Numeric)") /\ bytes_ok [0x9F; 0x02].
Proof. split; [vm_compute; reflexivity|repeat constructor]. Qed.

(** C66: equality of processed blocks. *)
Theorem C66_block_equality : forall l m, block_eqb l m = true <-> map strip l = map strip m.
Proof. exact block_eqb_iff. Qed.
(* So blocks processed from equal raw blocks are equal, and equal only then. *)
Theorem C66_processed_equal_iff : forall l m r s, process_block l = Ok r -> process_block m = Ok s -> (block_eqb r s = true <-> l = m).
Proof.
  intros l m r s Hl Hm. rewrite block_eqb_iff. rewrite (process_block_strip l r Hl), (process_block_strip m s Hm). tauto.
Qed.
(* Names and parsed values are not compared. *)
Theorem C66_equal_blocks_identical_refuted : exists l m, block_eqb l m = true /\ l <> m.
Proof.
  set (t := mkRawTag [1] TagClass_Universal Primitive (Normal [])).
  exists [PNode (PRaw t) []], [PNode (PAnnotated [] t) []]. split; [reflexivity|discriminate].
Qed.
Example C66_example : exists l m r s, process_block l = Ok r /\ process_block m = Ok s /\ block_eqb r s = false.
Proof.
  exists [], [RawNode (mkRawTag [1] TagClass_Universal Primitive (Normal [])) []]. eexists. eexists.
  split; [reflexivity|]. split; [vm_compute; reflexivity|reflexivity].
Qed.

(** C67: processing and sorting commute with what is kept. *)
Lemma strip_tag_bytes n : rt_tag (node_tag (strip n)) = tag_bytes n.
Proof. now destruct n as [t c]. Qed.
(* Sorting neither adds, drops nor alters tags: the same tags occur with the same multiplicity. *)
Fixpoint all_ptags (n : pnode) : list ptag := match n with PNode t c => t :: flat_map all_ptags c end.
Lemma flat_map_perm {A B} (f : A -> list B) l m : Permutation l m -> Permutation (flat_map f l) (flat_map f m).
Proof.
  induction 1; cbn; [constructor|now apply Permutation_app_head| |etransitivity; eassumption].
  rewrite !app_assoc. apply Permutation_app_tail, Permutation_app_comm.
Qed.
Theorem C67_sorting_keeps_all_tags : forall l, Permutation (flat_map all_ptags l) (flat_map all_ptags (sort_nodes l)).
Proof.
  intros l. assert (A : arranged l (sort_nodes l)) by now apply C37_sort_arranges. revert A. generalize (sort_nodes l). intros l' A.
  apply (arranged_ind2 (fun l l' _ => Permutation (flat_map all_ptags l) (flat_map all_ptags l'))
                       (fun m l' _ => Permutation (flat_map all_ptags m) (flat_map all_ptags l'))) with (l := l); try exact A; clear.
  - intros l m l' P S F E IH. etransitivity; [apply flat_map_perm; eassumption|assumption].
  - constructor.
  - intros t c c' m l' A IHa E IHe. cbn. constructor. now apply Permutation_app.
Qed.
Example C67_example :
  let leaf t := PNode (PRaw (mkRawTag t TagClass_Private Primitive Masked)) [] in
  flat_map all_ptags (sort_nodes [leaf [2]; leaf [1]]) <> flat_map all_ptags [leaf [2]; leaf [1]].
Proof. discriminate. Qed.
