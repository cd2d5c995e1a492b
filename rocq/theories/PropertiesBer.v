(** Final theorems for the BER-TLV parser: C09-C20. *)

From Coq Require Import ZArith NArith List String Ascii Bool Lia ZifyN ZifyBool ZifyNat.
From Verif Require Import Base ModelUtil ModelEnums ModelTlv SpecUtil SpecTlv ProofsUtil ProofsBer ProofsGrammar.
Import ListNotations.
Local Open Scope N_scope.

Lemma input64_eq p masks bytes : input64 p bytes ->
  bytes_ok bytes /\ ber_parse p masks bytes = parse_bytes masks bytes.
Proof. intros (H1 & H2 & H3). split; [assumption|]. apply ber_parse_eq; [assumption|]. now apply roomy_64. Qed.

Lemma input64_app p a b : input64 p (a ++ b) <->
  (input64 p a /\ input64 p b /\ len a + len b < 2 ^ 63).
Proof. unfold input64. rewrite bytes_ok_app, len_app. intuition lia. Qed.

Definition p64 : platform := {| usize_bits := 64; overflow_checks := true |}.

Ltac bytes_lit := repeat apply Forall_cons; try apply Forall_nil; unfold is_byte; lia.
Ltac in64 := split; [reflexivity|split; [bytes_lit|vm_compute; reflexivity]].

(* 6F 08 | 84 02 | AA BB | 9F02 01 | 07, tag 6F constructed. *)
Definition sample : list N := [0x6F; 0x08; 0x84; 0x02; 0xAA; 0xBB; 0x9F; 0x02; 0x01; 0x07].

(** C09: no panic, always terminates. *)
Theorem C09_ber_parse_settles : forall p masks bytes, input64 p bytes ->
  (exists ns, ber_parse p masks bytes = Ok ns) \/ (exists e, ber_parse p masks bytes = Err e).
Proof.
  intros p masks bytes H. destruct (input64_eq p masks bytes H) as [Hb ->].
  pose proof (parse_bytes_settled masks bytes Hb) as S.
  destruct (parse_bytes masks bytes); cbn in S; eauto; contradiction.
Qed.

Example C09_example : input64 p64 sample /\ exists ns, ber_parse p64 [] sample = Ok ns.
Proof. split; [in64|]. eexists. vm_compute. reflexivity. Qed.

(** C10: on a 32-bit target the parser panics. *)
Theorem C10_ber_32bit_panics : forall checks masks data, data <> [] -> len data < 2 ^ 31 ->
  ber_parse {| usize_bits := 32; overflow_checks := checks |} masks
            ([0x91; 0x84; 0xFF; 0xFF; 0xFF; 0xFF] ++ data) = Panic.
Proof.
  intros checks masks data Hne Hlen.
  set (p := {| usize_bits := 32; overflow_checks := checks |}).
  set (bytes := [0x91; 0x84; 0xFF; 0xFF; 0xFF; 0xFF] ++ data).
  assert (HL : len bytes = 6 + len data) by (unfold bytes; rewrite len_app; reflexivity).
  assert (Hd : 1 <= len data) by (destruct data; [congruence|rewrite len_cons; lia]).
  assert (U : forall a b, a + b < 2 ^ 32 -> uadd p a b = Ok (a + b)) by (intros a b H; apply uadd_ok, H).
  unfold ber_parse. cbn [ber_loop]. rewrite HL.
  rewrite (proj2 (N.ltb_lt _ _)) by lia.
  change (index bytes 0) with (@Ok N 0x91). cbn [bind].
  change (parse_tag_metadata 0x91) with (Ok (TagClass_ContextSpecific, Primitive)). cbn [bind].
  change (N.land 0x1F 0x91 =? 0x1F) with false.
  assert (T : forall f, ber_tag_loop f p bytes false 0 = Ok 0) by (intros []; reflexivity).
  rewrite T. cbn [bind]. rewrite U by lia. cbn [bind].
  rewrite (proj2 (N.leb_gt _ _)) by lia.
  assert (L : ber_length p bytes (0 + 1) = Ok (0xFFFFFFFF, 6)).
  { unfold ber_length. change (index bytes (0 + 1)) with (@Ok N 0x84). cbn [bind].
    change (0 <? N.land 0x80 0x84) with true. change (N.land 0x7F 0x84) with 4. cbn iota zeta.
    change (4 <? 4) with false. cbn iota. do 4 (try rewrite U by lia; cbn [bind]).
    change (0 + 1 + (1 + 4)) with 6.
    rewrite (proj2 (N.leb_gt _ _)) by lia. do 4 (try rewrite U by lia; cbn [bind]).
    unfold slice_incl. change (0 + 1 + 1) with 2. change (0 + 1 + 4 + 1) with 6.
    unfold slice. rewrite (proj2 (N.leb_le 6 _)) by lia. change (2 <=? 6) with true. cbn [andb].
    change (firstn (N.to_nat (6 - 2)) (skipn (N.to_nat 2) bytes)) with [0xFF; 0xFF; 0xFF; 0xFF].
    cbn [bind]. change (byte_slice_to_u32 [0xFF; 0xFF; 0xFF; 0xFF]) with (@Ok N 0xFFFFFFFF). cbn [bind].
    reflexivity. }
  rewrite L. cbn [bind].
  unfold uadd, checked. change (6 + 0xFFFFFFFF <? usize_limit p) with false. cbn iota.
  destruct checks; [reflexivity|]. cbn [overflow_checks p]. cbn [bind].
  change ((6 + 0xFFFFFFFF) mod usize_limit p) with 5.
  change (usize_limit p) with (2 ^ 32).
  rewrite (proj2 (N.ltb_lt (6 + len data + 1) (2 ^ 32))) by lia. cbn [bind].
  rewrite (proj2 (N.leb_gt (6 + len data + 1) 5)) by lia.
  reflexivity.
Qed.

Example C10_example : [0x01] <> @nil N /\ len [0x01] < 2 ^ 31
  /\ ber_parse p64 [] ([0x91; 0x84; 0xFF; 0xFF; 0xFF; 0xFF] ++ [0x01]) = Err NonCompliant.
Proof. repeat split. discriminate. Qed.

(** C11: the grammar. *)
Theorem C11_ber_grammar : forall p masks bytes ns, input64 p bytes ->
  (ber_parse p masks bytes = Ok ns <->
   exists objs, ber_objects bytes objs [] /\ ber_trees masks objs ns).
Proof.
  intros p masks bytes ns H. destruct (input64_eq p masks bytes H) as [Hb ->].
  now apply parse_bytes_grammar.
Qed.

(* The grammar is unambiguous. *)
Theorem C11_ber_grammar_unambiguous : forall bytes objs objs',
  ber_objects bytes objs [] -> ber_objects bytes objs' [] -> objs = objs'.
Proof. exact ber_objects_det. Qed.

Example C11_example : ber_objects sample [([0x6F], [0x84; 2; 0xAA; 0xBB; 0x9F; 2; 1; 7])] []
  /\ ber_objects [0x84; 2; 0xAA; 0xBB; 0x9F; 2; 1; 7] [([0x84], [0xAA; 0xBB]); ([0x9F; 2], [7])] [].
Proof.
  assert (L : forall n, n < 128 -> ~ long_form [n]) by (intros n Hn (b & r & E & H); inversion E; subst; lia).
  split.
  - apply ber_objects_cons with (mid := []); [|constructor].
    apply (ber_object_intro [0x6F] [8] [0x84; 2; 0xAA; 0xBB; 0x9F; 2; 1; 7] []).
    + constructor. discriminate.
    + now constructor.
    + intros H. now apply L in H.
  - apply ber_objects_cons with (mid := [0x9F; 2; 1; 7]).
    + apply (ber_object_intro [0x84] [2] [0xAA; 0xBB] [0x9F; 2; 1; 7]).
      * constructor. discriminate.
      * now constructor.
      * intros H. now apply L in H.
    + apply ber_objects_cons with (mid := []); [|constructor].
      apply (ber_object_intro [0x9F; 2] [1] [7] []).
      * apply (ber_tag_long 0x9F [] 2); [reflexivity|constructor|lia].
      * now constructor.
      * intros H. now apply L in H.
Qed.

(** C12: round trip. *)
Lemma encodes_trees masks : forall fs bytes ns, encodes masks fs bytes ns ->
  exists objs, ber_objects bytes objs [] /\ ber_trees masks objs ns.
Proof.
  induction 1 as [|t v l fs rest ns T P M L E IH Hl|t cs v cns l fs rest ns T C M E1 IH1 L E2 IH2 Hl].
  - exists []. split; constructor.
  - destruct IH as (objs & Ho & Ht). exists ((t, v) :: objs). split.
    + econstructor; [now constructor|assumption].
    + constructor; [|assumption]. rewrite <- P. apply ber_tree_leaf; [now right|now left].
  - destruct IH2 as (objs & Ho & Ht). destruct IH1 as (cobjs & Hco & Hct).
    exists ((t, v) :: objs). split.
    + econstructor; [now constructor|assumption].
    + constructor; [|assumption]. econstructor; eassumption.
Qed.

Theorem C12_round_trip : forall p masks fs bytes ns, input64 p bytes ->
  encodes masks fs bytes ns -> ber_parse p masks bytes = Ok ns.
Proof. intros p masks fs bytes ns H E. apply C11_ber_grammar; [assumption|]. now apply encodes_trees with fs. Qed.

Lemma be_bytes_value n : n < 2 ^ 32 -> be_value (be_bytes n) = n /\ (List.length (be_bytes n) <= 4)%nat /\ bytes_ok (be_bytes n).
Proof.
  intros H. unfold be_bytes, bytes_ok, is_byte.
  destruct (N.ltb_spec n 256); [|destruct (N.ltb_spec n (256 ^ 2)); [|destruct (N.ltb_spec n (256 ^ 3))]];
    cbn [be_value List.length]; change (256 ^ N.of_nat 3) with 16777216; change (256 ^ N.of_nat 2) with 65536;
    change (256 ^ N.of_nat 1) with 256; change (256 ^ N.of_nat 0) with 1;
    change (256 ^ 2) with 65536 in *; change (256 ^ 3) with 16777216 in *; change (2 ^ 32) with 4294967296 in *;
    (split; [lia|split; [lia|]]); repeat apply Forall_cons; try apply Forall_nil; lia.
Qed.

Lemma std_len_ok n : n < 2 ^ 32 -> ber_len (std_len n) n /\ bytes_ok (std_len n) /\ (long_form (std_len n) -> 0 < n).
Proof.
  intros H. destruct (be_bytes_value n H) as (E1 & E2 & E3). unfold std_len.
  destruct (N.ltb_spec n 128) as [Hn|Hn].
  - repeat split; [now constructor| |].
    + apply bytes_ok_cons. split; [lia|constructor].
    + intros (b & r & E & Hb). inversion E; subst. lia.
  - repeat split; [|apply bytes_ok_cons; split; [unfold len; lia|assumption]|lia].
    rewrite <- E1 at 3. now constructor.
Qed.

Lemma not_masked_nil v : ~ masked [] v.
Proof. intros (_ & m & H & _). contradiction. Qed.

Lemma std_object_encodes t v rest : len v < 2 ^ 32 -> ber_tag t ->
  ber_len (std_len (len v)) (len v) /\ (long_form (std_len (len v)) -> v ++ rest <> [])
  /\ std_object t v ++ rest = t ++ std_len (len v) ++ v ++ rest.
Proof.
  intros Hv T. destruct (std_len_ok (len v) Hv) as (L & _ & Z). repeat split; auto.
  - intros F E. specialize (Z F). apply app_eq_nil in E. destruct E as [-> _]. cbn in Z. lia.
  - unfold std_object. now rewrite <- !app_assoc.
Qed.

Lemma std_encodes x : tlv_ok x -> forall fs rest ns, encodes [] fs rest ns ->
  encodes [] (x :: fs) (std_encode x ++ rest) (std_node x :: ns).
Proof.
  induction 1 as [t v Hbt T P Hv Hl|t cs Hbt T C Hcs IH Hl]; intros fs rest ns E; cbn [std_encode std_node].
  - destruct (std_object_encodes t v rest Hl T) as (L & F & ->).
    apply encodes_prim; auto using not_masked_nil.
  - destruct (std_object_encodes t (std_forest cs) rest Hl T) as (L & F & Eq).
    unfold std_forest in Eq at 1. rewrite Eq.
    apply encodes_cons; auto using not_masked_nil.
    clear -IH. unfold std_forest. induction cs as [|c cs IHcs]; cbn [flat_map map]; [constructor|].
    apply IH; [now left|]. apply IHcs. intros c' Hc'. apply IH. now right.
Qed.

Lemma std_bytes x : tlv_ok x -> bytes_ok (std_encode x).
Proof.
  induction 1 as [t v Hbt T P Hv Hl|t cs Hbt T C Hcs IH Hl]; cbn [std_encode]; unfold std_object.
  - apply bytes_ok_app. split; [assumption|]. apply bytes_ok_app. split; [now apply std_len_ok|assumption].
  - apply bytes_ok_app. split; [assumption|]. apply bytes_ok_app. split; [now apply std_len_ok|].
    clear -IH. induction cs as [|c cs IHcs]; cbn [flat_map]; [constructor|].
    apply bytes_ok_app. split; [apply IH; now left|]. apply IHcs. intros c' Hc'. apply IH. now right.
Qed.

Theorem C12_standard_encoding : forall p fs, usize_bits p = 64 -> (forall x, In x fs -> tlv_ok x) ->
  len (std_forest fs) < 2 ^ 63 -> ber_parse p [] (std_forest fs) = Ok (map std_node fs).
Proof.
  intros p fs Hp Hfs Hl. apply (C12_round_trip p [] fs).
  - split; [assumption|]. split; [|assumption]. clear -Hfs. unfold std_forest.
    induction fs as [|x fs IH]; cbn [flat_map]; [constructor|]. apply bytes_ok_app.
    split; [apply std_bytes, Hfs; now left|]. apply IH. intros y Hy. apply Hfs. now right.
  - clear -Hfs. unfold std_forest. induction fs as [|x fs IH]; cbn [flat_map map]; [constructor|].
    apply std_encodes; [apply Hfs; now left|]. apply IH. intros y Hy. apply Hfs. now right.
Qed.

(* A nested forest, whose standard encoding is the sample. *)
Definition sample_forest : list tlv := [TCons [0x6F] [TPrim [0x84] [0xAA; 0xBB]; TPrim [0x9F; 2] [7]]].
Example C12_example : (forall x, In x sample_forest -> tlv_ok x) /\ std_forest sample_forest = sample.
Proof.
  split; [|reflexivity]. intros x [<-|[]]. apply tlv_ok_cons; [bytes_lit|constructor; discriminate|reflexivity| |vm_compute; reflexivity].
  intros c [<-|[<-|[]]]; apply tlv_ok_prim; try bytes_lit; try reflexivity.
  - constructor. discriminate.
  - apply (ber_tag_long 0x9F [] 2); [reflexivity|constructor|lia].
Qed.
(* A long length form followed by more data is an encoding too. *)
Example C12_example_long_form : exists ns,
  encodes [42] [TPrim [0x84] []; TPrim [0x85] [1]] [0x84; 0x81; 0; 0x85; 0x82; 0; 1; 1] ns.
Proof.
  eexists. apply (encodes_prim [42] [0x84] [] [0x81; 0] [TPrim [0x85] [1]] [0x85; 0x82; 0; 1; 1]).
  - constructor. discriminate.
  - reflexivity.
  - intros [H _]. cbn in H. lia.
  - apply (ber_len_long [0]). cbn. lia.
  - apply (encodes_prim [42] [0x85] [1] [0x82; 0; 1] [] []).
    + constructor. discriminate.
    + reflexivity.
    + intros [H _]. cbn in H. lia.
    + apply (ber_len_long [0; 1]). cbn. lia.
    + constructor.
    + discriminate.
  - discriminate.
Qed.

(** C13: lossless. *)
Theorem C13_ber_lossless : forall p masks bytes ns, input64 p bytes ->
  ber_parse p masks bytes = Ok ns -> written masks ns bytes.
Proof.
  intros p masks bytes ns Hi H. apply C11_ber_grammar in H; [|assumption]. destruct H as (objs & Ho & Ht).
  clear Hi. remember [] as r eqn:Er in Ho. revert ns Ht.
  induction Ho as [r|b t v mid objs r O Os IH]; subst; intros ns Ht; inversion Ht as [|? n ? ns' T Ts]; subst; [constructor|].
  specialize (IH eq_refl _ Ts). destruct O as [t l v rest _ L _].
  inversion T; subst; constructor; auto. now right.
Qed.
(* Without masking characters the values are all there. *)
Theorem C13_no_masks_no_masked : forall p bytes ns n, input64 p bytes ->
  ber_parse p [] bytes = Ok ns -> In n ns -> exists v, rt_data (node_tag n) = Normal v.
Proof.
  intros p bytes ns n Hi H Hn. apply C13_ber_lossless in H; [|assumption]. clear Hi.
  induction H as [|t c ty d ch v l ns rest R L W IH]; [contradiction|].
  destruct Hn as [<-|Hn]; [|now apply IH]. cbn. destruct R as [[M _]|[_ ->]]; [now apply not_masked_nil in M|eauto].
Qed.

Example C13_example : exists ns, ber_parse p64 [] sample = Ok ns /\ ns <> [].
Proof. eexists. split; [vm_compute; reflexivity|discriminate]. Qed.

(** C14: compositional. *)
Theorem C14_ber_compositional : forall p masks a b na, input64 p (a ++ b) -> ber_parse p masks a = Ok na ->
  (forall nb, ber_parse p masks b = Ok nb -> ber_parse p masks (a ++ b) = Ok (na ++ nb))
  /\ (forall e, ber_parse p masks b = Err e -> ber_parse p masks (a ++ b) = Err e).
Proof.
  intros p masks a b na Hi Ha. destruct (input64_eq p masks _ Hi) as [_ ->].
  apply input64_app in Hi. destruct Hi as (Ia & Ib & _).
  destruct (input64_eq p masks _ Ia) as [Hba Ea]. destruct (input64_eq p masks _ Ib) as [Hbb ->].
  rewrite Ea in Ha. rewrite (parse_bytes_app masks a b na) by assumption.
  split; intros x ->; reflexivity.
Qed.

Example C14_example : input64 p64 (sample ++ [0x9F; 0x27]) /\ (exists na, ber_parse p64 [] sample = Ok na)
  /\ ber_parse p64 [] [0x9F; 0x27] = Err NonCompliant.
Proof. split; [in64|]. split; [eexists; vm_compute; reflexivity|reflexivity]. Qed.

(** C15: truncation. *)
Lemma next_truncated obj t v k : ber_object obj t v [] -> (k < List.length obj)%nat ->
  next (firstn k obj) = Err NonCompliant.
Proof.
  intros O Hk. rewrite <- (firstn_skipn k obj) in O.
  set (c := firstn k obj) in *. set (d := skipn k obj) in *.
  assert (Hd : d <> []). { intros E. apply (f_equal (@List.length N)) in E. unfold d in E. rewrite skipn_length in E. cbn in E. lia. }
  destruct (next_total c) as [[[[t' v'] r'] E]|[e E]].
  - apply next_iff in E. apply (ber_object_app _ _ _ _ d) in E.
    destruct (ber_object_det _ _ _ _ _ _ _ O E) as (_ & _ & En). symmetry in En. apply app_eq_nil in En. tauto.
  - destruct (next_err _ _ E) as [->| ->]; [|assumption].
    apply next_unsupported in E. destruct E as (t' & l0 & r & Ec & T & H).
    apply next_iff in O. assert (U : next (c ++ d) = Err Unsupported).
    { apply next_unsupported. exists t', l0, (r ++ d). rewrite Ec, <- app_assoc. auto. }
    congruence.
Qed.

Theorem C15_ber_truncation : forall p masks pre npre obj t v k, input64 p (pre ++ obj) ->
  ber_parse p masks pre = Ok npre -> ber_object obj t v [] -> (0 < k < List.length obj)%nat ->
  ber_parse p masks (pre ++ firstn k obj) = Err NonCompliant.
Proof.
  intros p masks pre npre obj t v k Hi Hp O [Hk Hk'].
  assert (Hi' : input64 p (pre ++ firstn k obj)).
  { rewrite <- (firstn_skipn k obj), app_assoc in Hi. now apply input64_app in Hi. }
  apply (C14_ber_compositional p masks pre (firstn k obj) npre Hi' Hp).
  apply input64_app in Hi'. destruct Hi' as (_ & Hf & _).
  destruct (input64_eq p masks _ Hf) as [Hb ->].
  apply parse_bytes_err; [assumption|]. exists [], (firstn k obj). split; [constructor|]. split.
  - intros E. apply (f_equal (@List.length N)) in E. rewrite firstn_length in E. cbn in E. lia.
  - now apply (next_truncated obj t v).
Qed.

Example C15_example : ber_object sample [0x6F] [0x84; 2; 0xAA; 0xBB; 0x9F; 2; 1; 7] []
  /\ (0 < 5 < List.length sample)%nat /\ ber_parse p64 [] sample <> Err NonCompliant.
Proof.
  split; [|split; [cbn; lia|vm_compute; discriminate]].
  apply next_iff. reflexivity.
Qed.

(** C16: errors. *)
Theorem C16_ber_unsupported : forall p masks bytes, input64 p bytes ->
  (ber_parse p masks bytes = Err Unsupported <->
   exists objs t l0 rest, ber_objects bytes objs (t ++ l0 :: rest) /\ ber_tag t /\ 132 < l0).
Proof.
  intros p masks bytes Hi. destruct (input64_eq p masks bytes Hi) as [Hb ->].
  rewrite parse_bytes_err by assumption. split.
  - intros (objs & rest & Ho & _ & E). apply next_unsupported in E. destruct E as (t & l0 & r & -> & T & H). eauto 8.
  - intros (objs & t & l0 & r & Ho & T & H). exists objs, (t ++ l0 :: r). split; [assumption|]. split.
    + intros E. apply app_eq_nil in E. destruct E as [_ E]. discriminate.
    + apply next_unsupported. eauto 8.
Qed.
Theorem C16_ber_error_kinds : forall p masks bytes e, input64 p bytes ->
  ber_parse p masks bytes = Err e -> e = Unsupported \/ e = NonCompliant.
Proof.
  intros p masks bytes e Hi. destruct (input64_eq p masks bytes Hi) as [Hb ->]. intros H.
  apply parse_bytes_err in H; [|assumption]. destruct H as (objs & rest & _ & _ & E). now apply next_err in E.
Qed.
(* The masking characters do not influence acceptance. *)
Theorem C16_ber_acceptance_ignores_masks : forall p masks masks' bytes, input64 p bytes ->
  ((exists ns, ber_parse p masks bytes = Ok ns) <-> (exists ns, ber_parse p masks' bytes = Ok ns))
  /\ forall e, (ber_parse p masks bytes = Err e <-> ber_parse p masks' bytes = Err e).
Proof.
  intros p masks masks' bytes Hi. destruct (input64_eq p masks bytes Hi) as [Hb ->].
  destruct (input64_eq p masks' bytes Hi) as [_ ->]. split.
  - split; intros [ns H]; apply parse_bytes_sound in H; try assumption; destruct H as (objs & Ho & _);
      now apply parse_bytes_accepts with objs.
  - intros e. now rewrite !parse_bytes_err.
Qed.

Example C16_example : input64 p64 (sample ++ [0x9F; 0x02; 0x85; 1])
  /\ ber_parse p64 [] (sample ++ [0x9F; 0x02; 0x85; 1]) = Err Unsupported.
Proof. split; [in64|reflexivity]. Qed.

(** C17: zero length in long form. *)
Lemma long_zero k : (k <= 4)%nat -> ber_len (128 + N.of_nat k :: repeat 0 k) 0.
Proof.
  intros H. pose proof (ber_len_long (repeat 0 k)) as L. rewrite repeat_length in L. specialize (L H).
  rewrite len_repeat in L. replace (be_value (repeat 0 k)) with 0 in L; [assumption|].
  pose proof (be_value_zeros k []) as E. rewrite app_nil_r in E. now rewrite E.
Qed.

Theorem C17_long_zero_length_last : forall p masks t k, input64 p (t ++ (128 + N.of_nat k) :: repeat 0 k) ->
  ber_tag t -> (k <= 4)%nat ->
  ber_parse p masks (t ++ (128 + N.of_nat k) :: repeat 0 k) = Err NonCompliant.
Proof.
  intros p masks t k Hi T Hk. destruct (input64_eq p masks _ Hi) as [Hb ->].
  apply parse_bytes_err; [assumption|]. exists [], (t ++ (128 + N.of_nat k) :: repeat 0 k).
  split; [constructor|]. split; [intros E; now apply app_eq_nil in E|].
  unfold next. rewrite (proj2 (split_tag_iff _ t _) (conj eq_refl T)). cbn [split_length].
  rewrite (proj2 (N.leb_le _ _)) by lia. rewrite (proj2 (N.ltb_ge _ _)) by lia.
  rewrite (proj2 (N.leb_le _ _)) by (rewrite len_repeat; lia). reflexivity.
Qed.
Theorem C17_long_zero_length_followed : forall p masks t k rest ns,
  input64 p (t ++ ((128 + N.of_nat k) :: repeat 0 k) ++ rest) ->
  ber_tag t -> (k <= 4)%nat -> rest <> [] -> ber_parse p masks rest = Ok ns ->
  ber_parse p masks (t ++ ((128 + N.of_nat k) :: repeat 0 k) ++ rest)
  = Ok (RawNode (mkRawTag t (class_of (first_byte t)) (type_of (first_byte t)) (Normal [])) [] :: ns).
Proof.
  intros p masks t k rest ns Hi T Hk Hne Hr. apply C11_ber_grammar; [assumption|].
  assert (Hir : input64 p rest) by (rewrite app_assoc in Hi; now apply input64_app in Hi).
  apply C11_ber_grammar in Hr; [|assumption]. destruct Hr as (objs & Ho & Ht).
  exists ((t, []) :: objs). split.
  - apply ber_objects_cons with (mid := rest); [|assumption].
    apply (ber_object_intro t ((128 + N.of_nat k) :: repeat 0 k) [] rest); [assumption|now apply long_zero|].
    intros _. assumption.
  - constructor; [|assumption].
    assert (M : ~ masked masks []) by (intros [H _]; cbn in H; lia).
    destruct (type_of (first_byte t)) eqn:E.
    + rewrite <- E. apply ber_tree_leaf; [now right|now left].
    + apply ber_tree_node with (objs := []); [assumption|assumption|constructor|constructor].
Qed.
Theorem C17_short_zero_length_last : forall p masks t, input64 p (t ++ [0]) -> ber_tag t ->
  ber_parse p masks (t ++ [0])
  = Ok [RawNode (mkRawTag t (class_of (first_byte t)) (type_of (first_byte t)) (Normal [])) []].
Proof.
  intros p masks t Hi T. apply C11_ber_grammar; [assumption|]. exists [(t, [])]. split.
  - apply ber_objects_cons with (mid := []); [|constructor].
    apply (ber_object_intro t [0] [] []); [assumption|now constructor|].
    intros F. apply long_form_cons in F. lia.
  - constructor; [|constructor].
    assert (M : ~ masked masks []) by (intros [H _]; cbn in H; lia).
    destruct (type_of (first_byte t)) eqn:E.
    + rewrite <- E. apply ber_tree_leaf; [now right|now left].
    + apply ber_tree_node with (objs := []); [assumption|assumption|constructor|constructor].
Qed.
(* So not every definite-length encoding is accepted. *)
Theorem C17_every_encoding_accepted_refuted :
  exists t l v, ber_tag t /\ ber_len l (len v) /\ input64 p64 (t ++ l ++ v)
                /\ forall masks, ber_parse p64 masks (t ++ l ++ v) = Err NonCompliant.
Proof.
  exists [0x84], [0x81; 0], []. split; [constructor; discriminate|]. split; [apply (ber_len_long [0]); cbn; lia|].
  split; [in64|]. intros masks. apply (C17_long_zero_length_last p64 masks [0x84] 1).
  - in64.
  - constructor; discriminate.
  - lia.
Qed.

Example C17_example : ber_tag [0x9F; 0x81; 0x02] /\ input64 p64 ([0x9F; 0x81; 0x02] ++ [0x82; 0; 0]).
Proof.
  split; [|in64]. apply (ber_tag_long 0x9F [0x81] 2); [reflexivity| |lia].
  apply Forall_cons; [lia|constructor].
Qed.

(** C18: class and type. *)
Theorem C18_tag_metadata : forall b, b < 256 -> parse_tag_metadata b = Ok (class_of b, type_of b).
Proof. exact tag_metadata_spec. Qed.

Example C18_example : class_of 0x9F = TagClass_ContextSpecific /\ type_of 0x9F = Primitive
  /\ class_of 0x6F = TagClass_Application /\ type_of 0x6F = Constructed.
Proof. repeat split. Qed.

(** C19: children. *)

(* The children demanded of a node. *)
Definition children_ok (p : platform) (masks : list N) (n : raw_node) : Prop :=
  match rt_type (node_tag n), rt_data (node_tag n) with
  | Constructed, Normal v => match ber_parse p masks v with
                             | Ok cs => node_children n = cs
                             | Err _ => node_children n = []
                             | _ => False
                             end
  | _, _ => node_children n = []
  end.
Definition metadata_ok (n : raw_node) : Prop :=
  exists b t, rt_tag (node_tag n) = b :: t /\ rt_class (node_tag n) = class_of b /\ rt_type (node_tag n) = type_of b.

Lemma occurs_nil n : ~ occurs n [].
Proof. intros H. inversion H; subst; contradiction. Qed.
Lemma occurs_cons n m ns : occurs n (m :: ns) -> n = m \/ occurs n (node_children m) \/ occurs n ns.
Proof.
  intros H. inversion H as [? Hi|m' ? Hi Ho]; subst.
  - destruct Hi as [<-|Hi]; [now left|]. right; right. now left.
  - destruct Hi as [<-|Hi]; [now right; left|]. right; right. now right with m'.
Qed.

Lemma parsed_nodes_ok p masks : forall bytes ns n, input64 p bytes ->
  ber_parse p masks bytes = Ok ns -> occurs n ns -> children_ok p masks n /\ metadata_ok n.
Proof.
  induction bytes as [bytes IH] using length_ind. intros ns n Hi H Ho.
  destruct (input64_eq p masks _ Hi) as [Hb E]. rewrite E in H. destruct bytes as [|b0 bs].
  { rewrite parse_bytes_nil in H. inversion H; subst. now apply occurs_nil in Ho. }
  rewrite parse_bytes_eq in H by (try assumption; discriminate).
  destruct (next (b0 :: bs)) as [[[t v] rest]| | |] eqn:En; try discriminate.
  apply next_iff in En. pose proof (ber_object_length _ _ _ _ En) as Hlen.
  assert (Hiv : input64 p v /\ input64 p rest).
  { destruct (ber_object_bytes _ _ _ _ Hb En) as (_ & Hv & Hr). destruct Hi as (H1 & _ & H3). unfold input64, len in *.
    repeat split; auto; lia. }
  destruct Hiv as [Hiv Hir].
  destruct (ber_node masks (parse_bytes masks) t v) as [m| | |] eqn:Em; try discriminate. cbn [bind] in H.
  destruct (parse_bytes masks rest) as [ns'| | |] eqn:Er; try discriminate. cbn [bind] in H. inversion H; subst.
  apply occurs_cons in Ho. destruct Ho as [->|[Ho|Ho]].
  - assert (Ht : exists b t', t = b :: t') by (destruct t; [cbn in Hlen; lia|eauto]).
    destruct Ht as (b & t' & ->).
    destruct (input64_eq p masks _ Hiv) as [_ Ev].
    unfold ber_node, from_u8_check_for_masked, get_child_block in Em. cbn [first_byte] in Em.
    unfold children_ok, metadata_ok.
    destruct (is_masked_u8 v masks), (type_of b) eqn:Ty; cbn [bind] in Em;
      try (inversion Em; subst; cbn; split; [reflexivity|exists b, t'; auto]).
    destruct (parse_bytes masks v) as [cs|e| |] eqn:Ec; cbn [bind] in Em; try discriminate; inversion Em; subst;
      cbn [node_tag node_children rt_type rt_data rt_tag rt_class]; rewrite Ev; (split; [reflexivity|exists b, t'; auto]).
  - unfold ber_node, from_u8_check_for_masked, get_child_block in Em.
    destruct (is_masked_u8 v masks), (type_of (first_byte t)); cbn [bind] in Em;
      try (inversion Em; subst; cbn in Ho; now apply occurs_nil in Ho).
    destruct (parse_bytes masks v) as [cs|e| |] eqn:Ec; cbn [bind] in Em; try discriminate; inversion Em; subst; cbn in Ho.
    + apply (IH v ltac:(cbn [List.length] in *; lia) cs); auto. destruct (input64_eq p masks _ Hiv) as [_ ->]. assumption.
    + now apply occurs_nil in Ho.
  - apply (IH rest ltac:(cbn [List.length] in *; lia) ns'); auto. destruct (input64_eq p masks _ Hir) as [_ ->]. assumption.
Qed.

Theorem C19_ber_children : forall p masks bytes ns n, input64 p bytes ->
  ber_parse p masks bytes = Ok ns -> occurs n ns -> children_ok p masks n.
Proof. intros. now apply (parsed_nodes_ok p masks bytes ns). Qed.
Theorem C18_ber_nodes : forall p masks bytes ns n, input64 p bytes ->
  ber_parse p masks bytes = Ok ns -> occurs n ns -> metadata_ok n.
Proof. intros. now apply (parsed_nodes_ok p masks bytes ns). Qed.

Example C19_example : exists ns n, ber_parse p64 [] sample = Ok ns /\ occurs n ns
  /\ rt_tag (node_tag n) = [0x9F; 2] /\ node_children n = [].
Proof.
  eexists. eexists. split; [vm_compute; reflexivity|]. split; [|split].
  - eapply occurs_below; [left; reflexivity|]. cbn. apply occurs_here. right; left; reflexivity.
  - reflexivity.
  - reflexivity.
Qed.
(* A failing inner parse does not fail the outer one. *)
Example C19_example_failing_inner :
  ber_parse p64 [] [0x6F; 0x02; 0x84; 0x05]
  = Ok [RawNode (mkRawTag [0x6F] TagClass_Application Constructed (Normal [0x84; 0x05])) []].
Proof. reflexivity. Qed.

(** C20: linear size. *)
Lemma parse_bytes_size masks : forall bytes ns, bytes_ok bytes -> parse_bytes masks bytes = Ok ns ->
  (2 * forest_count ns <= List.length bytes /\ 2 * forest_depth ns <= List.length bytes)%nat.
Proof.
  induction bytes as [bytes IH] using length_ind. intros ns Hb H. destruct bytes as [|b0 bs].
  { rewrite parse_bytes_nil in H. inversion H; subst. cbn. lia. }
  rewrite parse_bytes_eq in H by (try assumption; discriminate).
  destruct (next (b0 :: bs)) as [[[t v] rest]| | |] eqn:En; try discriminate.
  apply next_iff in En. pose proof (ber_object_length _ _ _ _ En) as Hlen.
  destruct (ber_object_bytes _ _ _ _ Hb En) as (_ & Hv & Hr).
  destruct (ber_node masks (parse_bytes masks) t v) as [m| | |] eqn:Em; try discriminate. cbn [bind] in H.
  destruct (parse_bytes masks rest) as [ns'| | |] eqn:Er; try discriminate. cbn [bind] in H. inversion H; subst.
  destruct (IH rest ltac:(lia) ns' Hr Er) as [C1 C2].
  assert (Hm : (2 * forest_count (node_children m) <= List.length v /\ 2 * forest_depth (node_children m) <= List.length v)%nat).
  { unfold ber_node, from_u8_check_for_masked, get_child_block in Em.
    destruct (is_masked_u8 v masks), (type_of (first_byte t)); cbn [bind] in Em;
      try (inversion Em; subst; cbn; lia).
    destruct (parse_bytes masks v) as [cs|e| |] eqn:Ec; cbn [bind] in Em; try discriminate; inversion Em; subst; cbn [node_children].
    - now apply (IH v ltac:(lia)).
    - cbn. lia. }
  destruct m as [mt mc]. cbn [node_children] in Hm. unfold forest_count, forest_depth in *.
  cbn [map list_sum list_max fold_right node_count node_depth] in *.
  change (fold_right Nat.add 0%nat (map node_count ns')) with (list_sum (map node_count ns')).
  change (fold_right Nat.max 0%nat (map node_depth ns')) with (list_max (map node_depth ns')).
  lia.
Qed.

Theorem C20_ber_linear : forall p masks bytes ns, input64 p bytes -> ber_parse p masks bytes = Ok ns ->
  (2 * forest_count ns <= List.length bytes /\ 2 * forest_depth ns <= List.length bytes)%nat.
Proof.
  intros p masks bytes ns Hi. destruct (input64_eq p masks bytes Hi) as [Hb ->]. now apply parse_bytes_size.
Qed.

Example C20_example : exists ns, ber_parse p64 [] sample = Ok ns /\ forest_count ns = 3%nat /\ forest_depth ns = 2%nat.
Proof. eexists. split; [vm_compute; reflexivity|split; reflexivity]. Qed.
