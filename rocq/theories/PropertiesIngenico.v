(** Final theorems for masking, the Ingenico parser and automatic detection:
    C10 (32-bit part), C18, C19 (Ingenico parts), C21, C23-C32. *)

From Coq Require Import ZArith NArith List String Ascii Bool Lia ZifyN ZifyBool ZifyNat.
From Verif Require Import Base ModelUtil ModelEnums ModelTlv SpecUtil SpecTlv SpecIngenico
  ProofsUtil ProofsBer ProofsGrammar ProofsIngenico PropertiesBer.
Import ListNotations.
Local Open Scope N_scope.

Lemma text64_roomy p s : text64 p s -> roomy p (len s).
Proof. intros [H1 H2]. now apply roomy_64. Qed.

Lemma text64_eq p masks s : text64 p s -> ascii_text s -> ingenico_parse p masks s = parse_text masks s.
Proof.
  intros H Ha. rewrite ingenico_parse_eq by now apply text64_roomy.
  apply is_ascii_iff in Ha. now rewrite Ha.
Qed.

(* T9F02:01:h07,D1:00:a|T84:2:aXY *)
Definition sample_text : list N := lit "T9F02:01:h07,D11:00:a|T0084:02:aXY".

(** C10: the 32-bit target. *)
Theorem C10_ingenico_32bit_panics : forall checks masks data, ascii_text data -> len data < 2 ^ 31 ->
  ingenico_parse {| usize_bits := 32; overflow_checks := checks |} masks
                 (lit "T91:FFFFFFFF:a" ++ data) = Panic.
Proof.
  intros checks masks data Ha Hlen.
  set (p := {| usize_bits := 32; overflow_checks := checks |}).
  unfold ingenico_parse.
  assert (Has : is_ascii (lit "T91:FFFFFFFF:a" ++ data) = true).
  { apply is_ascii_iff, ascii_app. split; [|assumption]. vm_compute lit. repeat apply Forall_cons; try apply Forall_nil; lia. }
  rewrite Has. cbn [negb].
  set (s := lit "T91:FFFFFFFF:a" ++ data) in *.
  assert (HL : len s = 14 + len data) by (unfold s; rewrite len_app; reflexivity).
  assert (U : forall a b, a + b < 2 ^ 32 -> uadd p a b = Ok (a + b)) by (intros a b H; apply uadd_ok, H).
  cbn [ingenico_loop]. rewrite HL. rewrite (proj2 (N.ltb_lt _ _)) by lia.
  change (index s 0) with (@Ok N 84). cbn [bind]. rewrite U by lia. cbn [bind]. change (0 + 1) with 1.
  rewrite (proj2 (N.leb_gt _ _)) by lia.
  assert (F1 : find_colon p s 1 = Ok 3).
  { unfold find_colon, str_slice_from. change (str_skip s 1) with (@Ok str (lit "91:FFFFFFFF:a" ++ data)). cbn [bind].
    change (str_find (lit "91:FFFFFFFF:a" ++ data) tag_field_separator) with (Some 2). apply U. lia. }
  rewrite F1. cbn [bind].
  change (str_slice s 1 3) with (@Ok str (lit "91")). cbn [bind].
  change (map_err (parse_hex_str_strict (lit "91")) NonCompliant) with (@Ok (list N) [0x91]). cbn [bind].
  change (trim_leading_0_bytes [0x91]) with [0x91]. rewrite U by lia. cbn [bind]. change (3 + 1) with 4.
  rewrite (proj2 (N.leb_gt _ _)) by lia. change (len [0x91] =? 0) with false. cbn [orb].
  change (index [0x91] 0) with (@Ok N 0x91). cbn [bind].
  change (parse_tag_metadata 0x91) with (Ok (TagClass_ContextSpecific, Primitive)). cbn [bind].
  assert (F2 : find_colon p s 4 = Ok 12).
  { unfold find_colon, str_slice_from. change (str_skip s 4) with (@Ok str (lit "FFFFFFFF:a" ++ data)). cbn [bind].
    change (str_find (lit "FFFFFFFF:a" ++ data) tag_field_separator) with (Some 8). apply U. lia. }
  rewrite F2. cbn [bind].
  change (str_slice s 4 12) with (@Ok str (lit "FFFFFFFF")). cbn [bind].
  change (map_err (parse_hex_str_strict (lit "FFFFFFFF")) NonCompliant) with (@Ok (list N) [0xFF; 0xFF; 0xFF; 0xFF]).
  cbn [bind]. change (4 <? len [0xFF; 0xFF; 0xFF; 0xFF]) with false. cbn iota.
  change (byte_slice_to_u32 [0xFF; 0xFF; 0xFF; 0xFF]) with (@Ok N 0xFFFFFFFF). cbn [bind].
  rewrite U by lia. cbn [bind]. change (12 + 1) with 13.
  rewrite (proj2 (N.leb_gt _ _)) by lia.
  change (0xFFFFFFFF mod usize_limit p) with 0xFFFFFFFF.
  assert (D : ingenico_data p masks s 0xFFFFFFFF 13 = Panic).
  { unfold ingenico_data. change (index s 13) with (@Ok N 97). cbn [bind].
    change (97 =? data_format_ascii) with true. cbn iota. rewrite U by lia. cbn [bind]. change (13 + 1) with 14.
    unfold uadd, checked. change (14 + 0xFFFFFFFF <? usize_limit p) with false. cbn iota.
    destruct checks; [reflexivity|]. cbn [overflow_checks p bind].
    change ((14 + 0xFFFFFFFF) mod usize_limit p) with 13. rewrite HL.
    rewrite (proj2 (N.ltb_ge _ _)) by lia. reflexivity. }
  rewrite D. reflexivity.
Qed.

(** C21: masking. *)
Theorem C21_masked_bytes : forall data masks, is_masked_u8 data masks = true <-> masked masks data.
Proof. exact is_masked_u8_spec. Qed.
Theorem C21_masked_ascii_text : forall s masks, ascii_text s -> (is_masked_str s masks = true <-> masked masks s).
Proof. intros s masks H. rewrite is_masked_str_ascii by assumption. apply is_masked_u8_spec. Qed.
(* For arbitrary text the minimum counts bytes of the UTF-8 form. *)
Theorem C21_masked_text : forall s masks,
  is_masked_str s masks = true
  <-> (2 <= List.length (utf8 s))%nat /\ exists m, In m masks /\ Forall (fun c => c = m) s.
Proof.
  intros s masks. unfold is_masked_str, masking_char_minimum, str_len, len.
  destruct (N.ltb_spec (N.of_nat (List.length (utf8 s))) 2) as [H|H].
  - split; [discriminate|]. lia.
  - rewrite existsb_exists. split.
    + intros (m & Hm & F). split; [lia|]. exists m. split; [assumption|].
      rewrite forallb_forall in F. apply Forall_forall. intros c Hc. now apply N.eqb_eq, F.
    + intros (_ & m & Hm & F). exists m. split; [assumption|]. apply forallb_forall. intros c Hc.
      rewrite Forall_forall in F. now apply N.eqb_eq, F.
Qed.
Theorem C21_no_masking_characters : forall v s, is_masked_u8 v [] = false /\ is_masked_str s [] = false.
Proof.
  intros v s. split.
  - apply not_true_iff_false. rewrite is_masked_u8_spec. apply not_masked_nil.
  - apply not_true_iff_false. rewrite C21_masked_text. intros (_ & m & [] & _).
Qed.
(* "Masked text has at least two characters" is false outside ASCII. *)
Theorem C21_two_characters_refuted : exists s masks, is_masked_str s masks = true /\ List.length s = 1%nat.
Proof. exists [0xE9], [0xE9]. split; reflexivity. Qed.

Example C21_example : masked [42; 35] [35; 35; 35] /\ ~ masked [42; 35] [35; 42] /\ ~ masked [42] [42].
Proof.
  split; [|split].
  - split; [cbn; lia|]. exists 35. split; [cbn; tauto|]. repeat constructor.
  - intros (_ & m & _ & F). inversion F as [|? ? H1 F']; subst. inversion F' as [|? ? H2 _]. lia.
  - intros (H & _). cbn in H. lia.
Qed.

(** C23: no panic, always terminates. *)
Theorem C23_ingenico_settles : forall p masks s, text64 p s ->
  (exists ns, ingenico_parse p masks s = Ok ns) \/ (exists e, ingenico_parse p masks s = Err e).
Proof.
  intros p masks s H. rewrite ingenico_parse_eq by now apply text64_roomy.
  destruct (is_ascii s) eqn:E; [|eauto]. apply is_ascii_iff in E.
  pose proof (parse_text_settled masks s E) as S. destruct (parse_text masks s); cbn in S; eauto; contradiction.
Qed.

Example C23_example : text64 p64 sample_text /\ exists ns, ingenico_parse p64 [] sample_text = Ok ns /\ List.length ns = 2%nat.
Proof. split; [split; [reflexivity|vm_compute; reflexivity]|]. eexists. split; [vm_compute; reflexivity|reflexivity]. Qed.

(** C24: the grammar. *)
Theorem C24_ingenico_grammar : forall p masks s ns, text64 p s ->
  (ingenico_parse p masks s = Ok ns <->
   ascii_text s /\ exists es, ing_text masks s es /\ ing_nodes masks es ns).
Proof.
  intros p masks s ns H. rewrite ingenico_parse_eq by now apply text64_roomy.
  destruct (is_ascii s) eqn:E.
  - apply is_ascii_iff in E. rewrite parse_text_grammar by assumption. tauto.
  - split; [discriminate|]. intros [Ha _]. apply is_ascii_iff in Ha. congruence.
Qed.
Theorem C24_ingenico_grammar_unambiguous : forall masks s es es',
  ing_text masks s es -> ing_text masks s es' -> es = es'.
Proof. intros. eapply ing_text_det; eassumption. Qed.
(* The only errors. *)
Theorem C24_ingenico_error_kinds : forall p masks s e, text64 p s ->
  ingenico_parse p masks s = Err e -> e = NonCompliant \/ e = Unsupported.
Proof.
  intros p masks s e H. rewrite ingenico_parse_eq by now apply text64_roomy.
  destruct (is_ascii s) eqn:E; [|intros X; inversion X; auto]. apply is_ascii_iff in E. clear H. revert E.
  induction s as [s IH] using length_ind. intros Ha Hp.
  destruct s as [|c s]; [discriminate|]. rewrite parse_text_eq in Hp by (try assumption; discriminate).
  destruct (inext_total masks (c :: s)) as [[[en rest] En]|[En|En]]; rewrite En in Hp; try (inversion Hp; now auto).
  destruct (inext_suffix _ _ _ _ En) as (fl & El & Hfl).
  assert (Hlen : (List.length (tl rest) < List.length (c :: s))%nat).
  { rewrite El, app_length. destruct rest; cbn [tl List.length]; lia. }
  assert (Har : ascii_text (tl rest)). { rewrite El in Ha. apply ascii_app in Ha. now apply ascii_tl. }
  destruct (ing_child_ok masks en) as [n En'].
  { intros v Hv. now apply (inext_bytes masks _ _ _ v Ha En). }
  rewrite En' in Hp. cbn [bind] in Hp.
  destruct (ie_type en =? letter_T).
  - destruct (parse_text masks (tl rest)) eqn:Er; try discriminate. cbn [bind] in Hp. inversion Hp; subst.
    now apply (IH (tl rest)).
  - now apply (IH (tl rest)).
Qed.

(* Which error: Unsupported exactly when, after well-formed fields, a tag is followed by a
   length of ten hex digits or more; NonCompliant otherwise. *)
Lemma inext_unsupported masks s : inext masks s = Err Unsupported <->
  exists ty td tag ld r, s = ty :: td ++ colon :: ld ++ colon :: r /\ tag_digits td tag
    /\ Forall is_hex_digit ld /\ (10 <= List.length ld)%nat.
Proof.
  split.
  - unfold inext. destruct s as [|ty r0]; [discriminate|]. destruct (split_colon r0) as [[td r1]|] eqn:E1; [|discriminate].
    destruct (all_hex td) eqn:H1; [|discriminate]. cbn [negb]. cbn zeta. destruct (trim_leading_0_bytes (bytes_of_digits td)) as [|b t] eqn:T; [discriminate|].
    destruct (split_colon r1) as [[ld r2]|] eqn:E2; [|discriminate]. destruct (all_hex ld) eqn:H2; [|discriminate]. cbn [negb].
    destruct (N.ltb_spec 4 (len (bytes_of_digits ld))) as [L|L].
    + intros _. exists ty, td, (b :: t), ld, r2. apply split_colon_app in E1, E2. subst r1. split; [now rewrite E1|].
      split; [apply tag_digits_iff; [assumption|split; [assumption|discriminate]]|]. split; [now apply all_hex_iff|].
      destruct (Nat.le_gt_cases (List.length ld) 9) as [H|H]; [|lia]. apply len_digits_9 in H. lia.
    + destruct r2 as [|fmt r3]; [discriminate|].
      destruct (inext_data_total masks (be_value (bytes_of_digits ld)) fmt r3) as [[[d rest] ->]| ->]; discriminate.
  - intros (ty & td & tag & ld & r & -> & T & L & H). unfold inext. pose proof (proj1 T) as Hd.
    rewrite split_colon_no by now apply hex_no_colon. apply all_hex_iff in Hd. rewrite Hd. cbn [negb]. cbn zeta.
    apply tag_digits_iff in T; [|assumption]. destruct T as [-> Tn]. destruct tag as [|b t]; [contradiction|].
    rewrite split_colon_no by now apply hex_no_colon. apply all_hex_iff in L. rewrite L. cbn [negb].
    destruct (N.ltb_spec 4 (len (bytes_of_digits ld))) as [X|X]; [reflexivity|]. apply len_digits_9 in X. lia.
Qed.
Theorem C24_ingenico_unsupported : forall p masks s, text64 p s ->
  (ingenico_parse p masks s = Err Unsupported <->
   ascii_text s /\ exists before es ty td tag ld rest, s = before ++ ty :: td ++ colon :: ld ++ colon :: rest
     /\ ing_prefix masks before es /\ tag_digits td tag /\ Forall is_hex_digit ld /\ (10 <= List.length ld)%nat).
Proof.
  intros p masks s H. rewrite ingenico_parse_eq by now apply text64_roomy.
  destruct (is_ascii s) eqn:E.
  2:{ split; [discriminate|]. intros [A _]. apply is_ascii_iff in A. congruence. }
  apply is_ascii_iff in E. clear H. split.
  - intros Hp. split; [assumption|]. revert E Hp. induction s as [s IH] using length_ind. intros Ha Hp.
    destruct s as [|c s]; [discriminate|]. rewrite parse_text_eq in Hp by (try assumption; discriminate).
    destruct (inext masks (c :: s)) as [[en rest]|e| |] eqn:En; try discriminate.
    2:{ injection Hp as ->. apply inext_unsupported in En. destruct En as (ty & td & tag & ld & r & Es & T & L & K).
        exists [], [], ty, td, tag, ld, r. split; [assumption|]. split; [constructor|]. auto. }
    apply inext_iff in En. destruct En as (f & Ef & F). destruct rest as [|sep rest].
    { exfalso. cbn [tl] in Hp. rewrite parse_text_nil in Hp. destruct (ing_child_ok masks en) as [n N1].
      { intros v Hv. apply (field_data_bytes masks f en); [|assumption|assumption]. rewrite Ef in Ha. now apply ascii_app in Ha. }
      rewrite N1 in Hp. destruct (ie_type en =? letter_T); discriminate. }
    cbn [tl] in Hp. destruct (IH rest) as (a & es & ty & td & tag & ld & r & Er & P & T & L & K).
    + rewrite Ef, app_length. cbn [List.length]. lia.
    + rewrite Ef in Ha. apply ascii_app in Ha. destruct Ha as [_ Ha]. now apply ascii_cons in Ha.
    + destruct (ie_type en =? letter_T); [|assumption]. destruct (ing_child _ en) as [n| | |] eqn:N1; cbn [bind] in Hp; try discriminate.
      * destruct (parse_text masks rest); cbn [bind] in Hp; try discriminate. now injection Hp as ->.
      * destruct (ing_child_ok masks en) as [n N2]; [|congruence].
        intros v Hv. apply (field_data_bytes masks f en); [|assumption|assumption]. rewrite Ef in Ha. now apply ascii_app in Ha.
    + exists (f ++ sep :: a), (en :: es), ty, td, tag, ld, r. split; [rewrite Ef, Er, <- app_assoc; reflexivity|].
      split; [now constructor|]. auto.
  - intros (_ & a & es & ty & td & tag & ld & r & -> & P & T & L & K).
    assert (U : inext masks (ty :: td ++ colon :: ld ++ colon :: r) = Err Unsupported) by (apply inext_unsupported; exists ty, td, tag, ld, r; auto).
    induction P as [|f e sep rest es F P IH].
    + cbn [app] in *. rewrite parse_text_eq by (try assumption; discriminate). now rewrite U.
    + rewrite <- app_assoc in *. cbn [app] in *. rewrite (parse_text_field masks f e) by assumption. cbn [tl].
      apply ascii_app in E. destruct E as [Ef Er]. apply ascii_cons in Er. destruct Er as [_ Er]. rewrite (IH Er).
      destruct (ing_child_ok masks e) as [n ->]; [intros v Hv; now apply (field_data_bytes masks f e)|]. now destruct (ie_type e =? letter_T).
Qed.
Theorem C24_ingenico_otherwise : forall p masks s, text64 p s ->
  (exists ns, ingenico_parse p masks s = Ok ns) \/ ingenico_parse p masks s = Err Unsupported \/ ingenico_parse p masks s = Err NonCompliant.
Proof.
  intros p masks s H. destruct (C23_ingenico_settles p masks s H) as [?|[e E]]; [now left|].
  destruct (C24_ingenico_error_kinds p masks s e H E); subst; auto.
Qed.

Lemma sample_field1 : ing_field [42] (lit "T9F02:01:h07") (mkEntry 84 [0x9F; 2] (Normal [7])).
Proof.
  apply (ing_field_intro [42] 84 (lit "9F02") [0x9F; 2] (lit "01") 1 letter_h (lit "07") (Normal [7])).
  - split; [apply all_hex_iff; reflexivity|]. exists O. split; [reflexivity|]. split; [discriminate|]. intros t E. inversion E.
  - split; [apply all_hex_iff; reflexivity|]. split; [cbn; lia|reflexivity].
  - apply (ing_data_hex [42] 1 (lit "07")); [reflexivity| |apply all_hex_iff; reflexivity].
    intros M. apply is_masked_u8_spec in M. discriminate.
Qed.
Lemma sample_field2 : ing_field [42] (lit "D11:00:a") (mkEntry 68 [0x11] (Normal [])).
Proof.
  apply (ing_field_intro [42] 68 (lit "11") [0x11] (lit "00") 0 letter_a [] (Normal [])).
  - split; [apply all_hex_iff; reflexivity|]. exists O. split; [reflexivity|]. split; [discriminate|]. intros t E. inversion E.
  - split; [apply all_hex_iff; reflexivity|]. split; [cbn; lia|reflexivity].
  - apply ing_data_ascii; [reflexivity|]. right. split; [|reflexivity].
    intros M. apply is_masked_u8_spec in M. discriminate.
Qed.
Lemma sample_field3 : ing_field [42] (lit "T0084:02:aXY") (mkEntry 84 [0x84] (Normal (lit "XY"))).
Proof.
  apply (ing_field_intro [42] 84 (lit "0084") [0x84] (lit "02") 2 letter_a (lit "XY") (Normal (lit "XY"))).
  - split; [apply all_hex_iff; reflexivity|]. exists 1%nat. split; [reflexivity|]. split; [discriminate|]. intros t E. inversion E.
  - split; [apply all_hex_iff; reflexivity|]. split; [cbn; lia|reflexivity].
  - apply ing_data_ascii; [reflexivity|]. right. split; [|reflexivity].
    intros M. apply is_masked_u8_spec in M. discriminate.
Qed.
Example C24_example : ascii_text sample_text /\ exists es, ing_text [42] sample_text es /\ List.length es = 3%nat.
Proof.
  split; [apply is_ascii_iff; reflexivity|].
  exists [mkEntry 84 [0x9F; 2] (Normal [7]); mkEntry 68 [0x11] (Normal []); mkEntry 84 [0x84] (Normal (lit "XY"))].
  split; [|reflexivity].
  apply (ing_text_more [42] (lit "T9F02:01:h07") _ 44 (lit "D11:00:a|T0084:02:aXY")); [apply sample_field1|].
  apply (ing_text_more [42] (lit "D11:00:a") _ 124 (lit "T0084:02:aXY")); [apply sample_field2|].
  apply ing_text_last, sample_field3.
Qed.

Example C24_unsupported_example : text64 p64 (lit "T9F02:01:h07,T95:0000000005:h") /\ ingenico_parse p64 [42] (lit "T9F02:01:h07,T95:0000000005:h") = Err Unsupported.
Proof. split; [split; [reflexivity|vm_compute; reflexivity]|vm_compute; reflexivity]. Qed.

(** C25: round trip. *)
Lemma hex_number_app a b : hex_number (a ++ b) = fold_left (fun acc d => 16 * acc + hex_value d) b (hex_number a).
Proof. unfold hex_number. now rewrite fold_left_app. Qed.

Lemma fold_hex_be ds : forall acc, Nat.even (List.length ds) = true ->
  fold_left (fun acc d => 16 * acc + hex_value d) ds acc
  = acc * 256 ^ N.of_nat (List.length (bytes_of_digits ds)) + be_value (bytes_of_digits ds).
Proof.
  induction ds as [|a|a b l IH] using list_pair_ind; intros acc He; [cbn; lia|discriminate|].
  cbn [fold_left bytes_of_digits List.length be_value]. rewrite IH by assumption.
  rewrite Nat2N.inj_succ, N.pow_succ_r'. lia.
Qed.

Lemma hex_number_even ds : Nat.even (List.length ds) = true -> hex_number ds = be_value (bytes_of_digits ds).
Proof. intros H. unfold hex_number. rewrite fold_hex_be by assumption. lia. Qed.

Lemma even_digits_len ds : Nat.even (List.length ds) = true -> len ds = 2 * len (bytes_of_digits ds).
Proof.
  intros H. unfold len. rewrite bytes_of_digits_length. pose proof (Nat.div2_odd (List.length ds)) as E.
  rewrite <- Nat.negb_even, H in E. cbn in E. lia.
Qed.

Lemma ing_writes_field masks ty t v f : plain_tag t -> ing_writes masks ty t v f ->
  ing_field masks f (mkEntry ty t (Normal v)).
Proof.
  intros [Hne Hz] [td ld fmt txt k Htd Et Hld He Hl Hn M F].
  econstructor.
  - split; [assumption|]. exists k. auto.
  - split; [assumption|]. split; [lia|reflexivity].
  - rewrite <- hex_number_even, Hn by assumption. destruct F as [[-> ->]|(-> & Hx & <- & Hev)].
    + apply ing_data_ascii; [reflexivity|now right].
    + apply ing_data_hex; auto. now apply even_digits_len.
Qed.

Lemma ing_writes_all_text masks os s : (forall o, In o os -> plain_tag (fst o)) -> ing_writes_all masks os s ->
  ing_text masks s (map (fun o => mkEntry letter_T (fst o) (Normal (snd o))) os).
Proof.
  intros Hp W. induction W as [|t v f Wf|t v f sep os rest Wf W IH]; cbn [map fst snd].
  - constructor.
  - constructor. apply ing_writes_field; [apply (Hp (t, v)); now left|assumption].
  - constructor; [|apply IH; intros o Ho; apply Hp; now right].
    apply ing_writes_field; [apply (Hp (t, v)); now left|assumption].
Qed.

Definition represents (o : list N * list N) (n : raw_node) : Prop :=
  node_tag n = mkRawTag (fst o) (class_of (first_byte (fst o))) (type_of (first_byte (fst o))) (Normal (snd o)).

Theorem C25_ingenico_round_trip : forall p masks os s, text64 p s -> ascii_text s ->
  (forall o, In o os -> plain_tag (fst o)) -> ing_writes_all masks os s ->
  exists ns, ingenico_parse p masks s = Ok ns /\ Forall2 represents os ns.
Proof.
  intros p masks os s Hi Ha Hp W. pose proof (ing_writes_all_text masks os s Hp W) as T.
  rewrite text64_eq by assumption.
  assert (H : exists ns, ing_nodes masks (map (fun o => mkEntry letter_T (fst o) (Normal (snd o))) os) ns /\ Forall2 represents os ns).
  { assert (B : forall o, In o os -> bytes_ok (snd o)).
    { clear Hi T. induction W as [|t v f Wf|t v f sep os rest Wf W IH].
      - intros o [].
      - intros o [<-|[]]. cbn [snd]. apply (field_data_bytes masks f (mkEntry letter_T t (Normal v)) v); [assumption| |reflexivity].
        apply ing_writes_field; [apply (Hp (t, v)); now left|assumption].
      - apply ascii_app in Ha. destruct Ha as [Hf Hr]. intros o [<-|Ho].
        + cbn [snd]. apply (field_data_bytes masks f (mkEntry letter_T t (Normal v)) v); [assumption| |reflexivity].
          apply ing_writes_field; [apply (Hp (t, v)); now left|assumption].
        + apply IH; auto; [now apply ascii_cons in Hr|]. intros o' Ho'. apply Hp. now right. }
    clear -B. induction os as [|o os IH].
    - exists []. split; constructor.
    - destruct IH as (ns & N1 & N2). { intros o' Ho'. apply B. now right. }
      set (e := mkEntry letter_T (fst o) (Normal (snd o))).
      assert (Be : forall v, ie_data e = Normal v -> bytes_ok v).
      { intros v E. cbn in E. inversion E; subst. apply B. now left. }
      destruct (ing_child_ok masks e Be) as [n En].
      exists (n :: ns). split.
      + cbn [map]. apply ing_nodes_take; [reflexivity| |assumption]. now apply (ing_child_node masks e n Be).
      + constructor; [|assumption]. apply (ing_child_node masks e n Be) in En. unfold represents.
        inversion En; subst; cbn; [reflexivity|]. cbn in *. congruence. }
  destruct H as (ns & N1 & N2). exists ns. split; [|assumption].
  apply parse_text_grammar; [assumption|]. eauto.
Qed.

Example C25_example :
  ing_writes [42] letter_T [0x84] (lit "XY") (lit "T0084:02:aXY")
  /\ ing_writes [42] letter_T [0x84] (lit "XY") (lit "T84:0002:h5859") /\ plain_tag [0x84].
Proof.
  split; [|split].
  - apply (ing_writes_intro [42] letter_T [0x84] (lit "XY") (lit "0084") (lit "02") letter_a (lit "XY") 1);
      try (apply all_hex_iff; reflexivity); try reflexivity; try (cbn; lia).
    + intros M. apply is_masked_u8_spec in M. discriminate.
    + left. auto.
  - apply (ing_writes_intro [42] letter_T [0x84] (lit "XY") (lit "84") (lit "0002") letter_h (lit "5859") 0);
      try (apply all_hex_iff; reflexivity); try reflexivity; try (cbn; lia).
    + intros M. apply is_masked_u8_spec in M. discriminate.
    + right. repeat split. apply all_hex_iff; reflexivity.
  - split; [discriminate|]. intros r E. inversion E.
Qed.

(** C26: other fields are skipped. *)
Lemma parse_text_prefix masks : forall a es, ing_prefix masks a es -> forall b c, ascii_text (a ++ b) -> ascii_text (a ++ c) ->
  parse_text masks b = parse_text masks c -> parse_text masks (a ++ b) = parse_text masks (a ++ c).
Proof.
  induction 1 as [|f e sep rest es F P IH]; intros b c Hb Hc E; [assumption|].
  rewrite <- !app_assoc in *. cbn [app] in *.
  rewrite (parse_text_field masks f e (sep :: rest ++ b) Hb F), (parse_text_field masks f e (sep :: rest ++ c) Hc F).
  cbn [tl]. apply ascii_app in Hb, Hc. destruct Hb as [_ Hb], Hc as [_ Hc]. apply ascii_cons in Hb, Hc.
  rewrite (IH b c) by tauto. reflexivity.
Qed.

Theorem C26_other_fields_skipped : forall p masks a es f e sep b, text64 p (a ++ f ++ sep :: b) ->
  ascii_text (a ++ f ++ sep :: b) -> ing_prefix masks a es -> ing_field masks f e -> ie_type e <> letter_T ->
  ingenico_parse p masks (a ++ f ++ sep :: b) = ingenico_parse p masks (a ++ b).
Proof.
  intros p masks a es f e sep b Hi Ha P F Ty.
  assert (Hab : ascii_text (a ++ b) /\ ascii_text (f ++ sep :: b)).
  { apply ascii_app in Ha. destruct Ha as [Ha Hf]. split; [|assumption]. apply ascii_app in Hf. destruct Hf as [_ Hf].
    apply ascii_cons in Hf. apply ascii_app. tauto. }
  rewrite !text64_eq; try tauto.
  - apply (parse_text_prefix masks a es P); try tauto.
    rewrite (parse_text_field masks f e) by tauto. now rewrite (proj2 (N.eqb_neq _ _) Ty).
  - destruct Hi as [H1 H2]. split; [assumption|]. rewrite !len_app, len_cons in *. lia.
Qed.

Example C26_example : ing_prefix [42] (lit "T9F02:01:h07,") [mkEntry 84 [0x9F; 2] (Normal [7])]
  /\ ing_field [42] (lit "D11:00:a") (mkEntry 68 [0x11] (Normal [])) /\ 68 <> letter_T.
Proof.
  split; [|split; [apply sample_field2|discriminate]].
  apply (ing_prefix_cons [42] (lit "T9F02:01:h07") _ 44 []); [apply sample_field1|constructor].
Qed.

(** C27: separators. *)
Theorem C27_separator_irrelevant : forall p masks a es f e sep sep' b, text64 p (a ++ f ++ sep :: b) ->
  ascii_text (a ++ f ++ sep :: b) -> sep' < 128 -> ing_prefix masks a es -> ing_field masks f e ->
  ingenico_parse p masks (a ++ f ++ sep :: b) = ingenico_parse p masks (a ++ f ++ sep' :: b).
Proof.
  intros p masks a es f e sep sep' b Hi Ha Hs P F.
  assert (Ha' : ascii_text (a ++ f ++ sep' :: b)).
  { apply ascii_app in Ha. destruct Ha as [Ha Hf]. apply ascii_app in Hf. destruct Hf as [Hf Hb]. apply ascii_cons in Hb.
    apply ascii_app. split; [assumption|]. apply ascii_app. split; [assumption|]. apply ascii_cons. tauto. }
  rewrite !text64_eq; try assumption.
  - apply (parse_text_prefix masks a es P); try assumption.
    apply ascii_app in Ha, Ha'. rewrite !(parse_text_field masks f e) by tauto. reflexivity.
  - destruct Hi as [H1 H2]. split; [assumption|]. rewrite !len_app, !len_cons in *. lia.
Qed.
Theorem C27_trailing_separator : forall p masks a es f e sep, text64 p (a ++ f ++ [sep]) ->
  ascii_text (a ++ f ++ [sep]) -> ing_prefix masks a es -> ing_field masks f e ->
  ingenico_parse p masks (a ++ f ++ [sep]) = ingenico_parse p masks (a ++ f).
Proof.
  intros p masks a es f e sep Hi Ha P F.
  assert (Ha' : ascii_text (a ++ f)) by (rewrite app_assoc in Ha; now apply ascii_app in Ha).
  rewrite !text64_eq; try assumption.
  - apply (parse_text_prefix masks a es P); try assumption.
    apply ascii_app in Ha, Ha'.
    rewrite (parse_text_field masks f e [sep]) by tauto.
    replace f with (f ++ []) at 1 by apply app_nil_r.
    rewrite (parse_text_field masks f e []); [reflexivity|rewrite app_nil_r; tauto|assumption].
  - destruct Hi as [H1 H2]. split; [assumption|]. rewrite !len_app in *. lia.
Qed.

Example C27_example : ing_field [42] (lit "T9F02:01:h07") (mkEntry 84 [0x9F; 2] (Normal [7]))
  /\ ingenico_parse p64 [42] (lit "T9F02:01:h07:T84:00:a") = ingenico_parse p64 [42] (lit "T9F02:01:h07TT84:00:a").
Proof. split; [apply sample_field1|reflexivity]. Qed.

(** C28: truncation. *)
Theorem C28_ingenico_truncation : forall p masks a es f e k, text64 p (a ++ f) -> ascii_text (a ++ f) ->
  ing_prefix masks a es -> ing_field masks f e -> (0 < k < List.length f)%nat ->
  ingenico_parse p masks (a ++ firstn k f) = Err NonCompliant.
Proof.
  intros p masks a es f e k Hi Ha P F [Hk Hk'].
  assert (Hne : firstn k f <> []). { intros E. apply (f_equal (@List.length N)) in E. rewrite firstn_length in E. cbn in E. lia. }
  assert (Hd : skipn k f <> []). { intros E. apply (f_equal (@List.length N)) in E. rewrite skipn_length in E. cbn in E. lia. }
  assert (Hn : inext masks (firstn k f) = Err NonCompliant).
  { assert (Hf : inext masks f = Ok (e, [])) by (apply inext_iff; exists f; split; [now rewrite app_nil_r|assumption]).
    rewrite <- (firstn_skipn k f) in Hf.
    destruct (inext_total masks (firstn k f)) as [[[e' r'] E]|[E|E]]; [|assumption|].
    - apply (inext_app _ _ (skipn k f)) in E. rewrite E in Hf. inversion Hf as [[H1 H2]]. apply app_eq_nil in H2. tauto.
    - apply (inext_unsupported_app _ _ (skipn k f)) in E. congruence. }
  assert (Ha' : ascii_text (a ++ firstn k f)).
  { rewrite <- (firstn_skipn k f), app_assoc in Ha. now apply ascii_app in Ha. }
  rewrite text64_eq; [|destruct Hi as [H1 H2]; split; [assumption|rewrite len_app in *; unfold len in *; rewrite firstn_length; lia]|assumption].
  clear Hi Ha F. revert Ha'. induction P as [|f0 e0 sep rest es F0 P IH]; intros Ha'.
  - cbn [app] in *. rewrite parse_text_eq by assumption. now rewrite Hn.
  - rewrite <- app_assoc in *. cbn [app] in *. rewrite (parse_text_field masks f0 e0) by assumption. cbn [tl].
    apply ascii_app in Ha'. destruct Ha' as [Hf0 Hr]. apply ascii_cons in Hr.
    rewrite IH by tauto. destruct (ing_child_ok masks e0 (fun v Hv => field_data_bytes masks f0 e0 v Hf0 F0 Hv)) as [n ->].
    cbn [bind]. destruct (ie_type e0 =? letter_T); reflexivity.
Qed.

Example C28_example : ing_field [42] (lit "T0084:02:aXY") (mkEntry 84 [0x84] (Normal (lit "XY")))
  /\ (0 < 11 < List.length (lit "T0084:02:aXY"))%nat.
Proof. split; [apply sample_field3|cbn; lia]. Qed.

(** C29: odd digit counts. *)
Lemma all_hex_app a b : all_hex (a ++ b) = all_hex a && all_hex b.
Proof. apply forallb_app. Qed.
Lemma bytes_of_digits_odd ds d : Nat.even (List.length ds) = true -> bytes_of_digits (ds ++ [d]) = bytes_of_digits ds.
Proof.
  induction ds as [|a|a b l IH] using list_pair_ind; intros He; [reflexivity|discriminate|].
  cbn [app bytes_of_digits]. now rewrite IH.
Qed.
Lemma split_colon_hex ds r : Forall is_hex_digit ds -> split_colon (ds ++ colon :: r) = Some (ds, r).
Proof. intros H. apply split_colon_no. now apply hex_no_colon. Qed.
Lemma hex_ascii ds : Forall is_hex_digit ds -> ascii_text ds.
Proof. apply Forall_impl. unfold is_hex_digit. intros; lia. Qed.
Lemma is_ascii_app a b : is_ascii (a ++ b) = is_ascii a && is_ascii b.
Proof. rewrite !is_ascii_spec. apply forallb_app. Qed.

Lemma odd_digit_same p masks s s' : text64 p s -> text64 p s' -> is_ascii s = is_ascii s' ->
  s <> [] -> s' <> [] -> inext masks s = inext masks s' -> ingenico_parse p masks s = ingenico_parse p masks s'.
Proof.
  intros H1 H2 Ea N1 N2 E. rewrite !ingenico_parse_eq by now apply text64_roomy. rewrite <- Ea.
  destruct (is_ascii s) eqn:A; [|reflexivity]. symmetry in Ea. apply is_ascii_iff in A, Ea.
  rewrite !parse_text_eq by assumption. now rewrite E.
Qed.

Theorem C29_odd_length_digit_dropped : forall p masks ty td ld d r,
  text64 p (ty :: td ++ colon :: (ld ++ [d]) ++ colon :: r) ->
  Forall is_hex_digit td -> Forall is_hex_digit (ld ++ [d]) -> Nat.even (List.length ld) = true ->
  ingenico_parse p masks (ty :: td ++ colon :: (ld ++ [d]) ++ colon :: r)
  = ingenico_parse p masks (ty :: td ++ colon :: ld ++ colon :: r).
Proof.
  intros p masks ty td ld d r Hi Htd Hld He.
  assert (Hld' : Forall is_hex_digit ld) by (now apply Forall_app in Hld).
  apply odd_digit_same; [assumption| | |intros X; inversion X|intros X; inversion X|].
  - destruct Hi as [H1 H2]. split; [assumption|].
    rewrite len_cons, len_app, len_cons, !len_app, !len_cons in *. lia.
  - rewrite !is_ascii_cons. f_equal. rewrite !is_ascii_app. f_equal. rewrite !is_ascii_cons. f_equal.
    rewrite !is_ascii_app. rewrite (proj2 (is_ascii_iff _) (hex_ascii _ Hld')).
    apply Forall_app in Hld. rewrite (proj2 (is_ascii_iff _) (hex_ascii _ (proj2 Hld))). reflexivity.
  - unfold inext. rewrite split_colon_hex by assumption. rewrite !split_colon_hex by assumption.
    apply all_hex_iff in Hld, Hld'. rewrite Hld, Hld', bytes_of_digits_odd by assumption. reflexivity.
Qed.
Theorem C29_odd_tag_digit_dropped : forall p masks ty td d r,
  text64 p (ty :: (td ++ [d]) ++ colon :: r) ->
  Forall is_hex_digit (td ++ [d]) -> Nat.even (List.length td) = true ->
  ingenico_parse p masks (ty :: (td ++ [d]) ++ colon :: r)
  = ingenico_parse p masks (ty :: td ++ colon :: r).
Proof.
  intros p masks ty td d r Hi Htd He.
  assert (Htd' : Forall is_hex_digit td) by (now apply Forall_app in Htd).
  apply odd_digit_same; [assumption| | |intros X; inversion X|intros X; inversion X|].
  - destruct Hi as [H1 H2]. split; [assumption|]. rewrite len_cons, !len_app, !len_cons in *. lia.
  - rewrite !is_ascii_cons. f_equal. rewrite !is_ascii_app. rewrite (proj2 (is_ascii_iff _) (hex_ascii _ Htd')).
    apply Forall_app in Htd. rewrite (proj2 (is_ascii_iff _) (hex_ascii _ (proj2 Htd))). reflexivity.
  - unfold inext. rewrite !split_colon_hex by assumption.
    apply all_hex_iff in Htd, Htd'. rewrite Htd, Htd', bytes_of_digits_odd by assumption. reflexivity.
Qed.
Theorem C29_announced_length : forall ld n, length_digits ld n ->
  n = if Nat.even (List.length ld) then hex_number ld else hex_number ld / 16.
Proof.
  intros ld n (H1 & _ & ->). destruct (Nat.even (List.length ld)) eqn:E; [now rewrite hex_number_even|].
  destruct (rev ld) as [|d l] eqn:R.
  - apply (f_equal (@rev N)) in R. rewrite rev_involutive in R. subst. discriminate.
  - assert (El : ld = rev l ++ [d]) by (rewrite <- (rev_involutive ld), R; reflexivity).
    set (l' := rev l) in *. clearbody l'. clear R l. subst ld.
    assert (Ev : Nat.even (List.length l') = true).
    { rewrite app_length in E. cbn [List.length] in E. rewrite Nat.add_1_r, Nat.even_succ in E.
      now rewrite <- Nat.negb_odd, E. }
    rewrite bytes_of_digits_odd, hex_number_app by assumption. cbn [fold_left]. rewrite hex_number_even by assumption.
    apply Forall_app in H1. destruct H1 as [_ H1]. inversion H1 as [|? ? Hd _]; subst.
    apply is_hex_digitb_spec in Hd. apply hex_value_lt in Hd.
    apply (N.div_unique _ 16 _ (hex_value d)); [assumption|reflexivity].
Qed.
(* So a one-digit length is not read as its value. *)
Theorem C29_length_digit_value_refuted :
  exists s t, ingenico_parse p64 [] s = Ok [RawNode t []] /\ s = lit "T84:8:h" /\ rt_data t = Normal [].
Proof. exists (lit "T84:8:h"). eexists. split; [vm_compute; reflexivity|split; reflexivity]. Qed.

Example C29_example : length_digits (lit "010") 1 /\ hex_number (lit "010") = 16.
Proof. split; [|reflexivity]. split; [apply all_hex_iff; reflexivity|]. split; [cbn; lia|reflexivity]. Qed.

(** C18, C19 for Ingenico. *)
Lemma ing_parsed_nodes_ok p masks s ns n : text64 p s ->
  ingenico_parse p masks s = Ok ns -> occurs n ns -> children_ok p masks n /\ metadata_ok n.
Proof.
  intros Hi H. rewrite ingenico_parse_eq in H by now apply text64_roomy.
  destruct (is_ascii s) eqn:E; [|discriminate]. apply is_ascii_iff in E.
  revert ns H E Hi. induction s as [s IH] using length_ind. intros ns H Ha Hi Ho.
  destruct s as [|c s]. { inversion H; subst. now apply occurs_nil in Ho. }
  rewrite parse_text_eq in H by (try assumption; discriminate).
  destruct (inext_total masks (c :: s)) as [[[e rest] En]|[En|En]]; rewrite En in H; try discriminate.
  destruct (inext_suffix _ _ _ _ En) as (fl & El & Hfl).
  assert (Hlen : (List.length (tl rest) < List.length (c :: s))%nat).
  { rewrite El, app_length. destruct rest; cbn [tl List.length]; lia. }
  assert (Har : ascii_text (tl rest)). { rewrite El in Ha. apply ascii_app in Ha. now apply ascii_tl. }
  assert (Hir : text64 p (tl rest)). { destruct Hi as [H1 H2]. split; [assumption|]. unfold len in *. lia. }
  assert (Hv : forall v, ie_data e = Normal v -> input64 p v).
  { intros v Hv. destruct (inext_bytes masks _ _ _ v Ha En Hv) as [B L]. destruct Hi as [H1 H2]. repeat split; auto. lia. }
  destruct (N.eqb_spec (ie_type e) letter_T) as [Ty|Ty]; [|now apply (IH (tl rest) Hlen ns)].
  destruct (ing_child (parse_bytes masks) e) as [m| | |] eqn:Em; try discriminate. cbn [bind] in H.
  destruct (parse_text masks (tl rest)) as [ns'| | |] eqn:Er; try discriminate. cbn [bind] in H. inversion H; subst.
  apply inext_iff in En. destruct En as (f & Ef & F).
  assert (Ht : exists b t, ie_tag e = b :: t).
  { destruct F as [ty td tag ld n0 fmt txt d (_ & k & _ & Hne & _) _ _]. cbn. destruct tag; [congruence|eauto]. }
  destruct Ht as (b & t & Ht).
  apply occurs_cons in Ho. destruct Ho as [->|[Ho|Ho]].
  - unfold ing_child in Em. rewrite Ht in Em. cbn [first_byte] in Em. unfold children_ok, metadata_ok.
    destruct (type_of b) eqn:Tb; cbn [get_child_block bind] in Em.
    + inversion Em; subst. cbn. split; [reflexivity|]. exists b, t. auto.
    + destruct (ie_data e) as [v|]; cbn [get_child_block bind] in Em.
      * destruct (input64_eq p masks v (Hv v eq_refl)) as [_ Ev].
        destruct (parse_bytes masks v); cbn [bind] in Em; try discriminate; inversion Em; subst;
          cbn [node_tag node_children rt_type rt_data rt_tag rt_class]; rewrite Ev; (split; [reflexivity|exists b, t; auto]).
      * inversion Em; subst. cbn. split; [reflexivity|]. exists b, t. auto.
  - unfold ing_child in Em. destruct (type_of (first_byte (ie_tag e))); cbn [get_child_block bind] in Em.
    { inversion Em; subst. cbn in Ho. now apply occurs_nil in Ho. }
    destruct (ie_data e) as [v|]; cbn [get_child_block bind] in Em.
    2:{ inversion Em; subst. cbn in Ho. now apply occurs_nil in Ho. }
    specialize (Hv v eq_refl). destruct (input64_eq p masks v Hv) as [_ Ev].
    destruct (parse_bytes masks v) as [cs| | |]; cbn [bind] in Em; try discriminate; inversion Em; subst; cbn in Ho.
    + now apply (parsed_nodes_ok p masks v cs).
    + now apply occurs_nil in Ho.
  - now apply (IH (tl rest) Hlen ns').
Qed.

Theorem C19_ingenico_children : forall p masks s ns n, text64 p s ->
  ingenico_parse p masks s = Ok ns -> occurs n ns -> children_ok p masks n.
Proof. intros. now apply (ing_parsed_nodes_ok p masks s ns). Qed.
Theorem C18_ingenico_nodes : forall p masks s ns n, text64 p s ->
  ingenico_parse p masks s = Ok ns -> occurs n ns -> metadata_ok n.
Proof. intros. now apply (ing_parsed_nodes_ok p masks s ns). Qed.

(** C30: the two formats agree. *)
Definition pair_ok (o : list N * list N) : Prop :=
  bytes_ok (fst o) /\ ber_tag (fst o) /\ bytes_ok (snd o) /\ len (snd o) < 2 ^ 32.

Lemma ber_tag_plain t : ber_tag t -> plain_tag t.
Proof.
  intros [b H|b more last H F Hl]; (split; [discriminate|]); intros r E; inversion E; subst; [reflexivity|discriminate].
Qed.

Lemma std_field_writes t v : pair_ok (t, v) -> ing_writes [] letter_T t v (std_field t v).
Proof.
  intros (Bt & T & Bv & Lv). cbn [fst snd] in *. destruct (be_bytes_value (len v) Lv) as (E1 & E2 & E3).
  unfold std_field. apply ing_writes_intro with (k := O).
  - now apply all_hex_iff, all_hex_forall, hex_text_digits.
  - now rewrite bytes_of_hex_text.
  - now apply all_hex_iff, all_hex_forall, hex_text_digits.
  - rewrite hex_text_length. apply Nat.even_spec. exists (List.length (be_bytes (len v))). reflexivity.
  - rewrite hex_text_length. lia.
  - rewrite hex_number_even by (rewrite hex_text_length; apply Nat.even_spec; exists (List.length (be_bytes (len v))); reflexivity).
    rewrite bytes_of_hex_text; assumption.
  - apply not_masked_nil.
  - right. split; [reflexivity|]. split; [now apply all_hex_iff, all_hex_forall, hex_text_digits|].
    split; [now apply bytes_of_hex_text|]. rewrite hex_text_length. apply Nat.even_spec. now exists (List.length v).
Qed.

Lemma std_text_writes os : (forall o, In o os -> pair_ok o) -> ing_writes_all [] os (std_text os).
Proof.
  induction os as [|[t v] os IH]; intros H; [constructor|]. unfold std_text in *. cbn [flat_map fst snd].
  rewrite <- app_assoc. cbn [app]. constructor.
  - apply std_field_writes, H. now left.
  - apply IH. intros o Ho. apply H. now right.
Qed.

Lemma hex_text_ascii l : bytes_ok l -> ascii_text (hex_text l).
Proof. intros H. now apply hex_ascii, all_hex_iff, all_hex_forall, hex_text_digits. Qed.

Lemma std_text_ascii os : (forall o, In o os -> pair_ok o) -> ascii_text (std_text os).
Proof.
  induction os as [|[t v] os IH]; intros H; [constructor|]. unfold std_text in *. cbn [flat_map fst snd].
  destruct (H (t, v) (or_introl eq_refl)) as (Bt & T & Bv & Lv). cbn [fst snd] in *.
  destruct (be_bytes_value (len v) Lv) as (E1 & E2 & E3).
  apply ascii_app. split; [|apply IH; intros o Ho; apply H; now right].
  apply ascii_app. split; [|apply ascii_cons; split; [lia|constructor]].
  unfold std_field. apply ascii_cons. split; [vm_compute; reflexivity|].
  apply ascii_app. split; [now apply hex_text_ascii|]. apply ascii_cons. split; [vm_compute; reflexivity|].
  apply ascii_app. split; [now apply hex_text_ascii|]. apply ascii_cons. split; [vm_compute; reflexivity|].
  apply ascii_cons. split; [vm_compute; reflexivity|]. now apply hex_text_ascii.
Qed.

Lemma std_objects os : (forall o, In o os -> pair_ok o) ->
  ber_objects (flat_map (fun o => std_object (fst o) (snd o)) os) os [].
Proof.
  induction os as [|[t v] os IH]; intros H; [constructor|]. cbn [flat_map fst snd].
  destruct (H (t, v) (or_introl eq_refl)) as (Bt & T & Bv & Lv). cbn [fst snd] in *.
  apply ber_objects_cons with (mid := flat_map (fun o => std_object (fst o) (snd o)) os).
  - destruct (std_object_encodes t v (flat_map (fun o => std_object (fst o) (snd o)) os) Lv T) as (L & F & ->).
    now constructor.
  - apply IH. intros o Ho. apply H. now right.
Qed.

Lemma std_objects_bytes os : (forall o, In o os -> pair_ok o) ->
  bytes_ok (flat_map (fun o => std_object (fst o) (snd o)) os).
Proof.
  induction os as [|[t v] os IH]; intros H; [constructor|]. cbn [flat_map fst snd].
  destruct (H (t, v) (or_introl eq_refl)) as (Bt & T & Bv & Lv). cbn [fst snd] in *.
  apply bytes_ok_app. split; [|apply IH; intros o Ho; apply H; now right].
  unfold std_object. apply bytes_ok_app. split; [assumption|]. apply bytes_ok_app. split; [now apply std_len_ok|assumption].
Qed.

Lemma ber_trees_ing os ns : ber_trees [] os ns ->
  ing_nodes [] (map (fun o => mkEntry letter_T (fst o) (Normal (snd o))) os) ns.
Proof.
  induction os as [|[t v] os IH] in ns |- *; intros H; inversion H as [|? n ? ns' T Ts]; subst; [constructor|].
  cbn [map fst snd]. apply ing_nodes_take; [reflexivity| |now apply IH]. cbn [ie_tag ie_data].
  inversion T as [? ? d R C|? ? objs cs Hc Hm Ho Ht]; subst.
  - destruct R as [[M _]|[_ ->]]; [now apply not_masked_nil in M|]. constructor.
    destruct C as [C|[C|C]]; [now left|now apply not_masked_nil in C|]. right; right. eauto.
  - econstructor; eassumption.
Qed.

Theorem C30_formats_agree : forall p os, (forall o, In o os -> pair_ok o) ->
  input64 p (flat_map (fun o => std_object (fst o) (snd o)) os) -> text64 p (std_text os) ->
  exists ns, ber_parse p [] (flat_map (fun o => std_object (fst o) (snd o)) os) = Ok ns
             /\ ingenico_parse p [] (std_text os) = Ok ns /\ Forall2 represents os ns.
Proof.
  intros p os H Hi Ht.
  destruct (parse_bytes_accepts [] _ os (std_objects_bytes os H) (std_objects os H)) as [ns E].
  exists ns. destruct (input64_eq p [] _ Hi) as [Hb Eb].
  pose proof E as E'. apply parse_bytes_sound in E'; [|assumption]. destruct E' as (objs & Ho & Htr).
  rewrite (ber_objects_det _ _ _ Ho (std_objects os H)) in Htr.
  assert (Ing : ingenico_parse p [] (std_text os) = Ok ns).
  { apply C24_ingenico_grammar; [assumption|]. split; [now apply std_text_ascii|].
    exists (map (fun o => mkEntry letter_T (fst o) (Normal (snd o))) os). split; [|now apply ber_trees_ing].
    apply ing_writes_all_text; [|now apply std_text_writes]. intros o Hin. apply ber_tag_plain, H, Hin. }
  split; [now rewrite Eb|]. split; [assumption|].
  destruct (C25_ingenico_round_trip p [] os (std_text os) Ht (std_text_ascii os H)) as (ns' & E2 & R).
  - intros o Hin. apply ber_tag_plain, H, Hin.
  - now apply std_text_writes.
  - congruence.
Qed.

Example C30_example : (forall o, In o [([0x9F; 2], [7]); ([0x6F], [0x84; 0])] -> pair_ok o)
  /\ std_text [([0x9F; 2], [7]); ([0x6F], [0x84; 0])] = lit "T9F02:01:h07" ++ [10] ++ lit "T6F:02:h8400" ++ [10].
Proof.
  split; [|reflexivity]. intros o [<-|[<-|[]]]; (split; [cbn; bytes_lit|]); (split; [|split; [cbn; bytes_lit|vm_compute; reflexivity]]).
  - apply (ber_tag_long 0x9F [] 2); [reflexivity|constructor|lia].
  - constructor. discriminate.
Qed.

(** C31: automatic detection. *)
Lemma hex_input64 p s : text64 p s -> input64 p (parse_hex_str s).
Proof.
  intros [H1 H2]. split; [assumption|]. split; [apply parse_hex_str_bytes|].
  eapply N.le_lt_trans; [|exact H2]. rewrite parse_hex_str_spec. unfold len. rewrite bytes_of_digits_length.
  assert (L : (List.length (filter is_hex_digitb s) <= List.length s)%nat).
  { clear. induction s as [|c s IH]; cbn; [lia|]. destruct (is_hex_digitb c); cbn; lia. }
  pose proof (Nat.div2_odd (List.length (filter is_hex_digitb s))). lia.
Qed.

Theorem C31_auto_ingenico : forall p masks s ns, 
  auto_parse p masks s = Ok (Ingenico, ns) <-> s <> [] /\ ingenico_parse p masks s = Ok ns.
Proof.
  intros p masks s ns. unfold auto_parse. destruct s as [|c s].
  - split; [discriminate|]. intros [H _]. congruence.
  - destruct (ingenico_parse p masks (c :: s)) as [b|e| |].
    + split; [intros H; inversion H; subst; split; [discriminate|reflexivity]|]. intros [_ H]. inversion H. reflexivity.
    + split; [destruct (ber_parse p masks (parse_hex_str (c :: s))); discriminate|]. intros [_ H]. discriminate.
    + split; [discriminate|]. intros [_ H]. discriminate.
    + split; [discriminate|]. intros [_ H]. discriminate.
Qed.
Theorem C31_auto_ber : forall p masks s ns, 
  auto_parse p masks s = Ok (BerTlv, ns) <->
  s <> [] /\ (exists e, ingenico_parse p masks s = Err e) /\ ber_parse p masks (parse_hex_str s) = Ok ns.
Proof.
  intros p masks s ns. unfold auto_parse. destruct s as [|c s].
  - split; [discriminate|]. intros [H _]. congruence.
  - destruct (ingenico_parse p masks (c :: s)) as [b|e| |].
    + split; [discriminate|]. intros (_ & (e & H) & _). discriminate.
    + destruct (ber_parse p masks (parse_hex_str (c :: s))); split; try discriminate.
      * intros H; inversion H; subst. split; [discriminate|]. eauto.
      * intros (_ & _ & H). inversion H. reflexivity.
      * intros (_ & _ & H). discriminate.
      * intros (_ & _ & H). discriminate.
      * intros (_ & _ & H). discriminate.
    + split; [discriminate|]. intros (_ & (e & H) & _). discriminate.
    + split; [discriminate|]. intros (_ & (e & H) & _). discriminate.
Qed.
Theorem C31_auto_settles : forall p masks s, text64 p s ->
  (exists f ns, auto_parse p masks s = Ok (f, ns)) \/ auto_parse p masks s = Err Unrecognised.
Proof.
  intros p masks s H. unfold auto_parse. destruct s as [|c s]; [auto|].
  destruct (C23_ingenico_settles p masks _ H) as [[ns ->]|[e ->]]; [eauto|].
  destruct (C09_ber_parse_settles p masks _ (hex_input64 p _ H)) as [[ns ->]|[e' ->]]; eauto.
Qed.

Lemma no_colon_not_ingenico p masks s ns : text64 p s -> s <> [] -> ~ In colon s -> ingenico_parse p masks s <> Ok ns.
Proof.
  intros Hi Hne Hc H. apply C24_ingenico_grammar in H; [|assumption]. destruct H as (_ & es & T & _).
  assert (F : forall f e, ing_field masks f e -> In colon f).
  { intros f e []. right. apply in_or_app. right. now left. }
  inversion T; subst; [congruence| |].
  - apply Hc. eapply F. eassumption.
  - apply Hc. apply in_or_app. left. eapply F. eassumption.
Qed.

(* Text without a colon: same block as --ber-tlv. *)
Theorem C31_no_colon_is_ber : forall p masks s, text64 p s -> s <> [] -> ~ In colon s ->
  (forall ns, auto_parse p masks s = Ok (BerTlv, ns) <-> ber_parse p masks (parse_hex_str s) = Ok ns)
  /\ (forall ns, auto_parse p masks s <> Ok (Ingenico, ns)).
Proof.
  intros p masks s Hi Hne Hc. split.
  - intros ns. rewrite C31_auto_ber. split; [tauto|]. intros H. split; [assumption|]. split; [|assumption].
    destruct (C23_ingenico_settles p masks s Hi) as [[ns' E]|E]; [|assumption].
    exfalso. now apply (no_colon_not_ingenico p masks s ns' Hi Hne Hc).
  - intros ns H. apply C31_auto_ingenico in H. destruct H as [_ H]. now apply (no_colon_not_ingenico p masks s ns Hi Hne Hc).
Qed.
(* A hex dump of any BER-TLV data is read as that data. *)
Theorem C31_hex_dump : forall p masks bytes ns, bytes_ok bytes -> text64 p (hex_text bytes) -> bytes <> [] ->
  (auto_parse p masks (hex_text bytes) = Ok (BerTlv, ns) <-> ber_parse p masks bytes = Ok ns).
Proof.
  intros p masks bytes ns Hb Hi Hne.
  destruct (C31_no_colon_is_ber p masks (hex_text bytes) Hi) as [H _].
  - destruct bytes; [congruence|discriminate].
  - now apply hex_no_colon, all_hex_iff, all_hex_forall, hex_text_digits.
  - rewrite H, parse_hex_str_spec, filter_all by now apply hex_text_digits. now rewrite bytes_of_hex_text.
Qed.

Example C31_example : text64 p64 (hex_text sample) /\ sample <> [] /\ bytes_ok sample
  /\ exists ns, auto_parse p64 [] (hex_text sample) = Ok (BerTlv, ns).
Proof.
  split; [split; [reflexivity|vm_compute; reflexivity]|]. split; [discriminate|]. split; [bytes_lit|].
  eexists. vm_compute. reflexivity.
Qed.

(** C32: text without data. *)
Theorem C32_auto_empty_rejected : forall p masks, auto_parse p masks [] = Err Unrecognised.
Proof. reflexivity. Qed.
Theorem C32_auto_accepts_no_data : forall p masks s, text64 p s -> s <> [] ->
  (List.length (filter is_hex_digitb s) < 2)%nat -> auto_parse p masks s = Ok (BerTlv, []).
Proof.
  intros p masks s Hi Hne Hf. apply C31_auto_ber. split; [assumption|].
  assert (Eh : parse_hex_str s = []).
  { rewrite parse_hex_str_spec. destruct (filter is_hex_digitb s) as [|a [|b l]]; [reflexivity|reflexivity|cbn in Hf; lia]. }
  rewrite Eh. split; [|reflexivity].
  destruct (C23_ingenico_settles p masks s Hi) as [[ns E]|E]; [|assumption]. exfalso.
  apply C24_ingenico_grammar in E; [|assumption]. destruct E as (_ & es & T & _).
  assert (F : forall f e, ing_field masks f e -> (2 <= List.length (filter is_hex_digitb f))%nat).
  { intros f e [ty td tag ld n fmt txt d (Htd & k & Ek & Hn & _) _ _].
    assert (L : (2 <= List.length td)%nat).
    { destruct td as [|a [|b l]]; cbn in Ek |- *; try lia; symmetry in Ek; apply app_eq_nil in Ek; tauto. }
    change (ty :: td ++ colon :: ld ++ colon :: fmt :: txt) with ([ty] ++ (td ++ (colon :: ld ++ colon :: fmt :: txt))).
    rewrite !filter_app, !app_length, (filter_all _ td); [lia|]. now apply all_hex_forall, all_hex_iff. }
  inversion T; subst; [congruence| |].
  - specialize (F _ _ H). lia.
  - specialize (F _ _ H). rewrite filter_app, app_length in Hf. lia.
Qed.
(* Success does not mean that data was found. *)
Theorem C32_success_has_data_refuted : exists s, s <> [] /\ auto_parse p64 [42] s = Ok (BerTlv, []).
Proof. exists (lit "hi, moon!"). split; [discriminate|reflexivity]. Qed.

Example C32_example : (List.length (filter is_hex_digitb (lit "xyz a!")) < 2)%nat /\ text64 p64 (lit "xyz a!").
Proof. split; [cbn; lia|split; [reflexivity|vm_compute; reflexivity]]. Qed.
