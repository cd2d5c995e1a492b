(** The properties of refusals: what they give away. *)

From Coq Require Import ZArith NArith String List Bool Lia ZifyN ZifyBool ZifyNat Permutation Sorting.
From Verif Require Import Base ModelUtil ModelEnums ModelBitflag ModelSchemas ModelTags ModelTlv ModelValues ModelProcess ModelDisplay
  SpecUtil SpecCodes SpecValues SpecTlv SpecIngenico SpecTags SpecProcess SpecDisplay
  ProofsUtil ProofsGrammar ProofsBer ProofsIngenico ProofsValues PropertiesValues
  PropertiesBer PropertiesIngenico ProofsProcess PropertiesProcess ProofsDisplay ProofsDiagram ProofsScreens ProofsLayout PropertiesDisplay
  SpecPictures ProofsPictures ModelMain SpecMain ProofsMain PropertiesMain ModelCli SpecCli ProofsCli PropertiesCli PropertiesPictures
  SpecReading PropertiesReading ModelTerminal SpecTerminal ProofsTerminal PropertiesTerminal SpecTells ProofsTells PropertiesTells SpecCost ProofsCost PropertiesCost
  PropertiesSize SpecJoin PropertiesJoin SpecMasking PropertiesMasking SpecHidden PropertiesHidden SpecQuiet.
Import ListNotations.
Local Open Scope N_scope.

(** ** Sizes of values *)

Lemma ber_sizes masks : forall bytes objs ns, ber_objects bytes objs [] -> ber_trees masks objs ns ->
  forall t d, In t (flat_map preorder ns) -> rt_data t = Normal d -> len d <= len bytes.
Proof.
  induction bytes as [bytes IH] using length_ind. intros objs ns O T t d I D. inversion O as [|b t1 v mid objs' r Ob Os]; subst.
  { inversion T; subst. destruct I. }
  inversion T as [|o n os ns' Tn Ts]; subst. inversion Ob as [t' l v' rest Bt Bl _]; subst.
  assert (Lt : 1 <= len t1) by (destruct Bt; rewrite len_cons; lia). rewrite !len_app.
  assert (Lm : (List.length mid < List.length (t1 ++ l ++ v ++ mid))%nat) by (unfold len in *; rewrite !app_length; lia).
  assert (Lv : (List.length v < List.length (t1 ++ l ++ v ++ mid))%nat) by (unfold len in *; rewrite !app_length; lia).
  cbn [flat_map] in I. apply in_app_or in I. destruct I as [I|I]; [|pose proof (IH mid Lm objs' ns' Os Ts t d I D); lia].
  inversion Tn as [t2 v2 d2 R _|t2 v2 objs2 ch _ _ O2 T2]; subst; cbn [preorder flat_map] in I; destruct I as [I|I].
  - subst t. cbn [rt_data] in D. subst d2. destruct R as [[_ R]|[_ R]]; [discriminate|]. injection R as ->. lia.
  - destruct I.
  - subst t. cbn [rt_data] in D. injection D as ->. lia.
  - pose proof (IH v Lv objs2 ch O2 T2 t d I D). lia.
Qed.
Lemma ing_sizes masks : forall s es, ing_text masks s es -> forall ns, ing_nodes masks es ns ->
  forall t d, In t (flat_map preorder ns) -> rt_data t = Normal d -> len d <= len s.
Proof.
  assert (Field : forall f e n, ing_field masks f e -> ing_node masks (ie_tag e) (ie_data e) n -> forall t d, In t (preorder n) -> rt_data t = Normal d -> len d <= len f).
  { intros f e n F H t d I D. destruct F as [ty td tag ld k fmt txt dd _ _ Dd]. cbn [ie_tag ie_data] in H. rewrite len_cons, !len_app, !len_cons, !len_app, !len_cons.
    assert (Ld : match dd with Normal d0 => len d0 | Masked => 0 end <= len txt).
    { destruct Dd as [txt dd _ [[_ ->]|[_ ->]]|txt _ _|txt _ _ _]; try lia. unfold len. rewrite bytes_of_digits_length. pose proof (Nat.div2_decr (List.length txt) (List.length txt)). lia. }
    inversion H as [d' _ |v objs ch _ O T]; subst; cbn [preorder flat_map] in I; destruct I as [I|I].
    - subst t. cbn [rt_data] in D. subst dd. lia.
    - destruct I.
    - subst t. cbn [rt_data] in D. injection D as ->. lia.
    - pose proof (ber_sizes masks v objs ch O T t d I D). lia. }
  induction 1 as [|f e F|f e sep rest es F T IH]; intros ns H t d I D.
  - inversion H; subst. destruct I.
  - inversion H as [|e' es' ns' _ H'|e' es' n ns' _ H1 H']; subst; inversion H'; subst; [destruct I|]. cbn [flat_map] in I. rewrite app_nil_r in I. now apply (Field f e n F H1 t d).
  - rewrite len_app, len_cons. inversion H as [|e' es' ns' _ H'|e' es' n ns' _ H1 H']; subst; [pose proof (IH _ H' t d I D); lia|].
    cbn [flat_map] in I. apply in_app_or in I. destruct I as [I|I]; [pose proof (Field f e n F H1 t d I D); lia|pose proof (IH _ H' t d I D); lia].
Qed.
Lemma value_size masks op s f ns t d : tlv_block masks op s f ns -> In t (flat_map preorder ns) -> rt_data t = Normal d -> len d <= len s.
Proof.
  intros B I D.
  assert (Bb : ber_block masks s ns -> len d <= len s).
  { intros (objs & Ob & T). pose proof (ber_sizes masks _ _ _ Ob T t d I D). pose proof (hex_bytes_len s). lia. }
  assert (Bi : ingenico_block masks s ns -> len d <= len s) by (intros (_ & es & T & Ns); exact (ing_sizes masks s es T ns Ns t d I D)).
  inversion B; auto.
Qed.

(** C99: what a refusal says. *)
Lemma rejected_faults t d e : rejected t d e -> In e (tag_faults t (len d)).
Proof.
  destruct 1 as [t n d I _| | | | | | |]; try (cbn; tauto).
  unfold fixed_lengths in I. cbn [In] in I. repeat (destruct I as [I|I]; [injection I as <- <-; cbn; tauto|]). destruct I.
Qed.
Theorem C99_said : forall masks op s er, refused masks op s er ->
  In er (argument_faults op (len (hex_bytes s)))
  \/ exists f ns t d, tlv_block masks op s f ns /\ In t (flat_map preorder ns) /\ rt_data t = Normal d /\ In er (tag_faults (rt_tag t) (len d)).
Proof.
  intros masks op s er R. destruct R as [s e R|s R|s R|s e R|s e R|s e R|s R|s R|s R|s R R'|s R|s R R'|s R|op s f ns before t after e B P N F]; try (left; cbn; tauto); try (left; apply rejected_faults in R; exact R).
  right. destruct F as (d & D & F). exists f, ns, t, d. split; [assumption|]. split; [rewrite P; apply in_elt|]. split; [assumption|]. now apply rejected_faults.
Qed.
Lemma in_lines k er n : n <= N.of_nat k ->
  In er [ByteCountNotDivisibleIntoComponents; InvalidNumber; NonCompliant; NonCcdCompliant; Unsupported; Unrecognised; ByteCountIncorrect Gt 1 0;
         ByteCountIncorrect Eq 1 n; ByteCountIncorrect Eq 2 n; ByteCountIncorrect Eq 3 n; ByteCountIncorrect Eq 5 n; ByteCountIncorrect Gt 8 n] -> In (stderr_line er) (stderr_lines k).
Proof.
  intros L I. unfold stderr_lines. apply in_or_app. cbn [In] in I.
  destruct I as [<-|[<-|[<-|[<-|[<-|[<-|[<-|I]]]]]]]; [left; apply in_map; cbn; tauto..|right].
  apply in_flat_map. exists (N.to_nat n). split; [apply in_seq; lia|]. rewrite N2Nat.id. apply in_map. cbn [In]. tauto.
Qed.
Lemma tag_faults_in t n er : In er (tag_faults t n) ->
  In er [ByteCountNotDivisibleIntoComponents; InvalidNumber; NonCompliant; NonCcdCompliant; Unsupported; Unrecognised; ByteCountIncorrect Gt 1 0;
         ByteCountIncorrect Eq 1 n; ByteCountIncorrect Eq 2 n; ByteCountIncorrect Eq 3 n; ByteCountIncorrect Eq 5 n; ByteCountIncorrect Gt 8 n].
Proof.
  intros H. unfold tag_faults in H.
  repeat (match type of H with context [match ?x with _ => _ end] => is_var x; destruct x end); cbn [In] in *; tauto.
Qed.
Theorem C99_few : forall k p e m st op s er, load_settings e m = Ok st -> chosen m op s -> text64 p s -> (List.length s <= k)%nat ->
  refused (set_masking st) op s er ->
  o_stdout (run_main p e m) = [] /\ In (o_stderr (run_main p e m)) (stderr_lines k).
Proof.
  intros k p e m st op s er L C T K R. destruct (C65_printed p e m st op s er L C T R) as [-> ->]. split; [reflexivity|]. fold (stderr_line er).
  destruct (C99_said _ _ _ _ R) as [I|(f & ns & t & d & B & I & D & F)].
  - apply (in_lines k er (len (hex_bytes s))).
    + pose proof (hex_bytes_len s). unfold len in *. lia.
    + destruct op; cbn [argument_faults In] in *; tauto.
  - apply (in_lines k er (len d)); [|now apply tag_faults_in with (rt_tag t)]. pose proof (value_size _ _ _ _ _ _ _ B I D). unfold len in *. lia.
Qed.
Theorem C99_how_few : forall k, List.length (stderr_lines k) = (5 * k + 12)%nat.
Proof.
  intros k. unfold stderr_lines. rewrite app_length, map_length. cbn [List.length].
  assert (H : forall (f : nat -> list str) l, (forall x, List.length (f x) = 5%nat) -> List.length (flat_map f l) = (5 * List.length l)%nat).
  { intros f l Hf. induction l as [|x l IH]; cbn [flat_map List.length]; [reflexivity|]. rewrite app_length, Hf, IH. lia. }
  rewrite H by (intros x; rewrite map_length; reflexivity). rewrite seq_length. lia.
Qed.

(** ** Values that are not explained *)

Definition harmless (n : raw_node) : Prop := exists t, n = RawNode t [] /\ ~ In (rt_tag t) interpreted_tags.
Lemma rejected_interpreted t d e : rejected t d e -> In t interpreted_tags.
Proof.
  destruct 1 as [t n d I _| | | | | | |]; try (cbn; tauto).
  unfold fixed_lengths in I. cbn [In] in I. repeat (destruct I as [I|I]; [injection I as <- <-; cbn; tauto|]). destruct I.
Qed.
Lemma harmless_fine t e : ~ In (rt_tag t) interpreted_tags -> ~ tag_fails t e.
Proof. intros N (d & _ & R). now apply rejected_interpreted in R. Qed.
Lemma failing_swap na n n' ns e : harmless n -> harmless n' -> first_failing (na ++ n :: ns) e -> first_failing (na ++ n' :: ns) e.
Proof.
  intros (t & -> & H) (t' & -> & H') (before & x & after & E & F & X). unfold first_failing.
  rewrite flat_map_app in *. cbn [flat_map preorder app] in *. revert E. set (A := flat_map preorder na). set (B := flat_map preorder ns). intros E.
  destruct (app_eq_app _ _ _ _ E) as (l & [[E1 E2]|[E1 E2]]).
  - destruct l as [|y l]; cbn [app] in E2; injection E2 as -> E2; [now apply harmless_fine in X|].
    exists before, y, (l ++ t' :: B). rewrite E1, <- app_assoc. auto.
  - destruct l as [|y l]; cbn [app] in E2; injection E2 as <- E2; [now apply harmless_fine in X|].
    exists (A ++ t' :: l), x, after. rewrite E2, <- app_assoc. split; [reflexivity|]. split; [|assumption].
    intros z e' I. apply in_app_or in I. destruct I as [I|[<-|I]]; [|now apply harmless_fine|]; apply F; rewrite E1; apply in_or_app; [now left|right; now right].
Qed.

(* What reading a text with such an object comes to: what reading the rest comes to, with the object's node in front. *)
Definition added (ty : N) (n : raw_node) (op : operation) (ns : list raw_node) : list raw_node :=
  match op with OpIngenico => if ty =? letter_T then n :: ns else ns | _ => n :: ns end.
Lemma opaque_result p masks op ty t x : opaque masks op ty t x -> forall b, text64 p (x ++ b) ->
  exists n, harmless n /\ exists r, tlv_result p masks op (x ++ b) = Some (rmap (fun fn => (fst fn, added ty n op (snd fn))) r)
    /\ forall x', opaque masks op ty t x' -> text64 p (x' ++ b) ->
       exists n', harmless n' /\ tlv_result p masks op (x' ++ b) = Some (rmap (fun fn => (fst fn, added ty n' op (snd fn))) r).
Proof.
  assert (Ber : forall y l v b, Nat.even (List.length (filter is_hex_digitb y)) = true -> hex_bytes y = t ++ l ++ v -> ber_tag t -> ber_len l (len v) -> v <> [] ->
    type_of (first_byte t) = Primitive -> ~ In t interpreted_tags -> text64 p (y ++ b) ->
    exists n r, harmless n /\ tlv_result p masks OpBer b = Some r /\ tlv_result p masks OpBer (y ++ b) = Some (rmap (fun fn => (fst fn, n :: snd fn)) r)).
  { intros y l v b Ev Ey Ht Hl Hv Pr Ni T.
    pose proof (proj2 (reported_iff masks v (from_u8_check_for_masked v masks)) eq_refl) as R. revert R. generalize (from_u8_check_for_masked v masks). intros d R.
    set (n := RawNode (mkRawTag t (class_of (first_byte t)) (type_of (first_byte t)) d) []).
    assert (P : part masks OpBer y [n]).
    { apply part_ber; [assumption|]. exists [(t, v)]. split.
      - rewrite Ey. rewrite <- (app_nil_r v) at 1. eapply ber_objects_cons; [|apply ber_objects_nil]. apply ber_object_intro; [assumption..|].
        intros _. now rewrite app_nil_r.
      - constructor; [|constructor]. apply ber_tree_leaf; auto. }
    destruct (part_result p masks OpBer y [n] b T P) as (r1 & r2 & E1 & E2 & ->). exists n, r2. split; [now exists (mkRawTag t (class_of (first_byte t)) (type_of (first_byte t)) d)|]. split; [assumption|exact E1]. }
  assert (Ing : forall y d b, ascii_text y -> ing_field masks y (mkEntry ty t d) -> type_of (first_byte t) = Primitive -> ~ In t interpreted_tags -> text64 p (y ++ b) ->
    exists n, harmless n /\ tlv_result p masks OpIngenico (y ++ b) = Some (rmap (fun fn => (fst fn, added ty n OpIngenico (snd fn))) (if is_ascii b then rmap (pair None) (parse_text masks (tl b)) else Err NonCompliant))).
  { intros y d b Ay F Pr Ni T. exists (RawNode (mkRawTag t (class_of (first_byte t)) Primitive d) []). split; [now eexists|].
    cbn [tlv_result]. rewrite (ingenico_parse_eq p masks) by (apply text64_roomy; assumption).
    assert (X : is_ascii (y ++ b) = is_ascii b) by (apply eq_true_iff_eq; rewrite !is_ascii_iff; unfold ascii_text in *; rewrite Forall_app; tauto).
    rewrite X. destruct (is_ascii b) eqn:B; [|reflexivity]. rewrite (parse_text_field masks y _ b (proj1 (is_ascii_iff _) X) F).
    cbn [ie_type added]. unfold ing_child. cbn [ie_tag ie_data]. rewrite Pr. cbn [get_child_block bind]. destruct (ty =? letter_T); destruct (parse_text masks (tl b)); reflexivity. }
  intros H b T. inversion H as [y ty' t' l v Ev Ex Ht Hl Hv Pr Ni|y ty' t' d Ax F Pr Ni]; subst.
  - destruct (Ber x l v b Ev Ex Ht Hl Hv Pr Ni T) as (n & r & Hn & Er & E). exists n. split; [assumption|]. exists r. split; [exact E|].
    intros x' H' T'. inversion H' as [y' ty' t' l' v' Ev' Ex' Ht' Hl' Hv' Pr' Ni'|]; subst.
    destruct (Ber x' l' v' b Ev' Ex' Ht' Hl' Hv' Pr' Ni' T') as (n' & r' & Hn' & Er' & E'). exists n'. split; [assumption|]. assert (r' = r) as -> by congruence. exact E'.
  - destruct (Ing x d b Ax F Pr Ni T) as (n & Hn & E). exists n. split; [assumption|]. eexists. split; [exact E|].
    intros x' H' T'. inversion H' as [|y' ty' t' d' Ax' F' Pr' Ni']; subst. now apply (Ing x' d' b).
Qed.
(* A refusal depends neither on the value of such an object nor on its length. *)
Theorem C99_blind : forall p masks op ty t a na x x' b er, part masks op a na -> opaque masks op ty t x -> opaque masks op ty t x' ->
  text64 p (a ++ x ++ b) -> text64 p (a ++ x' ++ b) -> refused masks op (a ++ x ++ b) er -> refused masks op (a ++ x' ++ b) er.
Proof.
  intros p masks op ty t a na x x' b er P H H' T T' R.
  destruct (part_result p _ op a na _ T P) as (r1 & r2 & E1 & E2 & Q1), (part_result p _ op a na _ T' P) as (r3 & r4 & E3 & E4 & Q3).
  destruct (opaque_result p masks op ty t x H b (text64_tail p a _ T)) as (n & Hn & r & Er & K). destruct (K x' H' (text64_tail p a _ T')) as (n' & Hn' & Er').
  rewrite E2 in Er. rewrite E4 in Er'. injection Er as ->. injection Er' as ->. subst r1 r3.
  destruct (tlv_settles p masks op _ _ T E1) as (_ & _ & Z & _). destruct (tlv_settles p masks op _ _ T' E3) as (Z1 & Z2 & _).
  destruct (Z er R) as [Z'|(f & ns & Z' & F)]; destruct r as [[f0 ns0]| | |]; cbn [rmap fst snd] in *; try discriminate.
  - apply Z2. exact Z'.
  - injection Z' as <- <-. specialize (proj1 (Z1 _ _) eq_refl). intros B.
    assert (F' : first_failing (na ++ added ty n' op ns0) er).
    { unfold added in *. destruct op; try (now apply (failing_swap na n n' ns0)). destruct (ty =? letter_T); [|assumption]. now apply (failing_swap na n n' ns0). }
    destruct F' as (before & tg & after & E & Fb & Ft). eapply refused_tag; eassumption.
Qed.
(* What the user then sees is the same line, whatever the value. *)
Theorem C99_blind_stderr : forall p e m m' st op ty t a na x x' b er, load_settings e m = Ok st -> load_settings e m' = Ok st ->
  chosen m op (a ++ x ++ b) -> chosen m' op (a ++ x' ++ b) -> part (set_masking st) op a na ->
  opaque (set_masking st) op ty t x -> opaque (set_masking st) op ty t x' -> text64 p (a ++ x ++ b) -> text64 p (a ++ x' ++ b) ->
  refused (set_masking st) op (a ++ x ++ b) er ->
  o_stdout (run_main p e m) = [] /\ o_stdout (run_main p e m') = [] /\ o_stderr (run_main p e m') = o_stderr (run_main p e m).
Proof.
  intros p e m m' st op ty t a na x x' b er L L' C C' P H H' T T' R. pose proof (C99_blind p _ op ty t a na x x' b er P H H' T T' R) as R'.
  destruct (C65_printed p e m st op _ er L C T R) as [-> ->]. destruct (C65_printed p e m' st op _ er L' C' T' R') as [-> ->]. auto.
Qed.
(* A tag that is explained is different: the text says how many bytes its value has. *)
Theorem C99_explained_refuted : exists t a x x' er, In t interpreted_tags /\ hex_bytes x = std_object t [1; 2; 3] /\ hex_bytes x' = std_object t [1; 2; 3; 4]
  /\ part [42] OpBer a [] /\ refused [42] OpBer (a ++ x) er /\ ~ refused [42] OpBer (a ++ x') er.
Proof.
  exists [0x9B], [], (lit "9B03010203"), (lit "9B0401020304"), (ByteCountIncorrect Eq 2 3).
  assert (T : text64 p64 (lit "9B03010203")) by (split; vm_compute; reflexivity). assert (T' : text64 p64 (lit "9B0401020304")) by (split; vm_compute; reflexivity).
  split; [cbn; tauto|]. split; [vm_compute; reflexivity|]. split; [vm_compute; reflexivity|].
  split; [apply part_ber; [reflexivity|]; exists []; split; constructor|]. cbn [app].
  assert (X : forall s ns d k, text64 p64 s -> tlv_result p64 [42] OpBer s = Some (Ok (None, ns)) -> flat_map preorder ns = [mkRawTag [0x9B] TagClass_ContextSpecific Primitive (Normal d)] ->
    len d = k -> k <> 2 -> forall er, refused [42] OpBer s er <-> er = ByteCountIncorrect Eq 2 k).
  { intros s ns d k Ts E F Dk K er. destruct (tlv_settles p64 [42] OpBer s _ Ts E) as (Z1 & _ & Z & _). split.
    - intros R. destruct (Z er R) as [Z'|(f & ns' & Z' & before & x & after & G & _ & Y)]; [discriminate Z'|]. injection Z' as <- <-. rewrite F in G.
      destruct before as [|? before]; [|destruct before; discriminate G]. cbn [app] in G. injection G as <- <-. destruct Y as (d' & D & Y). cbn [rt_data rt_tag] in *. injection D as <-.
      inversion Y as [t n d' I L| | | | | | |]; subst. cbn in I. repeat (destruct I as [I|I]; [first [discriminate I|injection I as <-; reflexivity]|]). destruct I.
    - intros ->. eapply (refused_tag [42] OpBer s None ns []); [now apply Z1|exact F|intros ? ? []|]. exists d. split; [reflexivity|]. rewrite <- Dk. apply rejected_length; [cbn; tauto|congruence]. }
  split; [eapply X; [assumption|vm_compute; reflexivity|reflexivity|reflexivity|discriminate|reflexivity]|].
  intros R. enough (K : ByteCountIncorrect Eq 2 3 = ByteCountIncorrect Eq 2 4) by discriminate K. revert R. eapply X; [assumption|vm_compute; reflexivity|reflexivity|reflexivity|discriminate].
Qed.

Example C99_example : argument_faults OpTsi (len (hex_bytes (lit "E8 00 00"))) = [ByteCountIncorrect Eq 2 3]
  /\ refused [42] OpTsi (lit "E8 00 00") (ByteCountIncorrect Eq 2 3)
  /\ tag_faults [0x95] 4 = [ByteCountIncorrect Eq 5 4]
  /\ In (lit "The wrong number of bytes were provided for the value. Perhaps you provided the wrong value? Expected: exactly 2, Found: 3" ++ [10]) (stderr_lines 8)
  /\ opaque [42] OpBer 0 [0x5A] (lit "5A 08 4761739001010010") /\ opaque [42] OpBer 0 [0x5A] (lit "5A 07 01020304050607")
  /\ opaque [42] OpIngenico letter_T [0x5A] (lit "T5A:08:h4761739001010010")
  /\ let err x := o_stderr (run_main p64 plain_env (with_ber (x ++ lit "9504010203"))) in
     err (lit "5A 08 4761739001010010") <> [] /\ err (lit "5A 07 01020304050607") = err (lit "5A 08 4761739001010010").
Proof.
  split; [vm_compute; reflexivity|].
  split. { apply (refused_tsi [42] (lit "E8 00 00") (ByteCountIncorrect Eq 2 3)). apply (rejected_length [0x9B] 2 [0xE8; 0; 0]); [cbn; tauto|discriminate]. }
  split; [reflexivity|]. split; [change (In (stderr_line (ByteCountIncorrect Eq 2 3)) (stderr_lines 8)); apply (in_lines 8 _ 3); [lia|cbn; tauto]|].
  assert (N : ~ In [0x5A] interpreted_tags) by (intros I; cbn in I; repeat (destruct I as [I|I]; [discriminate I|]); destruct I).
  split; [apply (opaque_ber _ _ _ _ [8] [0x47; 0x61; 0x73; 0x90; 1; 1; 0; 0x10]); [reflexivity|vm_compute; reflexivity|now constructor|now constructor|discriminate|reflexivity|assumption]|].
  split; [apply (opaque_ber _ _ _ _ [7] [1; 2; 3; 4; 5; 6; 7]); [reflexivity|vm_compute; reflexivity|now constructor|now constructor|discriminate|reflexivity|assumption]|].
  split. { apply (opaque_field _ _ _ _ (Normal (bytes_of_digits (lit "4761739001010010")))); [repeat constructor| |reflexivity|assumption].
    apply (ing_field_intro [42] letter_T (lit "5A") [0x5A] (lit "08") 8 letter_h (lit "4761739001010010")).
    - split; [now apply hex_digits_all|exists 0%nat; repeat split; discriminate].
    - repeat split; [now apply hex_digits_all|cbn; lia].
    - apply ing_data_hex; [reflexivity| |now apply hex_digits_all]. intros (_ & c & _ & F). inversion F as [|? ? F1 F2]; subst. inversion F2 as [|? ? F3 _]; subst. discriminate F3. }
  cbv zeta. split; vm_compute; [intros K; discriminate K|reflexivity].
Qed.
