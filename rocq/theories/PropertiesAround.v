(** The properties of what stands around Ingenico fields. *)

From Coq Require Import ZArith NArith String List Bool Lia ZifyN ZifyBool ZifyNat Permutation Sorting.
From Verif Require Import Base ModelUtil ModelEnums ModelBitflag ModelSchemas ModelTags ModelTlv ModelValues ModelProcess ModelDisplay
  SpecUtil SpecCodes SpecValues SpecTlv SpecIngenico SpecTags SpecProcess SpecDisplay
  ProofsUtil ProofsGrammar ProofsBer ProofsIngenico ProofsValues PropertiesValues
  PropertiesBer PropertiesIngenico ProofsProcess PropertiesProcess ProofsDisplay ProofsDiagram ProofsScreens ProofsLayout PropertiesDisplay
  SpecPictures ProofsPictures ModelMain SpecMain ProofsMain PropertiesMain ModelCli SpecCli ProofsCli PropertiesCli PropertiesPictures
  SpecReading PropertiesReading ModelTerminal SpecTerminal ProofsTerminal PropertiesTerminal SpecTells ProofsTells PropertiesTells
  SpecSame PropertiesSame SpecMasking PropertiesMasking SpecJoin PropertiesJoin PropertiesCut SpecBreaks PropertiesBreaks SpecAround.
Import ListNotations.
Local Open Scope N_scope.

Lemma few_stop masks x : few_colons x -> inext masks x = Err NonCompliant.
Proof.
  intros F. unfold inext. destruct x as [|ty r0]; [reflexivity|]. destruct (split_colon r0) as [[td r1]|] eqn:E; [|reflexivity]. apply split_colon_app in E.
  destruct (negb (all_hex td)); [reflexivity|]. cbv zeta. destruct (trim_leading_0_bytes (bytes_of_digits td)) as [|a b]; [reflexivity|].
  destruct (split_colon r1) as [[ld r2]|] eqn:E2; [|reflexivity]. apply split_colon_app in E2. exfalso. subst r1 r0. exact (F (ty :: td) ld r2 eq_refl).
Qed.
Lemma front_stop masks x rest : x <> [] -> ~ In colon x -> inext masks (x ++ letter_T :: rest) = Err NonCompliant.
Proof.
  intros Ne C. destruct x as [|ty x]; [contradiction|]. cbn [app inext]. destruct (split_colon (x ++ letter_T :: rest)) as [[td r1]|] eqn:E; [|reflexivity]. apply split_colon_app in E.
  assert (X : exists u, td = x ++ letter_T :: u).
  { clear Ne. assert (C' : ~ In colon x) by (intros K; apply C; now right). clear C. revert td E. induction x as [|c x IH]; intros td E; cbn [app] in E.
    - destruct td as [|d td]; cbn [app] in E; [discriminate E|]. injection E as <- _. now exists td.
    - destruct td as [|d td]; cbn [app] in E; [injection E as -> _; exfalso; apply C'; now left|]. injection E as <- E. destruct (IH (fun K => C' (or_intror K)) td E) as (u & ->). now exists u. }
  destruct X as (u & ->). assert (Z : all_hex (x ++ letter_T :: u) = false) by (unfold all_hex; rewrite forallb_app; cbn [forallb]; change (is_hex_digitb letter_T) with false; apply andb_false_r). now rewrite Z.
Qed.
Lemma stopped p masks a es b : text64 p (a ++ b) -> ascii_text (a ++ b) -> ing_prefix masks a es -> b <> [] -> inext masks b = Err NonCompliant -> turned_away masks (a ++ b).
Proof.
  intros T A P Ne E. assert (X : ingenico_parse p masks (a ++ b) = Err NonCompliant); [|split; [now apply (ingenico_noncompliant p)|intros ns K; apply (ingenico_block_iff p) in K; [congruence|assumption]]]. rewrite text64_eq by assumption. apply (after_prefix masks a es); [assumption|assumption|]. apply stops; [now apply ascii_app in A|assumption|assumption].
Qed.

(** C118: what stands around Ingenico fields. *)
(* Anything without a colon in front of a field. *)
Theorem C118_front : forall p masks a es x rest, text64 p (a ++ x ++ letter_T :: rest) -> ascii_text (a ++ x ++ letter_T :: rest) -> ing_prefix masks a es ->
  x <> [] -> ~ In colon x -> turned_away masks (a ++ x ++ letter_T :: rest).
Proof. intros p masks a es x rest T A P Ne C. apply (stopped p masks a es); [assumption|assumption|assumption|destruct x; discriminate|now apply front_stop]. Qed.
(* Anything with at most one colon behind the separator of the last field. *)
Theorem C118_behind : forall p masks a es x, text64 p (a ++ x) -> ascii_text (a ++ x) -> ing_prefix masks a es -> x <> [] -> few_colons x ->
  turned_away masks (a ++ x).
Proof. intros p masks a es x T A P Ne F. apply (stopped p masks a es); [assumption|assumption|assumption|assumption|now apply few_stop]. Qed.
(* One character behind the last field is taken for its separator: a closing quotation mark is not noticed. *)
Theorem C118_closing : forall masks sort a es f e c ls, ing_prefix masks a es -> ing_field masks f e -> c < 128 ->
  (sheet masks sort OpIngenico (a ++ f ++ [c]) ls <-> sheet masks sort OpIngenico (a ++ f) ls).
Proof.
  intros masks sort a es f e c ls P F C.
  assert (X : forall ns, ingenico_block masks (a ++ f ++ [c]) ns <-> ingenico_block masks (a ++ f) ns).
  { assert (G : ing_text masks (a ++ f ++ [c]) (es ++ [e]) /\ ing_text masks (a ++ f) (es ++ [e])).
    { induction P as [|f0 e0 sep rest es0 F0 P [I1 I2]]; cbn [app].
      - split; [apply (ing_text_more masks f e c [] []); [assumption|constructor]|now constructor].
      - rewrite <- !app_assoc. cbn [app]. split; now apply ing_text_more. }
    destruct G as [G1 G2]. intros ns. unfold ingenico_block. split; intros (A & es' & E & N).
    - split; [rewrite app_assoc in A; now apply ascii_app in A|]. exists es'. split; [|assumption]. now rewrite (C24_ingenico_grammar_unambiguous _ _ _ _ E G1).
    - split; [rewrite app_assoc; apply ascii_app; split; [assumption|constructor; [assumption|constructor]]|]. exists es'. split; [|assumption]. now rewrite (C24_ingenico_grammar_unambiguous _ _ _ _ E G2). }
  assert (Y : forall s s', (forall ns, ingenico_block masks s ns <-> ingenico_block masks s' ns) -> sheet masks sort OpIngenico s ls -> sheet masks sort OpIngenico s' ls).
  { intros s s' H S. inversion S as [g q I E|n O D N|g ns m B N A]; subst.
    - exfalso. unfold byte_operations in I. cbn [In] in I. repeat (destruct I as [I|I]; [discriminate I|]). destruct I.
    - discriminate.
    - inversion B; subst. apply (sheet_block masks sort OpIngenico s' None ns m); [constructor; now apply H|assumption|assumption]. }
  split; apply Y; [exact X|]. intros ns. symmetry. apply X.
Qed.
(* Line ends of two characters. *)
Theorem C118_windows : forall p masks f fs, text64 p (windows_text (f :: fs)) -> hex_field f -> (forall g, In g fs -> exists r, g = letter_T :: r) -> ascii_text (windows_text (f :: fs)) ->
  turned_away masks (windows_text (f :: fs)).
Proof.
  intros p masks f fs T F H A. destruct (hex_field_field masks f F) as (e & Fe).
  assert (E : windows_text (f :: fs) = (f ++ [13]) ++ 10 :: windows_text fs) by (unfold windows_text; cbn [flat_map]; rewrite <- !app_assoc; reflexivity).
  assert (P : ing_prefix masks (f ++ [13]) [e]) by (apply (ing_prefix_cons masks f e 13 [] []); [assumption|constructor]).
  rewrite E in *. destruct fs as [|g fs].
  - apply (C118_behind p masks (f ++ [13]) [e] [10]); [exact T|exact A|exact P|discriminate|]. intros u v w K. apply (f_equal (@List.length N)) in K. rewrite app_length in K. cbn [List.length] in K. rewrite app_length in K. cbn [List.length] in K. lia.
  - destruct (H g (or_introl eq_refl)) as (r & ->).
    change (10 :: windows_text ((letter_T :: r) :: fs)) with ([10] ++ letter_T :: ((r ++ [13; 10]) ++ windows_text fs)) in *.
    apply (C118_front p masks (f ++ [13]) [e] [10]); [exact T|exact A|exact P|discriminate|]. intros [K|[]]; discriminate K.
Qed.
(* Characters beyond ASCII anywhere: byte order marks, typographic quotation marks, fixed spaces. *)
Theorem C118_foreign : forall masks s, ~ ascii_text s -> turned_away masks s.
Proof.
  intros masks s A. split; [|intros ns [K _]; contradiction]. apply refused_ingenico; [intros ns [K _]; contradiction|intros [K _]; contradiction].
Qed.

(** ** Automatic detection *)

Lemma dressed_bytes s s' : dressed s s' -> hex_bytes s' = hex_bytes s.
Proof. unfold dressed, hex_bytes. now intros ->. Qed.
(* It then reads the digits, whatever else is there. *)
Theorem C118_digits : forall masks sort s s' ls, dressed s s' -> s' <> [] -> turned_away masks s' -> sheet masks sort OpBer s ls ->
  sheet masks sort OpAuto s' (format_lines (Some BerTlv) ++ ls).
Proof.
  intros masks sort s s' ls D Ne R H. apply C76_shown. split; [assumption|]. exists ls. right. split; [apply R|]. split; [|reflexivity].
  inversion H as [g q I E|n O Dn N|g ns m B N A]; subst.
  - exfalso. unfold byte_operations in I. cbn [In] in I. repeat (destruct I as [I|I]; [discriminate I|]). destruct I.
  - discriminate.
  - inversion B as [? ? Bb| | |]; subst. apply (sheet_block masks sort OpBer s' None ns m); [constructor|assumption|assumption]. destruct Bb as (objs & O & Tr). exists objs. now rewrite (dressed_bytes s s' D).
Qed.
(* Fields in hex with short values lose nothing by that. *)
Theorem C118_same : forall p sort os s' ls, short_objects os -> text64 p (std_text os) -> dressed (std_text os) s' -> s' <> [] -> turned_away [] s' ->
  sheet [] sort OpIngenico (std_text os) ls -> sheet [] sort OpAuto s' (format_lines (Some BerTlv) ++ ls).
Proof.
  intros p sort os s' ls S T D Ne R H. apply (C118_digits [] sort (std_text os)); [assumption|assumption|assumption|].
  assert (Sp : forall o, In o os -> short_pair o) by (intros o I; destruct (S o I) as (A & B & C & L); split; [split; [assumption|split; [assumption|split; [assumption|lia]]]|assumption]).
  assert (Hp : forall o, In o os -> pair_ok o) by (intros o I; now apply Sp).
  pose proof (std_digits os Sp) as Hb.
  assert (Hi : input64 p (flat_map (fun o => std_object (fst o) (snd o)) os)) by (rewrite <- Hb, hex_bytes_eq; now apply hex_input64).
  destruct (C30_formats_agree p os Hp Hi T) as (ns & K1 & K2 & _). rewrite <- Hb, hex_bytes_eq in K1. apply (ber_block_iff p) in K1; [|assumption]. apply (ingenico_block_iff p) in K2; [|assumption].
  inversion H as [g q I E|n O Dn N|g ns' m B N A]; subst.
  - exfalso. unfold byte_operations in I. cbn [In] in I. repeat (destruct I as [I|I]; [discriminate I|]). destruct I.
  - discriminate.
  - assert (E : ns' = ns) by (destruct (tlv_block_det p [] OpIngenico (std_text os) g ns' None ns T B (block_ingenico [] _ ns K2)); assumption). subst ns'. inversion B; subst. apply (sheet_block [] sort OpBer (std_text os) None ns m); [now constructor|assumption|assumption].
Qed.
(* Hex digits among the words in front are read as well. *)
Theorem C118_words_refuted : exists x s ls ls', refused [] OpIngenico (x ++ s) NonCompliant /\ sheet [] false OpIngenico s ls /\ sheet [] false OpAuto (x ++ s) (format_lines (Some BerTlv) ++ ls')
  /\ Forall (fun c => c < 128 /\ c <> colon) x /\ ~ In (nth 0 ls SpecDisplay.blank) ls' .
Proof.
  set (x := lit "DF "). set (s := lit "T50:01:h07"). assert (T : text64 p64 (x ++ s)) by (split; vm_compute; reflexivity). assert (T' : text64 p64 s) by (split; vm_compute; reflexivity).
  set (n := RawNode (mkRawTag [0x50] TagClass_Application Primitive (Normal [7])) []).
  set (n' := RawNode (mkRawTag [0xDF; 0x50] TagClass_Private Primitive (Normal [7])) []).
  exists x, s, (forest_lines [n] 0 true), (forest_lines [n'] 0 true).
  assert (R : refused [] OpIngenico (x ++ s) NonCompliant) by (apply (proj1 (proj2 (tlv_settles p64 [] OpIngenico (x ++ s) _ T eq_refl))); vm_compute; reflexivity).
  split; [exact R|]. split; [apply (sheet_block [] false OpIngenico s None [n]); [|repeat constructor; now apply no_failure|reflexivity]; apply (tlv_settles p64 [] OpIngenico s _ T' eq_refl); vm_compute; reflexivity|].
  split.
  - apply (sheet_block [] false OpAuto (x ++ s) (Some BerTlv) [n']); [|repeat constructor; now apply no_failure|reflexivity].
    apply (tlv_settles p64 [] OpAuto (x ++ s) _ T eq_refl). vm_compute. reflexivity.
  - split; [repeat constructor; try lia; discriminate|]. intros K. vm_compute in K. repeat (destruct K as [K|K]; [discriminate K|]). exact K.
Qed.
(* What the program does with such text. *)
Theorem C118_program : forall p e m st e' m' st' os s' ls, load_settings e m = Ok st -> SpecMain.chosen m OpIngenico (std_text os) -> text64 p (std_text os) ->
  load_settings e' m' = Ok st' -> SpecMain.chosen m' OpAuto s' -> text64 p s' -> set_masking st = [] -> set_masking st' = [] -> set_sort st' = set_sort st ->
  short_objects os -> dressed (std_text os) s' -> s' <> [] -> turned_away [] s' -> sheet [] (set_sort st) OpIngenico (std_text os) ls -> fits p (deepest ls) ->
  displays (run_main p e m) ls /\ displays (run_main p e' m') (format_lines (Some BerTlv) ++ ls).
Proof.
  intros p e m st e' m' st' os s' ls L C T L' C' T' M M' S So D Ne R H F. split.
  - apply (C73_shown p e m st OpIngenico _ ls L C T); [now rewrite M|assumption].
  - apply (C73_shown p e' m' st' OpAuto _ _ L' C' T'); [rewrite M', S; now apply (C118_same p (set_sort st) os)|]. intros V. specialize (F V).
    unfold deepest in *. rewrite map_app, fold_right_app. cbn [format_lines map l_tabs row SpecDisplay.blank fold_right]. rewrite !N.max_0_l. exact F.
Qed.
Example C118_example : exists es e, ing_prefix [42] (lit "T9F02:01:h07" ++ [10]) es /\ ing_field [42] (lit "T9F02:01:h07") e /\ hex_field (lit "T9F02:01:h07")
  /\ few_colons (lit "end: ok") /\ ascii_text (windows_text [lit "T9F02:01:h07"; lit "T9F02:01:h07"]) /\ ~ ascii_text (0xFEFF :: lit "T9F02:01:h07")
  /\ short_objects [([0x9F; 2], [7])] /\ std_text [([0x9F; 2], [7])] = lit "T9F02:01:h07" ++ [10]
  /\ dressed (std_text [([0x9F; 2], [7])]) (lit "T9F02:01:h07" ++ [13; 10]) /\ turned_away [] (lit "T9F02:01:h07" ++ [13; 10])
  /\ exists ls, sheet [] true OpIngenico (std_text [([0x9F; 2], [7])]) ls.
Proof.
  assert (P : pair_ok ([0x9F; 2], [7])) by (split; [cbn; bytes_lit|]; split; [apply (ber_tag_long 0x9F [] 2); [reflexivity|constructor|lia]|split; [cbn; bytes_lit|vm_compute; reflexivity]]).
  assert (F : hex_field (lit "T9F02:01:h07")) by exact (std_hex_field [0x9F; 2] [7] P).
  destruct (hex_field_field [42] _ F) as (e & Fe). exists [e], e. split; [apply (ing_prefix_cons [42] _ e 10 [] []); [assumption|constructor]|]. split; [assumption|]. split; [assumption|].
  split; [intros u v w K; apply (f_equal (fun x => List.length (filter (N.eqb colon) x))) in K; rewrite filter_app, app_length in K; change (colon :: v ++ colon :: w) with ([colon] ++ v ++ [colon] ++ w) in K; rewrite !filter_app, !app_length in K; change (List.length (filter (N.eqb colon) [colon])) with 1%nat in K; change (List.length (filter (N.eqb colon) (lit "end: ok"))) with 1%nat in K; lia|].
  split; [apply Forall_forall; intros c H; cbn in H; repeat (destruct H as [<-|H]; [lia|]); destruct H|].
  split; [intros K; inversion K; subst; lia|]. split; [intros o [<-|[]]; destruct P as (A & B & C & _); repeat (split; [assumption|]); reflexivity|]. split; [reflexivity|]. split; [reflexivity|].
  split; [apply (C118_windows p64 [] (lit "T9F02:01:h07") []); [split; vm_compute; reflexivity|assumption|intros g []|]; apply Forall_forall; intros c H; cbn in H; repeat (destruct H as [<-|H]; [lia|]); destruct H|].
  set (n := RawNode (mkRawTag [0x9F; 2] TagClass_ContextSpecific Primitive (Normal [7])) []). assert (T : text64 p64 (std_text [([0x9F; 2], [7])])) by (split; vm_compute; reflexivity).
  exists (forest_lines [n] 0 true). apply (sheet_block [] true OpIngenico _ None [n] [n]); [|repeat constructor; now apply no_failure|].
  - apply (tlv_settles p64 [] OpIngenico (std_text [([0x9F; 2], [7])]) _ T eq_refl). vm_compute. reflexivity.
  - apply (in_order_intro _ [n]); [reflexivity|repeat constructor|reflexivity|]. repeat constructor. apply (in_order_intro _ []); constructor.
Qed.
