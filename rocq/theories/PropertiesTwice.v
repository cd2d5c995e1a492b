(** The properties of arguments put together without a break, and of arguments given twice over. *)

From Coq Require Import ZArith NArith String List Bool Lia ZifyN ZifyBool ZifyNat Permutation Sorting.
From Verif Require Import Base ModelUtil ModelEnums ModelBitflag ModelSchemas ModelTags ModelTlv ModelValues ModelProcess ModelDisplay
  SpecUtil SpecCodes SpecValues SpecTlv SpecIngenico SpecTags SpecProcess SpecDisplay
  ProofsUtil ProofsGrammar ProofsBer ProofsIngenico ProofsValues PropertiesValues
  PropertiesBer PropertiesIngenico ProofsProcess PropertiesProcess ProofsDisplay ProofsDiagram ProofsScreens ProofsLayout PropertiesDisplay
  SpecPictures ProofsPictures ModelMain SpecMain ProofsMain PropertiesMain ModelCli SpecCli ProofsCli PropertiesCli PropertiesPictures
  SpecReading PropertiesReading ModelTerminal SpecTerminal ProofsTerminal PropertiesTerminal SpecTells ProofsTells PropertiesTells
  SpecSame PropertiesSame SpecMasking PropertiesMasking SpecJoin PropertiesJoin PropertiesCut SpecWrap PropertiesWrap PropertiesScope SpecSorted PropertiesSorted
  SpecBehind PropertiesBehind SpecBreaks PropertiesBreaks SpecOptions PropertiesOptions SpecSlips PropertiesSlips SpecFront PropertiesFront SpecTwice.
Import ListNotations.
Local Open Scope N_scope.

(** ** Ingenico data without a separator between them *)

Lemma prefix_more masks a es f e x : ing_prefix masks a es -> ing_field masks f e -> ing_prefix masks (a ++ f ++ [x]) (es ++ [e]).
Proof.
  intros P F. induction P as [|f0 e0 sep rest es F0 P IH]; cbn [app].
  - apply (ing_prefix_cons masks f e x [] []); [assumption|constructor].
  - rewrite <- app_assoc. cbn [app]. now constructor.
Qed.
Lemma text_more masks a es f e : ing_prefix masks a es -> ing_field masks f e -> ing_text masks (a ++ f) (es ++ [e]).
Proof.
  intros P F. induction P as [|f0 e0 sep rest es F0 P IH]; cbn [app].
  - now constructor.
  - rewrite <- app_assoc. cbn [app]. now constructor.
Qed.
Lemma unclosed_part masks a na x : unclosed masks a na -> x < 128 -> part masks OpIngenico (a ++ [x]) na.
Proof.
  intros [front es f e ns A P F Q] L. apply (part_ingenico masks _ (es ++ [e]) ns); [|rewrite <- app_assoc; now apply prefix_more|assumption].
  apply ascii_app. split; [assumption|]. repeat constructor. assumption.
Qed.
Lemma unclosed_block masks a na : unclosed masks a na -> tlv_block masks OpIngenico a None na.
Proof. intros [front es f e ns A P F Q]. constructor. split; [assumption|]. exists (es ++ [e]). split; [now apply text_more|assumption]. Qed.
Lemma shown_block masks op s ls : op = OpIngenico \/ op = OpBer -> sheet masks false op s ls ->
  exists ns, tlv_block masks op s None ns /\ Forall (fun t => forall e, ~ tag_fails t e) (flat_map preorder ns) /\ ls = forest_lines ns 0 true.
Proof.
  intros O H. inversion H as [g q I E|n O' D N|f' ns m B' N A']; subst.
  - exfalso. unfold byte_operations in I. cbn [In] in I. destruct O as [-> | ->]; repeat (destruct I as [I|I]; [discriminate I|]); destruct I.
  - now destruct O.
  - exists ns. destruct O as [-> | ->]; inversion B'; subst; auto.
Qed.
(* The first character of what follows is taken for the separator. *)
Theorem C121_separator : forall p masks a x b na la lb, text64 p (a ++ x :: b) -> x < 128 -> unclosed masks a na ->
  sheet masks false OpIngenico a la -> sheet masks false OpIngenico b lb -> sheet masks false OpIngenico (a ++ x :: b) (below la lb).
Proof.
  intros p masks a x b na la lb T L U Ha Hb. pose proof (unclosed_part masks a na x U L) as P.
  replace (a ++ x :: b) with ((a ++ [x]) ++ b) in T |- * by (rewrite <- app_assoc; reflexivity). apply (C87_joined p masks OpIngenico (a ++ [x]) b na); [assumption|assumption| |assumption].
  destruct (text64_cut p _ _ T) as [Ta _]. pose proof (text64_cut p _ _ Ta) as [Ta' _]. destruct (shown_block masks OpIngenico a la (or_introl eq_refl) Ha) as (ns & B & N & ->).
  destruct (tlv_block_det p _ _ _ _ _ _ _ Ta' B (unclosed_block _ _ _ U)) as [_ ->]. change (forest_lines na 0 true) with (format_lines None ++ forest_lines na 0 true).
  apply sheet_block with na; [|assumption|reflexivity]. now apply (part_alone p).
Qed.
Lemma first_ascii p a x b : text64 p (a ++ x :: b) -> ascii_text (a ++ x :: b) -> x < 128 /\ text64 p (x :: b) /\ text64 p b /\ ascii_text b.
Proof.
  intros T A. destruct (text64_cut p _ _ T) as [_ T']. apply ascii_app in A. destruct A as [_ A]. apply ascii_cons in A. destruct A as [L A].
  repeat split; try apply T; try assumption; destruct T' as [_ T']; try assumption. rewrite len_cons in T'. lia.
Qed.
(* So the first field of what follows loses its letter: it is left out without a word if its tag has three digits or more ... *)
Theorem C121_glued : forall p masks a c f s rest na la lb, text64 p (a ++ s) -> ascii_text (a ++ s) -> unclosed masks a na -> hex_field (c :: f) ->
  followed (c :: f) s rest -> looks_whole f -> sheet masks false OpIngenico a la -> sheet masks false OpIngenico rest lb ->
  sheet masks false OpIngenico (a ++ s) (below la lb).
Proof.
  intros p masks a c f s rest na la lb T A U H W K Ha Hb.
  assert (E : exists b, s = c :: b /\ followed f b rest).
  { inversion W as [E1 E2|sep r D E1 E2]; subst; cbn [app]; eexists; (split; [reflexivity|now constructor]). }
  destruct E as (b & -> & W'). destruct (first_ascii p _ _ _ T A) as (L & T1 & T2 & A2). apply (C121_separator p masks a c b na); [assumption|assumption|assumption|assumption|].
  destruct (C116_fields p masks [c] f b rest T2 A2 H ltac:(discriminate) ltac:(destruct K as (? & ? & ? & -> & _); discriminate) W') as [Y _]. now apply Y.
Qed.
(* ... and refused otherwise. *)
Theorem C121_glued_refused : forall p masks a c f s rest na la, text64 p (a ++ s) -> ascii_text (a ++ s) -> unclosed masks a na -> hex_field (c :: f) ->
  followed (c :: f) s rest -> ~ looks_whole f -> sheet masks false OpIngenico a la -> refused masks OpIngenico (a ++ s) NonCompliant.
Proof.
  intros p masks a c f s rest na la T A U H W K Ha.
  assert (E : exists b, s = c :: b /\ followed f b rest).
  { inversion W as [E1 E2|sep r D E1 E2]; subst; cbn [app]; eexists; (split; [reflexivity|now constructor]). }
  destruct E as (b & -> & W'). destruct (first_ascii p _ _ _ T A) as (L & T1 & T2 & A2). pose proof (unclosed_part masks a na c U L) as P.
  assert (Nf : f <> []) by (inversion H as [ty td tag ld n txt Ht Hl Ln F E]; destruct td; discriminate).
  destruct (C116_fields p masks [c] f b rest T2 A2 H ltac:(discriminate) Nf W') as [_ Y].
  replace (a ++ c :: b) with ((a ++ [c]) ++ b) in T |- * by (rewrite <- app_assoc; reflexivity).
  apply (C87_refused p masks false OpIngenico (a ++ [c]) b na la); [assumption|assumption| |now apply Y].
  destruct (text64_cut p _ _ T) as [Ta _]. pose proof (text64_cut p _ _ Ta) as [Ta' _]. destruct (shown_block masks OpIngenico a la (or_introl eq_refl) Ha) as (ns & B & N & ->).
  destruct (tlv_block_det p _ _ _ _ _ _ _ Ta' B (unclosed_block _ _ _ U)) as [_ ->]. change (forest_lines na 0 true) with (format_lines None ++ forest_lines na 0 true).
  apply sheet_block with na; [|assumption|reflexivity]. now apply (part_alone p).
Qed.

(** ** TLV data given twice over *)

(* Unsorted, the screen stands there twice. *)
Theorem C121_twice : forall p masks op s ns ls, text64 p (s ++ s) -> part masks op s ns -> sheet masks false op s ls -> sheet masks false op (s ++ s) (below ls ls).
Proof. intros p masks op s ns ls T P H. now apply (C87_joined p masks op s s ns). Qed.
Lemma doubled_perm {A} (l : list A) : Permutation (l ++ l) (doubled l).
Proof.
  induction l as [|x l IH]; [constructor|]. cbn [app doubled flat_map]. constructor. etransitivity; [apply Permutation_sym, Permutation_middle|]. now constructor.
Qed.
Lemma doubled_in {A} (l : list A) x : In x (doubled l) <-> In x l.
Proof. unfold doubled. rewrite in_flat_map. split; [intros (y & I & [<-|[<-|[]]]); assumption|intros I; exists x; split; [assumption|now left]]. Qed.
Lemma doubled_sorted l : StronglySorted node_le l -> StronglySorted node_le (doubled l).
Proof.
  induction 1 as [|x l S IH F]; [constructor|]. cbn [doubled flat_map app]. change (flat_map _ l) with (doubled l).
  assert (G : Forall (node_le x) (doubled l)) by (apply Forall_forall; intros y I; apply (proj1 (doubled_in _ _)) in I; rewrite Forall_forall in F; auto).
  constructor; [constructor; assumption|]. constructor; [now right|assumption].
Qed.
Lemma doubled_tagged t l : tagged t (doubled l) = doubled (tagged t l).
Proof.
  induction l as [|x l IH]; [reflexivity|]. cbn [doubled flat_map app tagged filter]. change (flat_map _ l) with (doubled l).
  destruct (same_bytes (node_tag_bytes x) t) eqn:E; cbn [doubled flat_map app]; unfold tagged in IH; rewrite IH; reflexivity.
Qed.
Lemma tagged_one t l : NoDup (map node_tag_bytes l) -> doubled (tagged t l) = tagged t l ++ tagged t l.
Proof.
  intros N. assert (G : (List.length (tagged t l) <= 1)%nat).
  { induction l as [|x l IH]; [cbn; lia|]. cbn [map] in N. inversion N as [|? ? I N']; subst. cbn [tagged filter]. destruct (same_bytes (node_tag_bytes x) t) eqn:E; [|now apply IH].
    apply same_bytes_eq in E. subst t. cbn [List.length]. assert (filter (fun n => same_bytes (node_tag_bytes n) (node_tag_bytes x)) l = []) as ->; [|cbn; lia].
    clear - I. induction l as [|y l IH]; [reflexivity|]. cbn [filter]. destruct (same_bytes (node_tag_bytes y) (node_tag_bytes x)) eqn:E.
    - exfalso. apply I. cbn [map]. left. now apply same_bytes_eq in E.
    - apply IH. intros K. apply I. now right. }
  destruct (tagged t l) as [|x [|y r]]; [reflexivity|reflexivity|cbn [List.length] in G; lia].
Qed.
Lemma doubled_each m l : each_in_order m l -> each_in_order (doubled m) (doubled l).
Proof. induction 1 as [|t c c' m l I E IH]; [constructor|]. cbn [doubled flat_map app]. change (flat_map _ m) with (doubled m). change (flat_map _ l) with (doubled l). now repeat constructor. Qed.
Lemma doubled_order l l' : NoDup (map node_tag_bytes l) -> in_order l l' -> in_order (l ++ l) (doubled l').
Proof.
  intros N H. inversion H as [? m ? P S T E]; subst. apply in_order_intro with (doubled m).
  - etransitivity; [apply Permutation_app; exact P|]. apply doubled_perm.
  - now apply doubled_sorted.
  - intros t. rewrite doubled_tagged, tagged_app, T. now apply tagged_one.
  - now apply doubled_each.
Qed.
(* Sorted, every object of the top level stands there twice in a row, if no tag occurs more than once there. *)
Theorem C121_twice_sorted : forall p masks op s ns ls, text64 p (s ++ s) -> part masks op s ns -> NoDup (map node_tag_bytes ns) -> sheet masks true op s ls ->
  exists ns', in_order ns ns' /\ ls = separated (map (fun n => tree_lines true n 0) ns')
    /\ sheet masks true op (s ++ s) (separated (doubled (map (fun n => tree_lines true n 0) ns'))).
Proof.
  intros p masks op s ns ls T P N H. destruct (text64_cut p _ _ T) as [Ts _]. pose proof (part_alone p _ _ _ _ Ts P) as B.
  assert (G : exists ns', in_order ns ns' /\ Forall (fun t => forall e, ~ tag_fails t e) (flat_map preorder ns) /\ ls = forest_lines ns' 0 true).
  { inversion H as [g q I E|n O D K|f' ns0 m B' K A]; subst.
    - exfalso. unfold byte_operations in I. cbn [In] in I. inversion B; subst; repeat (destruct I as [I|I]; [discriminate|]); destruct I.
    - inversion B.
    - destruct (tlv_block_det p _ _ _ _ _ _ _ Ts B' B) as [-> ->]. exists m. auto. }
  destruct G as (ns' & O & K & ->). exists ns'. split; [assumption|]. split; [reflexivity|].
  replace (separated (doubled (map (fun n => tree_lines true n 0) ns'))) with (format_lines None ++ forest_lines (doubled ns') 0 true).
  - apply sheet_block with (ns ++ ns); [|rewrite flat_map_app; now apply Forall_app|now apply doubled_order]. apply (part_block p _ _ _ _ _ _ _ T P). exists ns. auto.
  - cbn [format_lines app]. unfold forest_lines. f_equal. clear. induction ns' as [|n l IH]; [reflexivity|]. cbn [doubled flat_map app map]. change (flat_map _ l) with (doubled l). now rewrite IH.
Qed.

(** ** Values given twice over *)

Lemma digits_twice s t : digits (s ++ t) = digits s + digits t.
Proof. unfold digits. rewrite filter_app. apply len_app. Qed.
(* Values of a fixed size are refused. *)
Theorem C121_sizes : forall masks sort op n s ls, In (op, n) sizes -> sheet masks sort op s ls -> refused masks op (s ++ s) (wrong_size op n (digits s)).
Proof.
  intros masks sort op n s ls I H. pose proof (PropertiesOptions.sized _ _ _ _ _ _ I H) as E. rewrite digits_bytes in E.
  replace (digits s) with (digits (s ++ s) / 2) by (rewrite digits_twice; replace (digits s + digits s) with (digits s * 2) by lia; apply N.div_mul; discriminate).
  apply (C111_extra masks sort op n s (s ++ s) ls I H). rewrite digits_twice. unfold sizes in I. cbn [In] in I.
  assert (2 <= n) by (repeat (destruct I as [I|I]; [injection I as <- <-; lia|]); destruct I). lia.
Qed.
Lemma rules_app i : forall a b k, Nat.even (List.length a) = true -> rules_picture i k (a ++ b) = rules_picture i k a ++ rules_picture i (k + len a / 2) b.
Proof.
  induction a as [a IH] using length_ind. destruct a as [|x [|y a]]; intros b k E; [cbn [app]; now rewrite N.add_0_r|discriminate|].
  assert (D : k + len (x :: y :: a) / 2 = k + 1 + len a / 2).
  { replace (len (x :: y :: a)) with (len a + 1 * 2) by (rewrite !len_cons; lia). rewrite N.div_add by discriminate. lia. }
  rewrite D. cbn [app rules_picture]. rewrite (IH a); [reflexivity|cbn [List.length]; lia|exact E].
Qed.
(* A list of rules is shown with the same amounts, and with all of its bytes as further rules below its rules. *)
Theorem C121_rules : forall masks sort s ls d, hex_bytes s = d -> Nat.even (List.length (filter is_hex_digitb s)) = true -> sheet masks sort OpCvmList s ls ->
  let x := be_value (firstn 4 d) in let y := be_value (firstn 4 (skipn 4 d)) in let r := skipn 8 d in
  let title := heading_row 0 (lit "Cardholder Verification Rules:") in
  ls = amounts_shown x y r ++ title :: rules_picture 0 1 r
  /\ sheet masks sort OpCvmList (s ++ s) (amounts_shown x y (r ++ d) ++ title :: rules_picture 0 1 r ++ rules_picture 0 (1 + len r / 2) d).
Proof.
  intros masks sort s ls d E V H. assert (G : cvm_list_picture d <> None /\ forall q, cvm_list_picture d = Some q -> ls = q 0 true).
  { inversion H as [g q I X|n O' D N|f' ns m B' N A']; subst; [|discriminate|inversion B'].
    unfold byte_operations in I. cbn [In] in I. repeat (destruct I as [I|I]; [try discriminate I|]); [injection I as <-|destruct I].
    rewrite X. split; [discriminate|]. intros q' [= <-]. reflexivity. }
  destruct G as [G1 G2]. unfold cvm_list_picture in G1, G2. destruct (N.leb_spec 8 (len d)) as [L|L]; [|now destruct G1]. destruct (N.eqb_spec (len d mod 2) 0) as [M|M]; [|now destruct G1].
  cbn [andb] in G2. specialize (G2 _ eq_refl). cbn zeta in G2. cbv zeta. split; [assumption|].
  assert (S4 : firstn 4 (d ++ d) = firstn 4 d) by (unfold len in L; rewrite firstn_app; replace (4 - List.length d)%nat with 0%nat by lia; apply app_nil_r).
  assert (S8 : forall k, (k <= 8)%nat -> skipn k (d ++ d) = skipn k d ++ d) by (intros k Hk; unfold len in L; rewrite skipn_app; now replace (k - List.length d)%nat with 0%nat by lia).
  assert (S5 : firstn 4 (skipn 4 (d ++ d)) = firstn 4 (skipn 4 d)).
  { rewrite S8 by lia. rewrite firstn_app. replace (4 - List.length (skipn 4 d))%nat with 0%nat by (rewrite skipn_length; unfold len in L; lia). apply app_nil_r. }
  assert (Er : Nat.even (List.length (skipn 8 d)) = true).
  { rewrite skipn_length. apply Nat.even_spec. unfold len in L, M. exists (List.length d / 2 - 4)%nat. pose proof (Nat.div_mod (List.length d) 2 ltac:(lia)). lia. }
  assert (X : exists q, cvm_list_picture (hex_bytes (s ++ s)) = Some q /\ q 0 true = amounts_shown (be_value (firstn 4 d)) (be_value (firstn 4 (skipn 4 d))) (skipn 8 d ++ d)
      ++ heading_row 0 (lit "Cardholder Verification Rules:") :: rules_picture 0 1 (skipn 8 d) ++ rules_picture 0 (1 + len (skipn 8 d) / 2) d).
  { rewrite hex_bytes_app, E by assumption. unfold cvm_list_picture. rewrite len_app. replace (8 <=? len d + len d) with true by (symmetry; apply N.leb_le; lia).
    replace ((len d + len d) mod 2 =? 0) with true by (symmetry; apply N.eqb_eq; replace (len d + len d) with (len d * 2) by lia; apply N.mod_mul; discriminate).
    cbn [andb]. eexists. split; [reflexivity|]. cbv zeta beta. rewrite S4, S5, (S8 8%nat) by lia. unfold amounts_shown. now rewrite (rules_app 0 (skipn 8 d) d 1 Er). }
  destruct X as (q & X & <-). apply (sheet_value masks sort OpCvmList (s ++ s) cvm_list_picture q); [|assumption]. unfold byte_operations. cbn [In]. auto 20.
Qed.
(* With a digit too many the two copies of it make one more byte, and the list is refused. *)
Theorem C121_rules_odd : forall masks sort s ls, Nat.even (List.length (filter is_hex_digitb s)) = false -> sheet masks sort OpCvmList s ls ->
  refused masks OpCvmList (s ++ s) ByteCountNotDivisibleIntoComponents.
Proof.
  intros masks sort s ls V H. assert (G : 8 <= len (hex_bytes s) /\ len (hex_bytes s) mod 2 = 0).
  { inversion H as [g q I X|n O' D N|f' ns m B' N A']; subst; [|discriminate|inversion B'].
    unfold byte_operations in I. cbn [In] in I. repeat (destruct I as [I|I]; [try discriminate I|]); [injection I as <-|destruct I].
    unfold cvm_list_picture in X. destruct (N.leb_spec 8 (len (hex_bytes s))); [|discriminate]. destruct (N.eqb_spec (len (hex_bytes s) mod 2) 0); [auto|discriminate]. }
  destruct G as [L M]. rewrite digits_bytes in L, M. constructor. apply rejected_8E_odd; rewrite digits_bytes, digits_twice; replace (digits s + digits s) with (digits s * 2) by lia; rewrite N.div_mul by discriminate.
  - lia.
  - assert (O : Nat.even (N.to_nat (digits s)) = false) by (unfold digits, len; now rewrite Nat2N.id).
    destruct (N.eq_dec (digits s mod 2) 1) as [Y|Y]; [assumption|]. exfalso. pose proof (N.mod_upper_bound (digits s) 2 ltac:(discriminate)).
    assert (Z : Nat.even (N.to_nat (digits s)) = true); [|congruence]. apply Nat.even_spec. exists (N.to_nat (digits s / 2)). pose proof (N.div_mod (digits s) 2 ltac:(discriminate)). lia.
Qed.
Lemma dec_value_app a b : dec_value (a ++ b) = dec_value a * 10 ^ len b + dec_value b.
Proof.
  induction a as [|x a IH]; [reflexivity|]. cbn [app dec_value]. rewrite IH, app_length, Nat2N.inj_add, N.pow_add_r. unfold len. lia.
Qed.
(* A service code of three digits is refused unless it is 000. *)
Theorem C121_code : forall masks s, Forall is_dec_digit s -> len s = 3 -> dec_value s <> 0 -> refused masks OpServiceCode (s ++ s) InvalidNumber.
Proof.
  intros masks s F L N. constructor. intros n Hn. assert (D : denotes_number (s ++ s) (dec_value (s ++ s))).
  { exists [], [], (s ++ s), []. repeat split; auto; try now rewrite app_nil_r. - destruct s; discriminate. - now apply Forall_app. }
  rewrite (denotes_det _ _ _ Hn D), dec_value_app, L. change (10 ^ 3) with 1000. lia.
Qed.

(** ** The program *)

Lemma below_fits p la lb : fits p (deepest la) -> fits p (deepest lb) -> fits p (deepest (below la lb)).
Proof.
  intros Fa Fb O. specialize (Fa O). specialize (Fb O). unfold below. destruct la as [|l1 la]; [assumption|]. destruct lb as [|l2 lb]; [assumption|].
  unfold deepest in *. rewrite map_app, fold_right_app. cbn [map fold_right] in *. change (l_tabs SpecDisplay.blank) with 0. rewrite N.max_0_l. set (z := N.max (l_tabs l2) _) in *.
  assert (G : forall l, fold_right N.max z l = N.max (fold_right N.max 0 l) z) by (induction l as [|h l IH]; cbn [fold_right]; [lia|rewrite IH; lia]).
  rewrite G. lia.
Qed.
(* Two arguments put together with no separator between them: the program shows all of the first and what is behind the first field of the second,
   and ends as if nothing were missing. *)
Theorem C121_program : forall p e m st a c f s rest na la lb, load_settings e m = Ok st -> set_sort st = false -> chosen m OpIngenico (a ++ s) ->
  text64 p (a ++ s) -> ascii_text (a ++ s) -> unclosed (set_masking st) a na -> hex_field (c :: f) -> followed (c :: f) s rest -> looks_whole f ->
  sheet (set_masking st) false OpIngenico a la -> sheet (set_masking st) false OpIngenico rest lb -> fits p (deepest la) -> fits p (deepest lb) ->
  displays (run_main p e m) (below la lb).
Proof.
  intros p e m st a c f s rest na la lb L S C T A U H W K Ha Hb Fa Fb. apply (C73_shown p e m st OpIngenico _ _ L C T); [|now apply below_fits].
  rewrite S. now apply (C121_glued p (set_masking st) a c f s rest na).
Qed.
Theorem C121_program_twice : forall p e m st op s ns ls, load_settings e m = Ok st -> set_sort st = false -> chosen m op (s ++ s) -> text64 p (s ++ s) ->
  part (set_masking st) op s ns -> sheet (set_masking st) false op s ls -> fits p (deepest ls) -> displays (run_main p e m) (below ls ls).
Proof.
  intros p e m st op s ns ls L S C T P H F. apply (C73_shown p e m st op _ _ L C T); [|now apply below_fits]. rewrite S. now apply (C121_twice p _ _ _ ns).
Qed.

(** ** Cases *)

Lemma sheet_some masks op s ns : (ber_parse p64 masks (parse_hex_str s) = Ok ns /\ op = OpBer \/ ingenico_parse p64 masks s = Ok ns /\ op = OpIngenico) -> text64 p64 s ->
  Forall (fun n => match n with RawNode t c => c = [] /\ ~ In (rt_tag t) interpreted_tags end) ns -> sheet masks false op s (forest_lines ns 0 true).
Proof.
  intros E T F. change (forest_lines ns 0 true) with (format_lines None ++ forest_lines ns 0 true). apply sheet_block with ns; [| |reflexivity].
  - destruct E as [[E ->]|[E ->]]; constructor; [now apply (ber_block_iff p64)|now apply (ingenico_block_iff p64)].
  - clear E T. induction F as [|[t c] l [-> N] F IH]; [constructor|]. cbn [flat_map preorder app]. constructor; [|assumption]. destruct t. now apply uninterpreted_kept.
Qed.
Definition one_field : str := lit "T9F02:01:h07".
Definition two_fields : str := lit "T9F03:01:h08,T9F41:01:h09".
Definition field_node (t : list N) (v : N) : raw_node := RawNode (mkRawTag t TagClass_ContextSpecific Primitive (Normal [v])) [].
(* The second of the three fields is gone. *)
Example C121_example : unclosed [42] one_field [field_node [0x9F; 2] 7] /\ hex_field (lit "T9F03:01:h08") /\ followed (lit "T9F03:01:h08") two_fields (lit "T9F41:01:h09")
  /\ looks_whole (lit "9F03:01:h08")
  /\ sheet [42] false OpIngenico (one_field ++ two_fields) (forest_lines [field_node [0x9F; 2] 7; field_node [0x9F; 0x41] 9] 0 true)
  /\ ~ exists ls, sheet [42] false OpIngenico (one_field ++ two_fields) ls /\ ls = forest_lines [field_node [0x9F; 2] 7; field_node [0x9F; 3] 8; field_node [0x9F; 0x41] 9] 0 true.
Proof.
  assert (U : forall t v, ~ In t interpreted_tags -> (fun n => match n with RawNode t c => c = [] /\ ~ In (rt_tag t) interpreted_tags end) (field_node t v)) by (intros t v I; split; [reflexivity|exact I]).
  assert (X : forall s ns, ingenico_parse p64 [42] s = Ok ns -> text64 p64 s -> Forall (fun n => match n with RawNode t c => c = [] /\ ~ In (rt_tag t) interpreted_tags end) ns -> sheet [42] false OpIngenico s (forest_lines ns 0 true)).
  { intros s ns E T F. apply sheet_some; auto. }
  assert (I2 : ~ In [0x9F; 2] interpreted_tags) by (intros I; unfold interpreted_tags in I; cbn [In] in I; repeat (destruct I as [I|I]; [discriminate I|]); destruct I).
  assert (I41 : ~ In [0x9F; 0x41] interpreted_tags) by (intros I; unfold interpreted_tags in I; cbn [In] in I; repeat (destruct I as [I|I]; [discriminate I|]); destruct I).
  assert (Sh : sheet [42] false OpIngenico (one_field ++ two_fields) (forest_lines [field_node [0x9F; 2] 7; field_node [0x9F; 0x41] 9] 0 true)).
  { apply X; [vm_compute; reflexivity|split; vm_compute; reflexivity|]. constructor; [now apply U|]. constructor; [now apply U|constructor]. }
  split; [apply (unclosed_intro [42] [] [] one_field (mkEntry 84 [0x9F; 2] (Normal [7])))|].
  - now apply is_ascii_iff.
  - constructor.
  - apply sample_field1.
  - apply ing_nodes_take; [reflexivity| |constructor]. apply (ing_node_leaf [42] [0x9F; 2] (Normal [7])). left. reflexivity.
  - split; [|split; [|split; [|split; [exact Sh|]]]].
    + apply (hex_field_intro 84 (lit "9F03") [0x9F; 3] (lit "01") 1 (lit "08")); [| |reflexivity|].
      * apply tag_digits_iff; [vm_compute; reflexivity|]. split; [vm_compute; reflexivity|discriminate].
      * split; [apply all_hex_iff; reflexivity|]. split; [cbn; lia|reflexivity].
      * apply all_hex_iff. reflexivity.
    + apply (followed_more (lit "T9F03:01:h08") 44 (lit "T9F41:01:h09")). repeat split; [|discriminate|discriminate]. intros K. apply is_hex_digitb_spec in K. discriminate.
    + exists 57, (lit "F03"), (lit "01:h08"). split; [reflexivity|]. split; [apply all_hex_iff; reflexivity|]. split; [cbn; lia|]. right. right. now left.
    + intros (ls & H & ->). assert (T : text64 p64 (one_field ++ two_fields)) by (split; vm_compute; reflexivity).
      destruct (shown_block _ _ _ _ (or_introl eq_refl) H) as (ns & B & _ & E). destruct (shown_block _ _ _ _ (or_introl eq_refl) Sh) as (ns' & B' & _ & E').
      destruct (tlv_block_det p64 _ _ _ _ _ _ _ T B B') as [_ <-]. rewrite <- E in E'. apply (f_equal (@List.length line)) in E'. vm_compute in E'. discriminate.
Qed.
(* A shorter tag, and a capture that is its own second half. *)
Example C121_refused_example : hex_field (lit "T5A:01:h12") /\ followed (lit "T5A:01:h12") (lit "T5A:01:h12") [] /\ ~ looks_whole (lit "5A:01:h12").
Proof.
  split; [|split; [constructor|]].
  - apply (hex_field_intro 84 (lit "5A") [0x5A] (lit "01") 1 (lit "12")); [| |reflexivity|].
    + apply tag_digits_iff; [vm_compute; reflexivity|]. split; [vm_compute; reflexivity|discriminate].
    + split; [apply all_hex_iff; reflexivity|]. split; [cbn; lia|reflexivity].
    + apply all_hex_iff. reflexivity.
  - intros (c & d & x & E & F & L & I). cbn in E. destruct d as [|d1 [|d2 d]]; cbn [List.length] in L; try lia. injection E as <- <- <- E. inversion F as [|? ? _ F1]. inversion F1 as [|? ? _ F2]. inversion F2 as [|? ? F3 _].
    apply is_hex_digitb_spec in F3. discriminate.
Qed.
(* With an odd number of digits the second copy is shifted by one digit; the program may refuse what it showed before. *)
Theorem C121_odd_refuted : exists s ls, sheet [42] false OpBer s ls /\ ls <> [] /\ refused [42] OpBer (s ++ s) NonCompliant.
Proof.
  exists (lit "5001121"). assert (T : text64 p64 (lit "5001121")) by (split; vm_compute; reflexivity).
  eexists. split; [apply sheet_some; [left; split; [vm_compute; reflexivity|reflexivity]|assumption|]|].
  - constructor; [|constructor]. split; [reflexivity|]. cbn [rt_tag]. intros I. unfold interpreted_tags in I. cbn [In] in I. repeat (destruct I as [I|I]; [discriminate I|]). destruct I.
  - split; [discriminate|]. assert (T' : text64 p64 (lit "5001121" ++ lit "5001121")) by (split; vm_compute; reflexivity).
    constructor; [intros ns B; apply (ber_block_iff p64) in B; [|assumption]; revert B; vm_compute; discriminate|].
    intros B. unfold ber_too_long in B. rewrite hex_bytes_eq in B. apply (C16_ber_unsupported p64 [42] _ (hex_input64 p64 _ T')) in B. revert B. vm_compute. discriminate.
Qed.
Example C121_twice_example : exists ns ls, part [42] OpBer (lit "9F020107 9F410109") ns /\ NoDup (map node_tag_bytes ns) /\ sheet [42] false OpBer (lit "9F020107 9F410109") ls /\ ls <> [].
Proof.
  exists [field_node [0x9F; 2] 7; field_node [0x9F; 0x41] 9]. eexists. split; [constructor; [reflexivity|]; apply (ber_block_iff p64); [split; vm_compute; reflexivity|vm_compute; reflexivity]|].
  split; [apply NoDup_cons; [cbn [map In]; intros [I|[]]; discriminate|]; apply NoDup_cons; [intros []|constructor]|]. split; [apply sheet_some; [left; split; [vm_compute; reflexivity|reflexivity]|split; vm_compute; reflexivity|]|discriminate].
  repeat constructor; cbn [rt_tag]; intros I; unfold interpreted_tags in I; cbn [In] in I; repeat (destruct I as [I|I]; [discriminate I|]); destruct I.
Qed.
Example C121_values_example : (exists ls, sheet [42] true OpTsi (lit "E800") ls) /\ (exists ls, sheet [42] true OpCvmList (lit "0000000A0000000B1F00") ls)
  /\ (exists ls, sheet [42] true OpCvmList (lit "0000000A0000000B1F007") ls) /\ Forall is_dec_digit (lit "201") /\ dec_value (lit "201") <> 0.
Proof.
  assert (In3 : forall k (x : operation * (list N -> option picture)), nth_error byte_operations k = Some x -> In x byte_operations) by (intros k x; apply nth_error_In).
  split; [eexists; apply (sheet_value _ _ _ _ (bits_picture 2 tsi_bits tsi_used)); [now apply (In3 3%nat)|reflexivity]|].
  split; [eexists; apply (sheet_value _ _ _ _ cvm_list_picture); [now apply (In3 5%nat)|reflexivity]|].
  split; [eexists; apply (sheet_value _ _ _ _ cvm_list_picture); [now apply (In3 5%nat)|reflexivity]|].
  split; [repeat constructor; cbn; lia|discriminate].
Qed.
