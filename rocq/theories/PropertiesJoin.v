(** The properties of TLV data put together from parts. *)

From Coq Require Import ZArith NArith String List Bool Lia ZifyN ZifyBool ZifyNat Permutation Sorting.
From Verif Require Import Base ModelUtil ModelEnums ModelBitflag ModelSchemas ModelTags ModelTlv ModelValues ModelProcess ModelDisplay
  SpecUtil SpecCodes SpecValues SpecTlv SpecIngenico SpecTags SpecProcess SpecDisplay
  ProofsUtil ProofsGrammar ProofsBer ProofsIngenico ProofsValues PropertiesValues
  PropertiesBer PropertiesIngenico ProofsProcess PropertiesProcess ProofsDisplay ProofsDiagram ProofsScreens ProofsLayout PropertiesDisplay
  SpecPictures ProofsPictures ModelMain SpecMain ProofsMain PropertiesMain ModelCli SpecCli ProofsCli PropertiesCli PropertiesPictures
  SpecReading PropertiesReading ModelTerminal SpecTerminal ProofsTerminal PropertiesTerminal SpecTells ProofsTells PropertiesTells SpecJoin.
Import ListNotations.
Local Open Scope N_scope.

(** ** Parts *)

Lemma digits_app a b : Nat.even (List.length a) = true -> bytes_of_digits (a ++ b) = bytes_of_digits a ++ bytes_of_digits b.
Proof.
  induction a as [a IH] using length_ind. destruct a as [|x [|y a]]; intros E; [reflexivity|discriminate|].
  cbn [app bytes_of_digits]. f_equal. apply IH; [cbn [List.length]; lia|exact E].
Qed.
Lemma hex_bytes_app a b : Nat.even (List.length (filter is_hex_digitb a)) = true -> hex_bytes (a ++ b) = hex_bytes a ++ hex_bytes b.
Proof. intros E. unfold hex_bytes. rewrite filter_app. now apply digits_app. Qed.
Lemma prefix_app masks a es : ing_prefix masks a es -> forall na, ing_nodes masks es na -> forall b, ascii_text (a ++ b) ->
  parse_text masks (a ++ b) = rmap (app na) (parse_text masks b).
Proof.
  assert (R : forall (r : res (list raw_node)), r = rmap (app []) r) by (intros []; reflexivity).
  induction 1 as [|f e sep rest es F P IH]; intros na Hn b Ha; [inversion Hn; subst; apply R|].
  rewrite <- !app_assoc in *. cbn [app] in *. rewrite (parse_text_field masks f e (sep :: rest ++ b) Ha F). cbn [tl].
  apply ascii_app in Ha. destruct Ha as [Hf Ha]. apply ascii_cons in Ha. destruct Ha as [_ Ha].
  inversion Hn as [|e' es' ns' Ty Ns|e' es' n ns' Ty N1 Ns]; subst.
  - rewrite (proj2 (N.eqb_neq _ _) Ty). now apply IH.
  - rewrite (proj2 (N.eqb_eq _ _) Ty), (proj2 (ing_child_node masks e n (fun v Hv => field_data_bytes masks f e v Hf F Hv)) N1), (IH _ Ns b Ha). cbn [bind]. now destruct (parse_text masks b).
Qed.
(* What follows a part is read as if it stood alone. *)
Lemma part_result p masks op a na b : text64 p (a ++ b) -> part masks op a na ->
  exists ra rb, tlv_result p masks op (a ++ b) = Some ra /\ tlv_result p masks op b = Some rb
    /\ ra = rmap (fun fn => (fst fn, na ++ snd fn)) rb.
Proof.
  intros T P. assert (Tb : text64 p b) by (destruct T as [T1 T2]; split; [assumption|rewrite len_app in T2; lia]).
  assert (Ta : text64 p a) by (destruct T as [T1 T2]; split; [assumption|rewrite len_app in T2; lia]).
  destruct P as [a ns E B|a es ns Aa P N]; cbn [tlv_result]; do 2 eexists; (split; [reflexivity|split; [reflexivity|]]).
  - apply (ber_block_iff p) in B; [|assumption]. pose proof (hex_input64 p _ T) as I. rewrite <- !hex_bytes_eq in *. rewrite (hex_bytes_app a b E) in *.
    destruct (C14_ber_compositional p masks _ _ ns I B) as [K1 K2].
    destruct (C09_ber_parse_settles p masks (hex_bytes b)) as [[nb X]|[e X]]; [rewrite hex_bytes_eq; now apply hex_input64| |].
    + rewrite (K1 _ X), X. reflexivity.
    + rewrite (K2 _ X), X. reflexivity.
  - rewrite !ingenico_parse_eq by (now apply text64_roomy). destruct (is_ascii b) eqn:Eb.
    + apply is_ascii_iff in Eb. assert (Ab : ascii_text (a ++ b)) by now apply ascii_app. rewrite (proj2 (is_ascii_iff _) Ab).
      rewrite (prefix_app masks a es P ns N b Ab). now destruct (parse_text masks b).
    + destruct (is_ascii (a ++ b)) eqn:Ea; [|reflexivity]. apply is_ascii_iff, ascii_app in Ea. destruct Ea as [_ Ea]. apply is_ascii_iff in Ea. congruence.
Qed.
Lemma part_block p masks op a na b f ns : text64 p (a ++ b) -> part masks op a na ->
  (tlv_block masks op (a ++ b) f ns <-> exists nb, ns = na ++ nb /\ tlv_block masks op b f nb).
Proof.
  intros T P. assert (Tb : text64 p b) by (destruct T as [T1 T2]; split; [assumption|rewrite len_app in T2; lia]).
  destruct (part_result p masks op a na b T P) as (ra & rb & Ea & Eb & E).
  destruct (tlv_settles p masks op _ ra T Ea) as (X & _), (tlv_settles p masks op _ rb Tb Eb) as (Y & _).
  rewrite <- X, E, rmap_ok. split.
  - intros ([g nb] & K & Q). injection Q as -> ->. exists nb. split; [reflexivity|]. now apply Y.
  - intros (nb & -> & K). apply Y in K. exists (f, nb). auto.
Qed.
Lemma part_alone p masks op a na : text64 p a -> part masks op a na -> tlv_block masks op a None na.
Proof.
  intros T P. rewrite <- (app_nil_r a) in T |- *. apply (part_block p _ _ _ _ _ _ _ T P). exists []. split; [now rewrite app_nil_r|].
  destruct P; constructor.
  - exists []. split; constructor.
  - split; [constructor|]. exists []. split; constructor.
Qed.

(** ** Lines *)

Lemma tree_some n i : tree_lines true n i <> [].
Proof. destruct n as [t c]. cbn [tree_lines]. unfold tag_lines. discriminate. Qed.
Lemma forest_none l : forest_lines l 0 true = [] <-> l = [].
Proof.
  split; [|now intros ->]. destruct l as [|n l]; [reflexivity|]. unfold forest_lines. cbn [map]. rewrite separated_cons.
  intros E. apply app_eq_nil in E. now destruct (tree_some n 0).
Qed.
Lemma forest_app : forall a b, forest_lines (a ++ b) 0 true = below (forest_lines a 0 true) (forest_lines b 0 true).
Proof.
  assert (S : forall a b : list (list line), a <> [] -> b <> [] -> separated (a ++ b) = separated a ++ blank :: separated b).
  { induction a as [|x a IH]; intros b A B; [congruence|]. destruct a as [|y a].
    - destruct b; [congruence|]. reflexivity.
    - change (separated (x :: y :: a)) with (x ++ blank :: separated (y :: a)). cbn [app]. change (separated (x :: y :: (a ++ b))) with (x ++ blank :: separated ((y :: a) ++ b)).
      rewrite IH by (assumption || discriminate). now rewrite <- app_assoc. }
  intros a b. destruct a as [|n a]; [reflexivity|]. destruct b as [|m b].
  - rewrite app_nil_r. unfold below. destruct (forest_lines (n :: a) 0 true) eqn:E; [apply forest_none in E; discriminate|reflexivity].
  - unfold below. destruct (forest_lines (n :: a) 0 true) eqn:E; [apply forest_none in E; discriminate|]. destruct (forest_lines (m :: b) 0 true) eqn:F; [apply forest_none in F; discriminate|].
    rewrite <- E, <- F. unfold forest_lines. rewrite map_app. apply S; discriminate.
Qed.

(** C87: data put together from parts. *)
(* Unsorted, each part is shown as it is alone, one below the other. *)
Theorem C87_joined : forall p masks op a b na la lb, text64 p (a ++ b) -> part masks op a na ->
  sheet masks false op a la -> sheet masks false op b lb -> sheet masks false op (a ++ b) (below la lb).
Proof.
  intros p masks op a b na la lb T P Ha Hb.
  assert (Tb : text64 p b) by (destruct T as [T1 T2]; split; [assumption|rewrite len_app in T2; lia]).
  assert (Ta : text64 p a) by (destruct T as [T1 T2]; split; [assumption|rewrite len_app in T2; lia]).
  pose proof (part_alone p _ _ _ _ Ta P) as Ba.
  assert (X : forall s ls, sheet masks false op s ls -> exists ns, tlv_block masks op s None ns /\ Forall (fun t => forall e, ~ tag_fails t e) (flat_map preorder ns) /\ ls = forest_lines ns 0 true).
  { intros s ls H. inversion H as [g q I E|n O D N|f' ns0 m B' N A]; subst.
    - exfalso. unfold byte_operations in I. cbn [In] in I. inversion Ba; subst; repeat (destruct I as [I|I]; [discriminate|]); destruct I.
    - inversion Ba.
    - exists ns0. inversion B'; subst; try (now inversion Ba); auto. }
  destruct (X _ _ Ha) as (na' & Ba' & Fa & ->), (X _ _ Hb) as (nb & Bb & Fb & ->).
  destruct (tlv_block_det p _ _ _ _ _ _ _ Ta Ba Ba') as [_ <-]. rewrite <- forest_app.
  change (forest_lines (na ++ nb) 0 true) with (format_lines None ++ forest_lines (na ++ nb) 0 true). apply (sheet_block _ _ _ _ None (na ++ nb)); [|rewrite flat_map_app; now apply Forall_app|reflexivity].
  apply (part_block p _ _ _ _ _ _ _ T P). exists nb. auto.
Qed.
(* What is wrong with the rest is reported for the whole. *)
Theorem C87_refused : forall p masks sort op a b na la e, text64 p (a ++ b) -> part masks op a na ->
  sheet masks sort op a la -> refused masks op b e -> refused masks op (a ++ b) e.
Proof.
  intros p masks sort op a b na la e T P Ha R.
  assert (Tb : text64 p b) by (destruct T as [T1 T2]; split; [assumption|rewrite len_app in T2; lia]).
  assert (Ta : text64 p a) by (destruct T as [T1 T2]; split; [assumption|rewrite len_app in T2; lia]).
  pose proof (part_alone p _ _ _ _ Ta P) as Ba.
  assert (Fa : Forall (fun t => forall e, ~ tag_fails t e) (flat_map preorder na)).
  { inversion Ha as [g q I E|n O D N|f' ns0 m B' N A]; subst.
    - exfalso. unfold byte_operations in I. cbn [In] in I. inversion Ba; subst; repeat (destruct I as [I|I]; [discriminate|]); destruct I.
    - inversion Ba.
    - destruct (tlv_block_det p _ _ _ _ _ _ _ Ta Ba B') as [_ <-]. assumption. }
  destruct (part_result p masks op a na b T P) as (ra & rb & Ea & Eb & E).
  destruct (tlv_settles p masks op _ ra T Ea) as (X & X2 & _), (tlv_settles p masks op _ rb Tb Eb) as (Y & _ & Y3 & _).
  destruct (Y3 e R) as [K|(f & nb & K & before & t & after & E1 & E2 & E3)].
  - apply X2. rewrite E, K. reflexivity.
  - apply (refused_tag _ _ _ f (na ++ nb) (flat_map preorder na ++ before) t after); [| | |assumption].
    + apply X. rewrite E, K. reflexivity.
    + rewrite flat_map_app, E1. now rewrite app_assoc.
    + intros x e' I. apply in_app_or in I. destruct I as [I|I]; [|now apply E2]. rewrite Forall_forall in Fa. now apply Fa.
Qed.
(* Sorted, the order of parts without a common tag does not matter. *)
Lemma tagged_app t a b : tagged t (a ++ b) = tagged t a ++ tagged t b.
Proof. apply filter_app. Qed.
Lemma tagged_swapped t x y : no_common_tag x y -> tagged t x ++ tagged t y = tagged t y ++ tagged t x.
Proof.
  intros D. destruct (tagged t x) as [|n l] eqn:E; [now rewrite app_nil_r|]. destruct (tagged t y) as [|n' l'] eqn:E'; [now rewrite app_nil_r|]. exfalso.
  assert (I : In n (tagged t x)) by (rewrite E; now left). assert (I' : In n' (tagged t y)) by (rewrite E'; now left).
  unfold tagged in I, I'. apply filter_In in I, I'. destruct I as [I S], I' as [I' S']. apply (D n n' I I').
  apply same_bytes_eq in S, S'. congruence.
Qed.
Theorem C87_swapped : forall p masks op a x y b na nx ny ls, text64 p (a ++ x ++ y ++ b) ->
  part masks op a na -> part masks op x nx -> part masks op y ny -> no_common_tag nx ny ->
  (sheet masks true op (a ++ x ++ y ++ b) ls <-> sheet masks true op (a ++ y ++ x ++ b) ls).
Proof.
  assert (X : forall p masks op a x y b na nx ny ls, text64 p (a ++ x ++ y ++ b) ->
    part masks op a na -> part masks op x nx -> part masks op y ny -> no_common_tag nx ny ->
    sheet masks true op (a ++ x ++ y ++ b) ls -> sheet masks true op (a ++ y ++ x ++ b) ls).
  { intros p masks op a x y b na nx ny ls T Pa Px Py D H.
    assert (T' : text64 p (a ++ y ++ x ++ b)) by (destruct T as [T1 T2]; split; [assumption|rewrite !len_app in *; lia]).
    assert (T1 : text64 p (x ++ y ++ b) /\ text64 p (y ++ b) /\ text64 p (y ++ x ++ b) /\ text64 p (x ++ b) /\ text64 p a).
    { destruct T as [T1 T2]. unfold text64. rewrite !len_app in *. repeat split; try assumption; lia. }
    destruct T1 as (T1 & T2 & T3 & T4 & Ta). pose proof (part_alone p _ _ _ _ Ta Pa) as Ba.
    inversion H as [g q I E|n O Dn N|f ns0 m B N A]; subst.
    - exfalso. unfold byte_operations in I. cbn [In] in I. inversion Ba; subst; repeat (destruct I as [I|I]; [discriminate|]); destruct I.
    - inversion Ba.
    - apply (part_block p _ _ _ _ _ _ _ T Pa) in B. destruct B as (n1 & -> & B). apply (part_block p _ _ _ _ _ _ _ T1 Px) in B. destruct B as (n2 & -> & B).
      apply (part_block p _ _ _ _ _ _ _ T2 Py) in B. destruct B as (nb & -> & B).
      assert (Pm : Permutation (na ++ nx ++ ny ++ nb) (na ++ ny ++ nx ++ nb)) by (apply Permutation_app_head; rewrite !app_assoc; apply Permutation_app_tail, Permutation_app_comm).
      apply (sheet_block _ _ _ _ f (na ++ ny ++ nx ++ nb)).
      + apply (part_block p _ _ _ _ _ _ _ T' Pa). eexists. split; [reflexivity|]. apply (part_block p _ _ _ _ _ _ _ T3 Py). eexists. split; [reflexivity|].
        apply (part_block p _ _ _ _ _ _ _ T4 Px). eauto.
      + rewrite !flat_map_app, !Forall_app in *. tauto.
      + inversion A as [l m0 l' P S F E]; subst. apply in_order_intro with m0; [|assumption| |assumption].
        * now rewrite <- Pm.
        * intros t. rewrite F, !tagged_app. f_equal. rewrite !app_assoc. f_equal. now apply tagged_swapped. }
  intros p masks op a x y b na nx ny ls T Pa Px Py D. split; [now apply (X p _ _ _ _ _ _ na nx ny)|].
  apply (X p _ _ _ _ _ _ na ny nx); try assumption.
  - destruct T as [T1 T2]. split; [assumption|rewrite !len_app in *; lia].
  - intros n n' I I' E. now apply (D n' n).
Qed.
(* The same for the program. *)
Theorem C87_program : forall p e e' m m' st st' op a x y b na nx ny ls, load_settings e m = Ok st -> load_settings e' m' = Ok st' ->
  set_masking st' = set_masking st -> set_sort st = true -> set_sort st' = true -> chosen m op (a ++ x ++ y ++ b) -> chosen m' op (a ++ y ++ x ++ b) ->
  text64 p (a ++ x ++ y ++ b) -> part (set_masking st) op a na -> part (set_masking st) op x nx -> part (set_masking st) op y ny -> no_common_tag nx ny ->
  sheet (set_masking st) true op (a ++ x ++ y ++ b) ls -> fits p (deepest ls) -> displays (run_main p e m) ls /\ displays (run_main p e' m') ls.
Proof.
  intros p e e' m m' st st' op a x y b na nx ny ls L L' M S S' C C' T Pa Px Py D H F.
  assert (T' : text64 p (a ++ y ++ x ++ b)) by (destruct T as [T1 T2]; split; [assumption|rewrite !len_app in *; lia]).
  split.
  - apply (C73_shown p e m st op _ ls L C T); [now rewrite S|assumption].
  - apply (C73_shown p e' m' st' op _ ls L' C' T'); [|assumption]. rewrite M, S'. now apply (C87_swapped p _ _ _ _ _ _ na nx ny _ T).
Qed.
Theorem C87_grows : forall p e e' m m' st st' op a b na la lb, load_settings e m = Ok st -> load_settings e' m' = Ok st' ->
  set_masking st' = set_masking st -> set_sort st = false -> set_sort st' = false -> chosen m op a -> chosen m' op (a ++ b) ->
  text64 p (a ++ b) -> part (set_masking st) op a na -> sheet (set_masking st) false op a la -> sheet (set_masking st) false op b lb ->
  fits p (deepest la) -> fits p (deepest lb) -> displays (run_main p e m) la /\ displays (run_main p e' m') (below la lb).
Proof.
  intros p e e' m m' st st' op a b na la lb L L' M S S' C C' T P Ha Hb Fa Fb.
  assert (Ta : text64 p a) by (destruct T as [T1 T2]; split; [assumption|rewrite len_app in T2; lia]).
  split.
  - apply (C73_shown p e m st op _ la L C Ta); [now rewrite S|assumption].
  - apply (C73_shown p e' m' st' op _ _ L' C' T); [rewrite M, S'; now apply (C87_joined p _ _ _ _ na)|].
    intros O. specialize (Fa O). specialize (Fb O). unfold below. destruct la as [|l1 la]; [assumption|]. destruct lb as [|l2 lb]; [assumption|].
    unfold deepest in *. rewrite map_app, fold_right_app. cbn [map fold_right] in *. change (l_tabs blank) with 0. clear - Fa Fb.
    rewrite N.max_0_l. set (z := N.max (l_tabs l2) _) in *. assert (G : forall l, fold_right N.max z l = N.max (fold_right N.max 0 l) z).
    { induction l as [|h l IH]; cbn [fold_right]; [lia|rewrite IH; lia]. }
    rewrite G. lia.
Qed.
(* Objects of one tag keep their order: exchanging them does change the screen. *)
Theorem C87_common_tag_refuted : exists x y nx ny ls, part [42] OpBer x nx /\ part [42] OpBer y ny
  /\ sheet [42] true OpBer (x ++ y) ls /\ ~ sheet [42] true OpBer (y ++ x) ls.
Proof.
  assert (P : forall s ns, text64 p64 s -> ber_parse p64 [42] (parse_hex_str s) = Ok ns -> Nat.even (List.length (filter is_hex_digitb s)) = true -> part [42] OpBer s ns).
  { intros s ns T E K. constructor; [assumption|]. now apply (ber_block_iff p64). }
  assert (L : forall s, load_settings plain_env (with_ber s) = Ok (mkSettings TAuto [42] true)) by (intros s; now apply plain_settings).
  assert (C : forall s, chosen (with_ber s) OpBer s).
  { intros s. split; [reflexivity|]. exists [OpTvr; OpIad; OpCvr; OpTsi; OpCvmResults; OpCvmList; OpIdentify; OpAuto], [OpIngenico; OpServiceCode].
    split; [reflexivity|]. repeat constructor. }
  set (x := lit "9F370411111111"). set (y := lit "9F370422222222").
  assert (T : text64 p64 (x ++ y)) by (split; vm_compute; reflexivity).
  assert (T' : text64 p64 (y ++ x)) by (split; vm_compute; reflexivity).
  exists x, y. do 2 eexists. destruct (C73_total p64 [42] true OpBer (x ++ y) T) as [(ls & H & _)|(er & R & _)].
  - exists ls. split; [apply P; [split; vm_compute; reflexivity|vm_compute; reflexivity|reflexivity]|].
    split; [apply P; [split; vm_compute; reflexivity|vm_compute; reflexivity|reflexivity]|]. split; [assumption|]. intros H'.
    assert (F : fits p64 (deepest ls)).
    { intros O. destruct (N.le_gt_cases 256 (deepest ls)) as [G|G]; [|assumption]. exfalso.
      assert (Z : o_panic (run_main p64 plain_env (with_ber (x ++ y))) = false) by (vm_compute; reflexivity).
      rewrite (proj2 (C73_overflow p64 plain_env _ _ OpBer _ ls (L _) (C _) T H) (conj O G)) in Z. discriminate. }
    destruct (C73_shown p64 plain_env _ _ OpBer _ ls (L _) (C _) T H F) as (_ & _ & _ & S & _).
    destruct (C73_shown p64 plain_env _ _ OpBer _ ls (L _) (C _) T' H' F) as (_ & _ & _ & S' & _).
    rewrite <- S' in S. revert S. vm_compute. discriminate.
  - exfalso. destruct (C61_refused p64 plain_env _ _ OpBer _ er (L _) (C _) T R) as (_ & _ & Z & _). revert Z. vm_compute. discriminate.
Qed.
Example C87_example : exists nx ny, part [42] OpBer (lit "9A 03 210131") nx /\ part [42] OpIngenico (lit "T9F02:01:h07,") ny
  /\ no_common_tag nx ny /\ nx <> [] /\ ny <> [] /\ exists la, sheet [42] false OpBer (lit "9A 03 210131") la /\ la <> [].
Proof.
  assert (B : ber_block [42] (lit "9A 03 210131") [RawNode (mkRawTag [0x9A] TagClass_ContextSpecific Primitive (Normal [0x21; 0x01; 0x31])) []]).
  { apply (ber_block_iff p64); [split; vm_compute; reflexivity|]. vm_compute. reflexivity. }
  do 2 eexists. split; [apply part_ber; [reflexivity|exact B]|]. split; [apply (part_ingenico _ _ [mkEntry 84 [0x9F; 2] (Normal [7])] [RawNode (mkRawTag [0x9F; 2] TagClass_ContextSpecific Primitive (Normal [7])) []])|].
  - now apply is_ascii_iff.
  - apply (ing_prefix_cons [42] (lit "T9F02:01:h07") _ 44 []); [apply sample_field1|constructor].
  - apply ing_nodes_take; [reflexivity| |constructor]. apply (ing_node_leaf [42] [0x9F; 2] (Normal [7])). left. reflexivity.
  - split; [intros n n' [<-|[]] [<-|[]]; discriminate|]. split; [discriminate|]. split; [discriminate|].
    exists (format_lines None ++ forest_lines [RawNode (mkRawTag [0x9A] TagClass_ContextSpecific Primitive (Normal [0x21; 0x01; 0x31])) []] 0 true).
    split; [eapply (sheet_block _ _ _ _ None); [exact (block_ber _ _ _ B)| |reflexivity]|discriminate].
    constructor; [|constructor]. intros e (d & _ & K). cbn [rt_tag] in K. inversion K as [? ? ? I _|? _ _| | | | | |]; subst.
    cbn [fixed_lengths In] in I. repeat (destruct I as [I|I]; [discriminate|]). destruct I.
Qed.
