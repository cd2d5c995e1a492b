(** The property of data that sorting leaves as they are. *)

From Coq Require Import ZArith NArith String List Bool Lia ZifyN ZifyBool ZifyNat Permutation Sorting.
From Verif Require Import Base ModelUtil ModelEnums ModelBitflag ModelSchemas ModelTags ModelTlv ModelValues ModelProcess ModelDisplay
  SpecUtil SpecCodes SpecValues SpecTlv SpecIngenico SpecTags SpecProcess SpecDisplay
  ProofsUtil ProofsGrammar ProofsBer ProofsIngenico ProofsValues PropertiesValues
  PropertiesBer PropertiesIngenico ProofsProcess PropertiesProcess ProofsDisplay ProofsDiagram ProofsScreens ProofsLayout PropertiesDisplay
  SpecPictures ProofsPictures ModelMain SpecMain ProofsMain PropertiesMain ModelCli SpecCli ProofsCli PropertiesCli PropertiesPictures
  SpecReading PropertiesReading ModelTerminal SpecTerminal ProofsTerminal PropertiesTerminal SpecTells ProofsTells PropertiesTells
  SpecSame PropertiesSame SpecMasking PropertiesMasking SpecJoin PropertiesJoin PropertiesCut SpecWrap PropertiesWrap PropertiesScope SpecSorted PropertiesSorted SpecSettled.
Import ListNotations.
Local Open Scope N_scope.

(** ** Order *)

Lemma node_le_total a b : node_le a b <-> ~ dict_lt (node_tag_bytes b) (node_tag_bytes a).
Proof.
  unfold node_le. pose proof (dict_cases (node_tag_bytes a) (node_tag_bytes b)) as C. split.
  - intros [H|H] K; [exact (dict_antisym _ _ H K)|]. rewrite H in K. exact (dict_irrefl _ K).
  - intros N. destruct (lex_cmp _ _); [now right|now left|contradiction].
Qed.
Lemma node_le_trans a b c : node_le a b -> node_le b c -> node_le a c.
Proof. unfold node_le. intros [A|A] [B|B]; [left; now apply dict_trans with (node_tag_bytes b)|left; congruence|left; congruence|right; congruence]. Qed.
Lemma neighbours l : StronglySorted node_le l <-> (forall a n m b, l = a ++ n :: m :: b -> ~ dict_lt (node_tag_bytes m) (node_tag_bytes n)).
Proof.
  split.
  - intros S a n m b ->. apply node_le_total. induction a as [|x a IH].
    + cbn [app] in S. apply StronglySorted_inv in S. destruct S as [_ F]. now apply Forall_inv in F.
    + apply IH. cbn [app] in S. now apply StronglySorted_inv in S.
  - induction l as [|x l IH]; intros H; [constructor|]. assert (S : StronglySorted node_le l) by (apply IH; intros a n m b ->; now apply (H (x :: a) n m b)).
    constructor; [assumption|]. destruct l as [|y l]; [constructor|]. assert (L : node_le x y) by (apply node_le_total; now apply (H [] x y l)).
    constructor; [assumption|]. apply StronglySorted_inv in S. destruct S as [_ F]. eapply Forall_impl; [|exact F]. intros z Z. now apply node_le_trans with y.
Qed.
Lemma same_tags_sorted m : forall l, map node_tag_bytes m = map node_tag_bytes l -> StronglySorted node_le m -> StronglySorted node_le l.
Proof.
  induction m as [|x m IH]; intros [|y l] E S; try discriminate E; [constructor|]. cbn [map] in E. injection E as E1 E2. apply StronglySorted_inv in S. destruct S as [S F]. constructor; [now apply IH|].
  clear - E1 E2 F. revert l E2. induction F as [|z m Z F IH]; intros [|w l] E2; try discriminate E2; constructor.
  - cbn [map] in E2. injection E2 as E2 _. unfold node_le in *. congruence.
  - apply IH. cbn [map] in E2. now injection E2.
Qed.
Lemma each_tags m l : each_in_order m l -> map node_tag_bytes m = map node_tag_bytes l.
Proof. intros H. induction H; [reflexivity|]. cbn [map node_tag_bytes]. congruence. Qed.
(* Sorted data are settled, and settled data are not changed. *)
Lemma sorted_settled l l' : in_order l l' -> settled l'.
Proof.
  apply (in_order_ind2 (fun l l' _ => settled l') (fun m l' _ => forall t c, In (RawNode t c) l' -> settled c)); clear.
  - intros l m l' P S F E IH. constructor; [|exact IH]. apply neighbours. apply (same_tags_sorted m); [now apply each_tags|assumption].
  - intros t c [].
  - intros t c c' m l' A IHa E IHe u d [K|K]; [injection K as _ <-; exact IHa|now apply (IHe u)].
Qed.
Fixpoint weight (n : raw_node) : nat := match n with RawNode _ c => S (fold_right (fun x k => weight x + k)%nat 0%nat c) end.
Definition weights (l : list raw_node) : nat := fold_right (fun x k => weight x + k)%nat 0%nat l.
Lemma weights_in t c l : In (RawNode t c) l -> (weights c < weights l)%nat.
Proof. unfold weights. induction l as [|x l IH]; [intros []|]. intros [->|I]; cbn [fold_right weight]; [|specialize (IH I)]; lia. Qed.
Lemma settled_stays : forall k l, (weights l < k)%nat -> settled l -> in_order l l.
Proof.
  induction k as [|k IH]; intros l W S; [lia|]. inversion S as [l0 N C]; subst. apply in_order_intro with l; [reflexivity|now apply neighbours|reflexivity|].
  assert (G : forall t c, In (RawNode t c) l -> in_order c c) by (intros t c I; apply IH; [apply weights_in in I; lia|now apply (C t)]). clear - G.
  induction l as [|[t c] l IH]; constructor; [apply (G t); now left|]. apply IH. intros u d I. apply (G u). now right.
Qed.
Lemma settled_iff l : settled l <-> in_order l l.
Proof. split; [intros H; apply (settled_stays (S (weights l))); [lia|exact H]|apply sorted_settled]. Qed.

(** ** The screen *)

(* All the nodes of a tree as the parsers make them. *)
Definition all_made (masks : list N) (n : raw_node) : Prop := made masks n /\ Forall tag_ok (preorder n).
Lemma children_made masks t c : all_made masks (RawNode t c) -> Forall (all_made masks) c.
Proof.
  intros [[(u & d & H) _] F]. cbn [preorder] in F. apply Forall_inv_tail in F.
  assert (M : Forall (fun n => exists t d, ing_node masks t d n) c) by (inversion H; subst; [constructor|eapply ber_trees_made; eassumption]).
  apply Forall_forall. intros n I. rewrite Forall_forall in M. assert (P : Forall tag_ok (preorder n)) by (apply Forall_forall; intros x Hx; rewrite Forall_forall in F; apply F, in_flat_map; eauto).
  split; [split; [now apply M|]|assumption]. destruct n as [x y]. cbn [preorder node_tag] in *. now apply Forall_inv in P.
Qed.
Lemma tree_length i a b : node_in_order a b -> List.length (texts (tree_lines true a i)) = List.length (texts (tree_lines true b i)).
Proof.
  intros (t & c & c' & -> & -> & O). cbn [tree_lines]. rewrite !texts_app, !app_length. f_equal. unfold texts. rewrite !map_length.
  pose proof (Permutation_length (in_order_lines c c' O (i + 1) true)) as L. unfold forest_lines in L.
  destruct c as [|x c], c' as [|y c']; cbn [List.length]; [reflexivity|exfalso|exfalso|now rewrite L].
  - inversion O as [? m0 ? P _ _ Ea]; subst. apply Permutation_nil in P. subst. inversion Ea.
  - inversion O as [? m0 ? P _ _ Ea]; subst. inversion Ea; subst. apply Permutation_sym, Permutation_nil in P. discriminate.
Qed.
Lemma forest_told masks i : forall m l', Forall2 node_in_order m l' -> forall l, Forall (all_made masks) m -> Forall (all_made masks) l ->
  (forall t c c', In (RawNode t c) l -> in_order c c' -> texts (forest_lines c' (i + 1) true) = texts (forest_lines c (i + 1) true) -> c' = c) ->
  texts (forest_lines l' i true) = texts (forest_lines l i true) -> l' = l.
Proof.
  intros m l' F. induction F as [|n n' m l' Rn F IH]; intros l M L C E.
  - destruct l as [|[t c] l]; [reflexivity|]. exfalso. unfold forest_lines in E. cbn [map] in E. rewrite separated_cons in E. discriminate E.
  - destruct l as [|k l]. { exfalso. unfold forest_lines in E. cbn [map] in E. rewrite separated_cons in E. destruct n'. discriminate E. }
    apply Forall_cons_iff in M, L. destruct M as [Mn M], L as [Lk L]. unfold forest_lines in E. cbn [map] in E. rewrite !separated_cons, !texts_app in E.
    assert (En : n = k).
    { destruct Rn as (t & c & c' & -> & -> & O), k as [u d]. cbn [tree_lines] in E. rewrite !texts_app, <- !app_assoc in E. destruct Mn as [Mn _], Lk as [Lk _].
      apply tag_lines_inj in E; [|apply Mn|apply Lk]. destruct E as [E1 E2]. apply (made_det masks); auto. }
    subst k. apply app_len_inj in E; [|symmetry; now apply tree_length]. destruct E as [E1 E2].
    assert (Hn : n' = n).
    { destruct Rn as (t & c & c' & -> & -> & O). f_equal. apply (C t c c' (or_introl eq_refl) O). cbn [tree_lines] in E1. rewrite !texts_app in E1. apply app_inv_head in E1.
      destruct c as [|x c], c' as [|y c']; [reflexivity|discriminate E1|discriminate E1|]. apply cons_inj in E1. apply E1. }
    subst n'. f_equal. apply IH; try assumption.
    + intros t c c' I. apply (C t). now right.
    + destruct l' as [|y l'], l as [|x l]; [reflexivity|discriminate E2|discriminate E2|]. apply cons_inj in E2. apply E2.
Qed.
Lemma order_told masks : forall k l, (weights l < k)%nat -> Forall (all_made masks) l -> forall l' i, in_order l l' -> texts (forest_lines l' i true) = texts (forest_lines l i true) -> l' = l.
Proof.
  induction k as [|k IH]; intros l W M l' i O E; [lia|]. inversion O as [? m ? P S F EO]; subst.
  apply (forest_told masks i m l' (each_forall _ _ EO)); [now apply (Permutation_Forall P)|assumption| |assumption].
  intros t c c' I Oc. apply (IH c); [apply weights_in in I; lia| |assumption]. apply (children_made masks t). rewrite Forall_forall in M. now apply M.
Qed.
Lemma block_all_made p masks op s f ns : text64 p s -> tlv_block masks op s f ns -> Forall (all_made masks) ns.
Proof.
  intros T B. pose proof (block_made p masks op s f ns T B) as M. destruct (tlv_op _ _ _ _ _ B) as [_ L]. destruct (L p) as [x X]. destruct (tlv_settles p masks op s x T X) as (Y & _ & _ & _ & _ & G).
  assert (F : forest_ok ns) by (apply (G f ns); now apply Y). apply Forall_flat_map in F. rewrite Forall_forall in *. intros n I. split; auto. 
Qed.

(** C113: when sorting changes nothing. *)
(* Exactly if at every level no object is directly followed by one of a smaller tag. *)
Theorem C113_settled : forall p masks op s f ns ls ls', text64 p s -> tlv_block masks op s f ns -> sheet masks true op s ls -> sheet masks false op s ls' ->
  (settled ns <-> ls = ls') /\ (settled ns <-> characters ls = characters ls').
Proof.
  intros p masks op s f ns ls ls' T B H H'.
  destruct (PropertiesTells.sheet_of_block p _ _ _ _ _ _ _ T B H) as (m & E & O), (PropertiesTells.sheet_of_block p _ _ _ _ _ _ _ T B H') as (m' & E' & ->).
  assert (A : settled ns -> ls = ls') by (intros S; apply settled_iff in S; subst ls ls'; now rewrite (in_order_det _ _ _ O S)).
  assert (C : characters ls = characters ls' -> settled ns).
  { intros Q. rewrite (sheets_texts p _ _ _ _ _ _ _ _ _ _ T T H H') in Q. subst ls ls'. apply format_texts in Q. destruct Q as [_ Q].
    rewrite (order_told masks (S (weights ns)) ns ltac:(lia) (block_all_made p masks op s f ns T B) m 0 O Q) in O. now apply settled_iff. }
  split; split; [exact A|intros ->; now apply C|intros S; now rewrite (A S)|exact C].
Qed.
(* The same for two runs of the program that differ in the setting. *)
Theorem C113_program : forall p e m st e' m' st' op s f ns, load_settings e m = Ok st -> load_settings e' m' = Ok st' ->
  chosen m op s -> chosen m' op s -> text64 p s -> set_masking st = set_masking st' -> set_sort st = true -> set_sort st' = false -> tlv_block (set_masking st) op s f ns ->
  o_panic (run_main p e m) = false -> o_stderr (run_main p e m) = [] ->
  (settled ns <-> text_of (o_stdout (run_main p e m)) = text_of (o_stdout (run_main p e' m'))).
Proof.
  intros p e m st e' m' st' op s f ns L L' C C' T M O O' B P E. destruct (succeeded p e m st op s L C T P E) as (ls & H & W).
  destruct (C93_sort p e m st e' m' st' op s L L' C C' T M O O') as [(er & (_ & _ & _ & K) & _)|(l & l' & Hl & Hl' & _ & [[D D']|[K _]])].
  - exfalso. rewrite K in E. symmetry in E. now apply app_cons_not_nil in E.
  - apply displays_characters in D, D'. rewrite D, D'. exact (proj2 (C113_settled p _ op s f ns l l' T B Hl Hl')).
  - congruence.
Qed.
(* A single object without children, and any number of objects of one tag without children. *)
Lemma settled_alike : forall t l, Forall (fun n => node_tag_bytes n = t /\ exists r, n = RawNode r []) l -> settled l.
Proof.
  intros t l F. rewrite Forall_forall in F. constructor.
  - intros a n m b -> K. destruct (F n) as [En _]; [apply in_app_iff; right; now left|]. destruct (F m) as [Em _]; [apply in_app_iff; right; right; now left|]. rewrite En, Em in K. exact (dict_irrefl _ K).
  - intros r c I. destruct (F _ I) as (_ & r' & E). injection E as _ ->. constructor; [intros a n m b K; destruct a; discriminate K|intros u d []].
Qed.
(* Joined data in order are in order if the seam is. *)
Lemma settled_joined : forall a n m b, settled (a ++ [n]) -> settled (m :: b) -> (settled (a ++ n :: m :: b) <-> ~ dict_lt (node_tag_bytes m) (node_tag_bytes n)).
Proof.
  intros a n m b A B. split; [intros H; inversion H as [l N C]; subst; exact (N a n m b eq_refl)|]. intros K. inversion A as [l NA CA]; subst. inversion B as [l NB CB]; subst. constructor.
  - apply neighbours. apply neighbours in NA, NB. clear - NA NB K. apply node_le_total in K.
    assert (Hm : Forall (node_le m) b) by now apply StronglySorted_inv in NB. assert (Hn : Forall (node_le n) (m :: b)) by (constructor; [assumption|]; eapply Forall_impl; [|exact Hm]; intros z Z; now apply node_le_trans with m).
    induction a as [|x a IH]; cbn [app] in *; [now constructor|]. apply StronglySorted_inv in NA. destruct NA as [S F]. constructor; [now apply IH|]. apply Forall_app in F. destruct F as [F1 F2]. apply Forall_app. split; [assumption|].
    apply Forall_inv in F2. constructor; [assumption|]. eapply Forall_impl; [|exact Hn]. intros z Z. now apply node_le_trans with n.
  - intros t c I. apply in_app_iff in I. destruct I as [I|[I|I]]; [apply (CA t); apply in_app_iff; now left|apply (CA t); apply in_app_iff; right; left; exact I|now apply (CB t)].
Qed.
Example C113_example : exists ns ns' ls ls', text64 p64 (lit "5A0131 9F200131 5A0132") /\ tlv_block [42] OpBer (lit "5A0131 5A0130 9F200131") None ns /\ settled ns
  /\ tlv_block [42] OpBer (lit "5A0131 9F200131 5A0132") None ns' /\ ~ settled ns' /\ sheet [42] true OpBer (lit "5A0131 9F200131 5A0132") ls /\ sheet [42] false OpBer (lit "5A0131 9F200131 5A0132") ls' /\ ls <> ls'.
Proof.
  set (a := sample_leaf [0x5A] [0x31]). set (b := sample_leaf [0x5A] [0x30]). set (c := sample_leaf [0x9F; 0x20] [0x31]). set (d := sample_leaf [0x5A] [0x32]).
  assert (T : text64 p64 (lit "5A0131 5A0130 9F200131")) by (split; vm_compute; reflexivity). assert (T' : text64 p64 (lit "5A0131 9F200131 5A0132")) by (split; vm_compute; reflexivity).
  assert (L : dict_lt [0x5A] [0x9F; 0x20]) by (constructor; lia).
  assert (B' : tlv_block [42] OpBer (lit "5A0131 9F200131 5A0132") None [a; c; d]) by (apply (tlv_settles p64 [42] OpBer _ _ T' eq_refl); vm_compute; reflexivity).
  assert (N : ~ settled [a; c; d]) by (intros H; inversion H as [l K _]; subst; exact (K [a] c d [] eq_refl L)).
  assert (H' : sheet [42] false OpBer (lit "5A0131 9F200131 5A0132") (forest_lines [a; c; d] 0 true)) by (apply sample_sheet; [exact T'|vm_compute; reflexivity|vm_compute; reflexivity]).
  destruct (C73_total p64 [42] true OpBer (lit "5A0131 9F200131 5A0132") T') as [(ls & H & _)|(e & R & _ & _)].
  - exists [a; b; c], [a; c; d], ls, (forest_lines [a; c; d] 0 true). split; [exact T'|]. split; [apply (tlv_settles p64 [42] OpBer _ _ T eq_refl); vm_compute; reflexivity|].
    split; [apply (settled_joined [a] b c []); [apply (settled_alike [0x5A]); repeat constructor; eexists; reflexivity|apply (settled_alike [0x9F; 0x20]); repeat constructor; eexists; reflexivity|intros K; exact (dict_antisym _ _ L K)]|].
    split; [exact B'|]. split; [exact N|]. split; [exact H|]. split; [exact H'|]. intros K. apply N. exact (proj2 (proj1 (C113_settled p64 [42] OpBer _ None [a; c; d] ls _ T' B' H H')) K).
  - exfalso. destruct (C73_total p64 [42] false OpBer (lit "5A0131 9F200131 5A0132") T') as [(ls & _ & _ & X)|(e' & _ & _ & X)]; [exact (X _ R)|exact (X _ H')].
Qed.
