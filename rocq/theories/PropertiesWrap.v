(** The properties of data inside templates. *)

From Coq Require Import ZArith NArith String List Bool Lia ZifyN ZifyBool ZifyNat Permutation Sorting.
From Verif Require Import Base ModelUtil ModelEnums ModelBitflag ModelSchemas ModelTags ModelTlv ModelValues ModelProcess ModelDisplay
  SpecUtil SpecCodes SpecValues SpecTlv SpecIngenico SpecTags SpecProcess SpecDisplay
  ProofsUtil ProofsGrammar ProofsBer ProofsIngenico ProofsValues PropertiesValues
  PropertiesBer PropertiesIngenico ProofsProcess PropertiesProcess ProofsDisplay ProofsDiagram ProofsScreens ProofsLayout PropertiesDisplay
  SpecPictures ProofsPictures ModelMain SpecMain ProofsMain PropertiesMain ModelCli SpecCli ProofsCli PropertiesCli PropertiesPictures
  SpecReading PropertiesReading ModelTerminal SpecTerminal ProofsTerminal PropertiesTerminal SpecTells ProofsTells PropertiesTells
  SpecSame PropertiesSame SpecMasking PropertiesMasking SpecJoin PropertiesJoin PropertiesCut SpecWrap.
Import ListNotations.
Local Open Scope N_scope.

(** ** Objects and trees one after the other *)

Lemma objects_join a oa b ob : ber_objects a oa [] -> ber_objects b ob [] -> ber_objects (a ++ b) (oa ++ ob) [].
Proof.
  intros A B. apply (objects_more _ _ _ b) in A. cbn [app] in A.
  assert (K : forall x o r, ber_objects x o r -> r = b -> ber_objects x (o ++ ob) []).
  { clear A. induction 1 as [r|x t v mid o r H1 H2 IH]; intros ->; [exact B|]. cbn [app]. econstructor; eauto. }
  now apply (K _ _ _ A).
Qed.
Lemma trees_join masks oa na ob nb : ber_trees masks oa na -> ber_trees masks ob nb -> ber_trees masks (oa ++ ob) (na ++ nb).
Proof. induction 1; intros B; [exact B|]. cbn [app]. constructor; auto. Qed.
Lemma one_object t l v : ber_tag t -> ber_len l (len v) -> v <> [] -> ber_objects (t ++ l ++ v) [(t, v)] [].
Proof.
  intros T L V. econstructor; [|constructor]. pose proof (ber_object_intro t l v [] T L) as K. rewrite app_nil_r in K. apply K. intros _. exact V.
Qed.

(** ** Templates have no meaning of their own *)

Lemma constructed_other (tags : list (list N)) t : type_of (first_byte t) = Constructed ->
  forallb (fun x => match type_of (first_byte x) with Primitive => true | Constructed => false end) tags = true -> ~ In t tags.
Proof. intros C F I. rewrite forallb_forall in F. specialize (F t I). now rewrite C in F. Qed.
Lemma constructed_title t c v : type_of (first_byte t) = Constructed -> tag_title (mkRawTag t c Constructed (Normal v)) = name_of t
  /\ forall i show, meaning_lines (mkRawTag t c Constructed (Normal v)) i show = [].
Proof.
  intros C. assert (N : ~ In t interpreted_tags) by (apply constructed_other; [exact C|reflexivity]).
  unfold tag_title, meaning_lines. cbn [rt_data rt_tag]. now rewrite (no_picture_uninterpreted t v N), (no_unrecognised_uninterpreted t N).
Qed.
Lemma constructed_fine t c d e : type_of (first_byte t) = Constructed -> ~ tag_fails (mkRawTag t c Constructed d) e.
Proof.
  intros C. apply no_failure. cbn [rt_tag]. apply not_true_iff_false. intros E. apply existsb_exists in E. destruct E as (x & I & S). apply same_bytes_eq in S. subst x.
  revert I. now apply constructed_other.
Qed.
Lemma constructed_lines t c v ch i : type_of (first_byte t) = Constructed -> v <> [] ->
  tree_lines true (RawNode (mkRawTag t c Constructed (Normal v)) ch) i
  = tag_row i (mkRawTag t c Constructed (Normal v)) (name_of t) :: heading_row i (lit "Raw:") :: wide_dump (i + 1) v
    ++ match ch with [] => [] | _ :: _ => heading_row i (lit "Constructed Data Object's Child Tags:") :: map (moved 1) (forest_lines ch i true) end.
Proof.
  intros C V. cbn [tree_lines]. unfold tag_lines. destruct (constructed_title t c v C) as [-> ->]. rewrite app_nil_r. unfold data_lines. cbn [rt_data].
  destruct v as [|b v]; [contradiction|]. cbn [app]. do 3 f_equal. destruct ch as [|n ch]; [reflexivity|]. now rewrite <- forest_lines_moved.
Qed.

(** ** One template *)

Lemma objects_or_not masks x : (exists ns, ber_block masks x ns) \/ ~ exists objs, ber_objects (hex_bytes x) objs [].
Proof.
  assert (Hb : bytes_ok (hex_bytes x)) by (rewrite hex_bytes_eq; apply parse_hex_str_bytes).
  destruct (parse_bytes masks (hex_bytes x)) as [ns|e| |] eqn:E.
  - left. exists ns. now apply parse_bytes_sound.
  - right. intros [objs O]. destruct (parse_bytes_accepts masks _ _ Hb O) as [ns K]. congruence.
  - right. intros [objs O]. destruct (parse_bytes_accepts masks _ _ Hb O) as [ns K]. congruence.
  - right. intros [objs O]. destruct (parse_bytes_accepts masks _ _ Hb O) as [ns K]. congruence.
Qed.
Definition template_node (t v : list N) (ch : list raw_node) : raw_node :=
  RawNode (mkRawTag t (class_of (first_byte t)) Constructed (Normal v)) ch.
Lemma template_tree masks t x ch : type_of (first_byte t) = Constructed -> ~ masked masks (hex_bytes x) ->
  ber_block masks x ch \/ (~ exists objs, ber_objects (hex_bytes x) objs []) /\ ch = [] -> ber_tree masks (t, hex_bytes x) (template_node t (hex_bytes x) ch).
Proof.
  intros C M [(objs & O & R)|[N ->]].
  - now apply ber_tree_node with objs.
  - unfold template_node. rewrite <- C. apply ber_tree_leaf; [right; auto|]. auto.
Qed.
Lemma template_block masks op s t x ch : template_text masks op s t (hex_bytes x) -> hex_bytes x <> [] ->
  ber_block masks x ch \/ (~ exists objs, ber_objects (hex_bytes x) objs []) /\ ch = [] ->
  tlv_block masks op s None [template_node t (hex_bytes x) ch].
Proof.
  intros H V Q. remember (hex_bytes x) as v eqn:Ev. destruct H as [s t l v E Tt C L M|s t v A I C].
  - constructor. exists [(t, v)]. rewrite E. split; [now apply one_object|]. constructor; [|constructor]. subst v. now apply template_tree.
  - constructor. split; [assumption|]. eexists. split; [exact I|]. apply ing_nodes_take; [reflexivity| |constructor]. cbn [ie_tag ie_data]. destruct Q as [(objs & O & R)|[N ->]].
    + rewrite <- Ev in O. now apply ing_node_cons with objs.
    + unfold template_node. rewrite <- C. apply ing_node_leaf. eauto.
Qed.
Lemma template_constructed masks op s t v : template_text masks op s t v -> type_of (first_byte t) = Constructed.
Proof. now intros []. Qed.
Lemma ber_sheet masks sort x ls : sheet masks sort OpBer x ls -> exists ns ns', ber_block masks x ns
  /\ Forall (fun t => forall e, ~ tag_fails t e) (flat_map preorder ns) /\ (if sort then in_order ns ns' else ns' = ns) /\ ls = forest_lines ns' 0 true.
Proof.
  intros H. inversion H as [f q I E|n O D N|f ns ns' B N A]; subst.
  - exfalso. unfold byte_operations in I. cbn [In] in I. repeat (destruct I as [I|I]; [discriminate|]). destruct I.
  - discriminate.
  - inversion B; subst. exists ns, ns'. auto.
Qed.
Lemma some_lines x masks ns : ber_block masks x ns -> hex_bytes x <> [] -> ns <> [].
Proof. intros (objs & O & R) V ->. inversion R; subst. inversion O; subst. congruence. Qed.
Lemma in_order_single t c c' : in_order c c' -> in_order [RawNode t c] [RawNode t c'].
Proof. intros O. apply in_order_intro with [RawNode t c]; [reflexivity|repeat constructor|reflexivity|]. constructor; [assumption|constructor]. Qed.
Lemma in_order_some c c' : in_order c c' -> c <> [] -> c' <> [].
Proof. intros O N ->. inversion O as [? m ? P _ _ E]; subst. inversion E; subst. apply Permutation_sym, Permutation_nil in P. contradiction. Qed.

(** ** C94: data inside templates *)

(* What is inside a template is shown as it is alone, one step further in below the lines of
   the template itself. *)
Theorem C94_wrapped : forall masks sort op s t x ls, template_text masks op s t (hex_bytes x) -> hex_bytes x <> [] ->
  sheet masks sort OpBer x ls -> sheet masks sort op s (template_lines t (hex_bytes x) ls).
Proof.
  intros masks sort op s t x ls H V S. pose proof (template_constructed _ _ _ _ _ H) as C.
  destruct (ber_sheet _ _ _ _ S) as (ns & ns' & B & F & A & ->). pose proof (some_lines _ _ _ B V) as N.
  assert (N' : ns' <> []) by (destruct sort; [now apply (in_order_some ns)|now subst]).
  assert (E : template_lines t (hex_bytes x) (forest_lines ns' 0 true) = format_lines None ++ forest_lines [template_node t (hex_bytes x) ns'] 0 true).
  { cbn [format_lines app]. unfold forest_lines at 2. cbn [map separated]. unfold template_node. rewrite (constructed_lines t _ (hex_bytes x) ns' 0 C V).
    destruct ns'; [contradiction|]. reflexivity. }
  rewrite E. apply (sheet_block _ _ _ _ None [template_node t (hex_bytes x) ns]).
  - now apply template_block; [..|left].
  - cbn [flat_map]. rewrite app_nil_r. unfold template_node. cbn [preorder]. constructor; [|assumption]. intros e. now apply constructed_fine.
  - destruct sort; [now apply in_order_single|now subst].
Qed.
(* An object inside that cannot be shown is reported as it is alone. *)
Theorem C94_refused : forall p masks op s t x ns e, text64 p x -> template_text masks op s t (hex_bytes x) -> hex_bytes x <> [] ->
  ber_block masks x ns -> refused masks OpBer x e -> refused masks op s e.
Proof.
  intros p masks op s t x ns e T H V B R. pose proof (template_constructed _ _ _ _ _ H) as C.
  assert (X : exists before u after, flat_map preorder ns = before ++ u :: after /\ (forall y e', In y before -> ~ tag_fails y e') /\ tag_fails u e).
  { destruct (tlv_settles p masks OpBer x _ T eq_refl) as (Y & _ & Y3 & _). assert (K : tlv_block masks OpBer x None ns) by now constructor. apply Y in K.
    destruct (Y3 e R) as [Z|(f & ns' & Z & before & u & after & E & Q & U)]; rewrite K in Z; [discriminate Z|]. injection Z as _ <-. eauto 6. }
  destruct X as (before & u & after & E & Q & U).
  apply (refused_tag masks op s None [template_node t (hex_bytes x) ns] (mkRawTag t (class_of (first_byte t)) Constructed (Normal (hex_bytes x)) :: before) u after).
  - now apply template_block; [..|left].
  - cbn [flat_map]. rewrite app_nil_r. unfold template_node. cbn [preorder]. now rewrite E.
  - intros y e' [<-|I]; [now apply constructed_fine|now apply Q].
  - exact U.
Qed.
(* Anything else inside is shown as bytes only. *)
Theorem C94_opaque : forall masks sort op s t x, template_text masks op s t (hex_bytes x) -> hex_bytes x <> [] ->
  (forall ns, ~ ber_block masks x ns) -> sheet masks sort op s (own_lines 0 t (hex_bytes x)).
Proof.
  intros masks sort op s t x H V N. pose proof (template_constructed _ _ _ _ _ H) as C.
  assert (E : own_lines 0 t (hex_bytes x) = format_lines None ++ forest_lines [template_node t (hex_bytes x) []] 0 true).
  { cbn [format_lines app]. unfold forest_lines. cbn [map separated]. unfold template_node. rewrite (constructed_lines t _ (hex_bytes x) [] 0 C V). now rewrite app_nil_r. }
  rewrite E. apply (sheet_block _ _ _ _ None [template_node t (hex_bytes x) []]).
  - apply template_block; [assumption..|]. right. split; [|reflexivity]. destruct (objects_or_not masks x) as [[ns K]|K]; [now apply N in K|exact K].
  - cbn. constructor; [|constructor]. intros e. now apply constructed_fine.
  - destruct sort; [|reflexivity]. apply in_order_single. apply in_order_intro with []; [constructor|constructor|reflexivity|constructor].
Qed.

(** ** Many templates *)

Lemma below_forest a b : below (forest_lines a 0 true) (forest_lines b 0 true) = forest_lines (a ++ b) 0 true.
Proof. symmetry. apply forest_app. Qed.
Lemma level_sheet masks s ls pre post lpre lpost t l w : sheet masks false OpBer s ls -> sheet masks false OpBer pre lpre -> sheet masks false OpBer post lpost ->
  ber_tag t -> type_of (first_byte t) = Constructed -> ber_len l (len (hex_bytes s)) -> hex_bytes s <> [] -> ~ masked masks (hex_bytes s) ->
  hex_bytes w = hex_bytes pre ++ t ++ l ++ hex_bytes s ++ hex_bytes post ->
  sheet masks false OpBer w (below lpre (below (template_lines t (hex_bytes s) ls) lpost)).
Proof.
  intros S Sa Sb Tt C L V M E. destruct (ber_sheet _ _ _ _ S) as (ns & ? & B & F & -> & ->), (ber_sheet _ _ _ _ Sa) as (na & ? & Ba & Fa & -> & ->), (ber_sheet _ _ _ _ Sb) as (nb & ? & Bb & Fb & -> & ->).
  pose proof (some_lines _ _ _ B V) as N.
  assert (Et : template_lines t (hex_bytes s) (forest_lines ns 0 true) = forest_lines [template_node t (hex_bytes s) ns] 0 true).
  { unfold forest_lines at 2. cbn [map separated]. unfold template_node. rewrite (constructed_lines t _ (hex_bytes s) ns 0 C V). destruct ns; [contradiction|]. reflexivity. }
  rewrite Et, !below_forest. apply (sheet_block _ _ _ _ None (na ++ [template_node t (hex_bytes s) ns] ++ nb)); [|rewrite !flat_map_app, !Forall_app; repeat split; try assumption|reflexivity].
  - constructor. destruct Ba as (oa & Oa & Ra), Bb as (ob & Ob & Rb). exists (oa ++ [(t, hex_bytes s)] ++ ob). split.
    + rewrite E. apply objects_join; [assumption|]. replace (t ++ l ++ hex_bytes s ++ hex_bytes post) with ((t ++ l ++ hex_bytes s) ++ hex_bytes post) by now rewrite <- !app_assoc.
      apply objects_join; [now apply one_object|assumption].
    + apply trees_join; [assumption|]. apply trees_join; [|assumption]. constructor; [|constructor]. apply template_tree; auto.
  - cbn [flat_map]. rewrite app_nil_r. unfold template_node. cbn [preorder]. constructor; [|assumption]. intros e. now apply constructed_fine.
Qed.
Theorem C94_placed : forall masks x x' lx lx' ts w w' lw lw', sheet masks false OpBer x lx -> sheet masks false OpBer x' lx' ->
  around masks x x' lx lx' ts w w' lw lw' -> sheet masks false OpBer w lw /\ sheet masks false OpBer w' lw'.
Proof.
  intros masks x x' lx lx' ts w w' lw lw' S S' A. induction A as [|ts s s' ls ls' pre post lpre lpost t l l' w w' A [IH IH'] Sa Sb Tt C L L' V V' M M' E E']; [auto|].
  split; eapply level_sheet; eassumption.
Qed.
(* Changing [x] to [x'] changes its own lines, the own lines of the templates around it, and
   nothing else. *)
Lemma matching_app a : forall ts b b', matching ts b b' -> matching ts (a ++ b) (a ++ b').
Proof. induction a as [|l a IH]; intros ts b b' H; [exact H|]. cbn [app]. constructor. auto. Qed.
Lemma matching_end a : forall ts b b', matching ts b b' -> matching ts (b ++ a) (b' ++ a).
Proof.
  induction 1 as [|ts l b b' H IH|ts i t v v' b b' H IH]; cbn [app].
  - rewrite <- (app_nil_r a). apply matching_app. constructor.
  - now constructor.
  - rewrite <- !app_assoc. now constructor.
Qed.
Lemma own_moved i k t v : map (moved k) (own_lines i t v) = own_lines (i + k) t v.
Proof. unfold own_lines. cbn [map]. rewrite <- wide_dump_moved, (N.add_shuffle0 i 1 k). reflexivity. Qed.
Lemma matching_moved k ts b b' : matching ts b b' -> matching ts (map (moved k) b) (map (moved k) b').
Proof.
  induction 1 as [|ts l b b' H IH|ts i t v v' b b' H IH]; [constructor|now constructor|]. rewrite !map_app, !own_moved. now constructor.
Qed.
Lemma below_split a b : exists x y, forall c, c <> [] -> below a (below c b) = x ++ c ++ y.
Proof.
  exists (match a with [] => [] | _ => a ++ [blank] end), (match b with [] => [] | _ => blank :: b end). intros c Hc.
  destruct a as [|l a]; cbn [below]; destruct c as [|m c]; try contradiction; destruct b as [|n b]; cbn [below app]; rewrite ?app_nil_r, <- ?app_assoc; reflexivity.
Qed.
Theorem C94_local : forall masks x x' lx lx' ts w w' lw lw', around masks x x' lx lx' ts w w' lw lw' ->
  exists before before' after, lw = before ++ map (moved (len ts)) lx ++ after /\ lw' = before' ++ map (moved (len ts)) lx' ++ after /\ matching ts before before'.
Proof.
  intros masks x x' lx lx' ts w w' lw lw' A. induction A as [|ts s s' ls ls' pre post lpre lpost t l l' w w' A IH Sa Sb Tt C L L' V V' M M' E E'].
  - exists [], [], []. assert (Z : forall ls, map (moved (len (@nil (list N)))) ls = ls).
    { induction ls as [|[i [|sp l] st] ls IH]; [reflexivity|..]; cbn [map]; rewrite IH; [reflexivity|]. unfold moved. cbn. now rewrite N.add_0_r. }
    rewrite !Z, !app_nil_r. repeat split. constructor.
  - destruct IH as (b & b' & a & -> & -> & Mt). destruct (below_split lpre lpost) as (u & v & Hu).
    assert (Z : forall ls, map (moved 1) (map (moved (len ts)) ls) = map (moved (len (t :: ts))) ls).
    { intros ls. rewrite map_map. apply map_ext. intros y. rewrite moved_moved. f_equal. rewrite len_cons. lia. }
    exists (u ++ own_lines 0 t (hex_bytes s) ++ heading_row 0 (lit "Constructed Data Object's Child Tags:") :: map (moved 1) b),
      (u ++ own_lines 0 t (hex_bytes s') ++ heading_row 0 (lit "Constructed Data Object's Child Tags:") :: map (moved 1) b'), (map (moved 1) a ++ v).
    rewrite !Hu by (unfold template_lines, own_lines; discriminate). unfold template_lines. rewrite !map_app, !Z.
    split; [|split]; [rewrite <- !app_assoc; cbn [app]; rewrite <- !app_assoc; reflexivity..|].
    apply matching_app. constructor. constructor. now apply matching_moved.
Qed.
(* The same for the program. *)
Theorem C94_program : forall p e e' m m' st st' x x' lx lx' ts w w' lw lw', load_settings e m = Ok st -> load_settings e' m' = Ok st' ->
  set_masking st' = set_masking st -> set_sort st = false -> set_sort st' = false -> chosen m OpBer w -> chosen m' OpBer w' -> text64 p w -> text64 p w' ->
  sheet (set_masking st) false OpBer x lx -> sheet (set_masking st) false OpBer x' lx' -> around (set_masking st) x x' lx lx' ts w w' lw lw' ->
  fits p (deepest lw) -> fits p (deepest lw') -> exists before before' after, matching ts before before'
    /\ displays (run_main p e m) (before ++ map (moved (len ts)) lx ++ after) /\ displays (run_main p e' m') (before' ++ map (moved (len ts)) lx' ++ after).
Proof.
  intros p e e' m m' st st' x x' lx lx' ts w w' lw lw' L L' M O O' C C' T T' S S' A F F'.
  destruct (C94_placed _ _ _ _ _ _ _ _ _ _ S S' A) as [Sw Sw']. destruct (C94_local _ _ _ _ _ _ _ _ _ _ A) as (b & b' & a & E & E' & Mt).
  exists b, b', a. split; [assumption|]. rewrite <- E, <- E'. split.
  - apply (C73_shown p e m st OpBer w lw L C T); [now rewrite O|assumption].
  - apply (C73_shown p e' m' st' OpBer w' lw' L' C' T'); [now rewrite M, O'|assumption].
Qed.
(* Sorted, an object inside may move when it is changed, but what is inside a template stays
   below it (C94_wrapped); that malformed data inside a template is refused is false. *)
Theorem C94_malformed_refuted : exists s t x e ls, template_text [42] OpBer s t (hex_bytes x) /\ refused [42] OpBer x e /\ sheet [42] true OpBer s ls.
Proof.
  assert (T : text64 p64 (lit "9F")) by (split; vm_compute; reflexivity).
  exists (lit "70019F"), [0x70], (lit "9F"), NonCompliant. eexists.
  assert (H : template_text [42] OpBer (lit "70019F") [0x70] (hex_bytes (lit "9F"))).
  { apply (template_ber _ _ _ [1]); [reflexivity| |reflexivity| |intros [K _]; vm_compute in K; lia].
    - now apply ber_tag_short.
    - apply (ber_len_short 1). lia. }
  split; [exact H|]. split.
  - apply (proj1 (proj2 (tlv_settles p64 [42] OpBer _ _ T eq_refl))). vm_compute. reflexivity.
  - apply C94_opaque; [exact H|intros K; discriminate K|]. intros ns B. apply (ber_block_iff p64) in B; [|exact T]. vm_compute in B. discriminate B.
Qed.
Lemma sample_sheet s ns : text64 p64 s -> ber_parse p64 [42] (parse_hex_str s) = Ok ns ->
  forallb (fun t => negb (existsb (fun x => same_bytes x (rt_tag t)) ([0x8E] :: map fst fixed_lengths))) (flat_map preorder ns) = true ->
  sheet [42] false OpBer s (forest_lines ns 0 true).
Proof.
  intros T E F. apply (sheet_block _ _ _ _ None ns ns); [|apply Forall_forall; intros t I; apply no_failure; rewrite forallb_forall in F; now apply negb_true_iff, F|reflexivity].
  constructor. now apply (ber_block_iff p64).
Qed.
Example C94_example : exists lx lx' lw lw', sheet [42] false OpBer (lit "5A0131") lx /\ sheet [42] false OpBer (lit "5A023131") lx'
  /\ around [42] (lit "5A0131") (lit "5A023131") lx lx' [[0x70]; [0x77]] (lit "9A03210131 7009 9F370100 7703 5A0131 9F360102") (lit "9A03210131 700A 9F370100 7704 5A023131 9F360102") lw lw'
  /\ lx <> lx' /\ lw <> lw'.
Proof.
  assert (S : forall s ns, text64 p64 s -> ber_parse p64 [42] (parse_hex_str s) = Ok ns ->
    forallb (fun t => negb (existsb (fun x => same_bytes x (rt_tag t)) ([0x8E] :: map fst fixed_lengths))) (flat_map preorder ns) = true -> sheet [42] false OpBer s (forest_lines ns 0 true)) by exact sample_sheet.
  assert (N0 : sheet [42] false OpBer [] []). { apply (S [] []); [split; vm_compute; reflexivity|reflexivity|reflexivity]. }
  do 4 eexists. split; [apply S; [split; vm_compute; reflexivity|vm_compute; reflexivity|reflexivity]|].
  split; [apply S; [split; vm_compute; reflexivity|vm_compute; reflexivity|reflexivity]|].
  split; [eapply (around_template _ _ _ _ _ [[0x77]] (lit "9F370100 7703 5A0131") (lit "9F370100 7704 5A023131") _ _ (lit "9A03210131") (lit "9F360102") _ _ [0x70] [9] [10])|].
  - eapply (around_template _ _ _ _ _ [] (lit "5A0131") (lit "5A023131") _ _ (lit "9F370100") [] _ [] [0x77] [3] [4]); try reflexivity; try (intros K; discriminate K); try exact N0.
    + apply around_here.
    + apply S; [split; vm_compute; reflexivity|vm_compute; reflexivity|reflexivity].
    + now apply ber_tag_short.
    + now apply (ber_len_short 3).
    + now apply (ber_len_short 4).
    + intros [_ (m & _ & F)]. vm_compute in F. inversion F as [|? ? E1 F1]; subst. inversion F1 as [|? ? E2]. discriminate E2.
    + intros [_ (m & _ & F)]. vm_compute in F. inversion F as [|? ? E1 F1]; subst. inversion F1 as [|? ? E2]. discriminate E2.
  - apply S; [split; vm_compute; reflexivity|vm_compute; reflexivity|reflexivity].
  - apply S; [split; vm_compute; reflexivity|vm_compute; reflexivity|reflexivity].
  - now apply ber_tag_short.
  - reflexivity.
  - now apply (ber_len_short 9).
  - now apply (ber_len_short 10).
  - intros K; discriminate K.
  - intros K; discriminate K.
  - intros [_ (m & _ & F)]. vm_compute in F. inversion F as [|? ? E1 F1]; subst. inversion F1 as [|? ? E2]. discriminate E2.
  - intros [_ (m & _ & F)]. vm_compute in F. inversion F as [|? ? E1 F1]; subst. inversion F1 as [|? ? E2]. discriminate E2.
  - reflexivity.
  - reflexivity.
  - split; vm_compute; intros K; discriminate K.
Qed.
