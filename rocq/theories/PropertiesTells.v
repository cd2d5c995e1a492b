(** What the screen tells. *)

From Coq Require Import ZArith NArith List String Ascii Bool Lia ZifyN ZifyBool ZifyNat Permutation Sorting.
From Verif Require Import Base ModelUtil ModelEnums ModelBitflag ModelSchemas ModelTags ModelTlv ModelValues ModelProcess ModelDisplay
  SpecUtil SpecCodes SpecValues SpecTlv SpecIngenico SpecTags SpecProcess SpecDisplay
  ProofsUtil ProofsGrammar ProofsBer ProofsIngenico ProofsValues PropertiesValues
  PropertiesBer PropertiesIngenico ProofsProcess PropertiesProcess ProofsDisplay ProofsDiagram ProofsScreens ProofsLayout PropertiesDisplay
  SpecPictures ProofsPictures ModelMain SpecMain ProofsMain PropertiesMain ModelCli SpecCli ProofsCli PropertiesCli PropertiesPictures
  SpecReading PropertiesReading ModelTerminal SpecTerminal ProofsTerminal PropertiesTerminal SpecTells ProofsTells.
Import ListNotations.
Local Open Scope N_scope.

Lemma sheet_one_line p masks sort op s ls : text64 p s -> sheet masks sort op s ls -> Forall one_line (texts ls).
Proof.
  intros T H. assert (B := proj2 (C73_sheet p _ _ op s ls (deepest ls) T) (conj H eq_refl)). exact (between_one_line 0 _ ls (breakdown_between p _ _ op s ls _ T B)).
Qed.
Lemma sheets_texts p masks sort op s ls masks' sort' op' s' ls' : text64 p s -> text64 p s' -> sheet masks sort op s ls -> sheet masks' sort' op' s' ls' ->
  (characters ls = characters ls' <-> texts ls = texts ls').
Proof.
  intros T T' H H'. split; [|apply texts_characters]. apply characters_texts; [now apply (sheet_one_line p masks sort op s)|now apply (sheet_one_line p masks' sort' op' s')].
Qed.
Lemma sheet_of_value masks sort op s ls f : In (op, f) byte_operations -> sheet masks sort op s ls -> exists q, f (hex_bytes s) = Some q /\ ls = q 0 true.
Proof.
  intros I H. inversion H as [f' q I' E|n O D B|g ns ns' B N A]; subst.
  - exists q. split; [|reflexivity]. rewrite <- E. f_equal. unfold byte_operations in *. cbn [In] in I, I'.
    repeat (destruct I as [I|I]; [injection I as <- <-; repeat (destruct I' as [I'|I']; [try discriminate I'; now injection I' as <-|]); destruct I'|]). destruct I.
  - exfalso. unfold byte_operations in I. cbn [In] in I. repeat (destruct I as [I|I]; [discriminate|]). destruct I.
  - exfalso. unfold byte_operations in I. cbn [In] in I. inversion B; subst; repeat (destruct I as [I|I]; [discriminate|]); destruct I.
Qed.

(** C82: the screen tells all. *)

(* For the operations on bytes exactly [told] can be read off the screen. *)
Theorem C82_values : forall p masks sort masks' sort' op f s s' ls ls', In (op, f) told -> text64 p s -> text64 p s' ->
  sheet masks sort op s ls -> sheet masks' sort' op s' ls' ->
  (characters ls = characters ls' <-> f (hex_bytes s) = f (hex_bytes s')).
Proof.
  intros p masks sort masks' sort' op f s s' ls ls' I T T' H H'. rewrite (sheets_texts p _ _ _ _ _ _ _ _ _ _ T T' H H').
  assert (K : exists g, In (op, g) byte_operations).
  { unfold told in I. cbn [In] in I. repeat (destruct I as [I|I]; [injection I as <- _; eexists; cbn; eauto 8|]). destruct I. }
  destruct K as [g G]. destruct (sheet_of_value _ _ _ _ _ _ G H) as (q & Q & ->), (sheet_of_value _ _ _ _ _ _ G H') as (q' & Q' & ->).
  apply (all_told op g f G I); auto using hex_bytes_ok.
Qed.
(* A service code tells its number. *)
Theorem C82_service_code : forall p masks sort masks' sort' s s' n n' ls ls', text64 p s -> text64 p s' -> denotes_number s n -> denotes_number s' n' ->
  sheet masks sort OpServiceCode s ls -> sheet masks' sort' OpServiceCode s' ls' -> (characters ls = characters ls' <-> n = n').
Proof.
  intros p masks sort masks' sort' s s' n n' ls ls' T T' D D' H H'. rewrite (sheets_texts p _ _ _ _ _ _ _ _ _ _ T T' H H').
  assert (X : forall masks sort s n ls, denotes_number s n -> sheet masks sort OpServiceCode s ls -> ls = service_picture n 0 true).
  { clear. intros masks sort s n ls D H. inversion H as [f q I E|m O D' B|g ns ns' B N A]; subst.
    - unfold byte_operations in I. cbn [In] in I. repeat (destruct I as [I|I]; [discriminate|]). destruct I.
    - now rewrite (denotes_det s n m D D').
    - inversion B. }
  rewrite (X _ _ _ _ _ D H), (X _ _ _ _ _ D' H'). apply service_told.
Qed.
Lemma tlv_block_det p masks op s f ns f' ns' : text64 p s -> tlv_block masks op s f ns -> tlv_block masks op s f' ns' -> f = f' /\ ns = ns'.
Proof.
  intros T B B'. destruct (tlv_op _ _ _ _ _ B) as [_ L]. destruct (L p) as [x X]. destruct (tlv_settles p masks op s x T X) as (Y & _).
  apply Y in B, B'. rewrite B in B'. injection B' as <- <-. auto.
Qed.
Lemma sheet_of_block p masks sort op s f ns ls : text64 p s -> tlv_block masks op s f ns -> sheet masks sort op s ls ->
  exists m, ls = format_lines f ++ forest_lines m 0 true /\ (if sort then in_order ns m else m = ns).
Proof.
  intros T B H. inversion H as [g q I E|n O D N|f' ns0 m B' N A]; subst.
  - exfalso. unfold byte_operations in I. cbn [In] in I. inversion B; subst; repeat (destruct I as [I|I]; [discriminate|]); destruct I.
  - inversion B.
  - destruct (tlv_block_det p _ _ _ _ _ _ _ T B B') as [<- <-]. eauto.
Qed.
Lemma forest_starts m : texts (forest_lines m 0 true) = [] \/ exists x r, texts (forest_lines m 0 true) = (84 :: 97 :: x) :: r.
Proof.
  destruct m as [|[t c] m]; [now left|right]. unfold forest_lines. cbn [map]. rewrite separated_cons. cbn [tree_lines]. unfold tag_lines. cbn [app texts map]. rewrite tag_row_text.
  eexists _, _. reflexivity.
Qed.
Lemma format_texts f f' m m' : texts (format_lines f ++ forest_lines m 0 true) = texts (format_lines f' ++ forest_lines m' 0 true) ->
  f = f' /\ texts (forest_lines m 0 true) = texts (forest_lines m' 0 true).
Proof.
  rewrite !texts_app. intros E. destruct f as [[]|], f' as [[]|]; cbn [format_lines texts map app] in E; try fold (texts (forest_lines m 0 true)) in E; try fold (texts (forest_lines m' 0 true)) in E.
  - split; [reflexivity|]. now injection E.
  - discriminate E.
  - exfalso. destruct (forest_starts m') as [X|(x & r & X)]; rewrite X in E; discriminate E.
  - discriminate E.
  - split; [reflexivity|]. now injection E.
  - exfalso. destruct (forest_starts m') as [X|(x & r & X)]; rewrite X in E; discriminate E.
  - exfalso. destruct (forest_starts m) as [X|(x & r & X)]; rewrite X in E; discriminate E.
  - exfalso. destruct (forest_starts m) as [X|(x & r & X)]; rewrite X in E; discriminate E.
  - auto.
Qed.
(* For TLV data everything that is not masked: format, tags, values and their order. *)
Theorem C82_blocks : forall p masks sort op op' s s' f f' ns ns' ls ls', text64 p s -> text64 p s' -> tlv_block masks op s f ns -> tlv_block masks op' s' f' ns' ->
  sheet masks sort op s ls -> sheet masks sort op' s' ls' ->
  (characters ls = characters ls' <-> f = f' /\ if sort then exists m, in_order ns m /\ in_order ns' m else ns = ns').
Proof.
  intros p masks sort op op' s s' f f' ns ns' ls ls' T T' B B' H H'. rewrite (sheets_texts p _ _ _ _ _ _ _ _ _ _ T T' H H').
  pose proof (block_made p masks op s f ns T B) as M. pose proof (block_made p masks op' s' f' ns' T' B') as M'.
  destruct (sheet_of_block p _ _ _ _ _ _ _ T B H) as (m & -> & A), (sheet_of_block p _ _ _ _ _ _ _ T' B' H') as (m' & -> & A'). split.
  - intros E. apply format_texts in E. destruct E as [<- E]. split; [reflexivity|]. destruct sort.
    + exists m. split; [assumption|]. inversion A as [? l ? P S F EO]; subst. inversion A' as [? l' ? P' S' F' EO']; subst.
      destruct (forest_inj masks node_in_order node_in_order_det ltac:(intros a b (t & c & c' & -> & -> & _); reflexivity) l m (each_forall _ _ EO) l' m' (each_forall _ _ EO')) as [_ ->].
      * now apply (Permutation_Forall P).
      * now apply (Permutation_Forall P').
      * exact E.
      * exact A'.
    + subst m m'. assert (R : forall l : list raw_node, Forall2 eq l l) by (intros l; induction l; constructor; auto).
      now destruct (forest_inj masks eq ltac:(intros; congruence) ltac:(intros; congruence) ns ns (R ns) ns' ns' (R ns') M M' E).
  - intros [<- E]. destruct sort.
    + destruct E as (k & K & K'). now rewrite (in_order_det _ _ _ A K), (in_order_det _ _ _ A' K').
    + now subst.
Qed.
(* In sorted order the same objects may have come in another order, but they are the same. *)
Theorem C82_sorted_same : forall p masks sort op op' s s' f f' ns ns' ls ls', text64 p s -> text64 p s' -> tlv_block masks op s f ns -> tlv_block masks op' s' f' ns' ->
  sheet masks sort op s ls -> sheet masks sort op' s' ls' -> characters ls = characters ls' -> Permutation ns ns'.
Proof.
  intros p masks sort op op' s s' f f' ns ns' ls ls' T T' B B' H H' C. rewrite (sheets_texts p _ _ _ _ _ _ _ _ _ _ T T' H H') in C.
  pose proof (block_made p masks op s f ns T B) as M. pose proof (block_made p masks op' s' f' ns' T' B') as M'.
  destruct (sheet_of_block p _ _ _ _ _ _ _ T B H) as (m & -> & A), (sheet_of_block p _ _ _ _ _ _ _ T' B' H') as (m' & -> & A').
  apply format_texts in C. destruct C as [_ E]. destruct sort.
  - inversion A as [? l ? P S F EO]; subst. inversion A' as [? l' ? P' S' F' EO']; subst.
    destruct (forest_inj masks node_in_order node_in_order_det ltac:(intros a b (t & c & c' & -> & -> & _); reflexivity) l m (each_forall _ _ EO) l' m' (each_forall _ _ EO')) as [-> _].
    + now apply (Permutation_Forall P).
    + now apply (Permutation_Forall P').
    + exact E.
    + now transitivity l'.
  - subst m m'. assert (R : forall l : list raw_node, Forall2 eq l l) by (intros l; induction l; constructor; auto).
    destruct (forest_inj masks eq ltac:(intros; congruence) ltac:(intros; congruence) ns ns (R ns) ns' ns' (R ns') M M' E) as [-> _]. reflexivity.
Qed.
(* Without masking and sorting the screen tells every object of BER-TLV data. *)
Lemma trees_objects : forall os ns, ber_trees [] os ns -> map (fun n => (rt_tag (node_tag n), rt_data (node_tag n))) ns = map (fun o => (fst o, Normal (snd o))) os.
Proof.
  induction os as [|[t v] os IH]; intros ns H; inversion H as [|? ? ? ? H0 H1]; subst; [reflexivity|]. cbn [map fst snd]. f_equal; [|now apply IH].
  inversion H0 as [? ? d R ?|]; subst; [|reflexivity]. destruct R as [[(_ & m & [] & _) _]|[_ ->]]. reflexivity.
Qed.
Theorem C82_objects : forall p s s' objs objs' ls ls', text64 p s -> text64 p s' -> ber_objects (hex_bytes s) objs [] -> ber_objects (hex_bytes s') objs' [] ->
  sheet [] false OpBer s ls -> sheet [] false OpBer s' ls' -> (characters ls = characters ls' <-> objs = objs').
Proof.
  intros p s s' objs objs' ls ls' T T' O O' H H'.
  assert (X : forall s ls objs, sheet [] false OpBer s ls -> ber_objects (hex_bytes s) objs [] -> exists ns, ber_trees [] objs ns /\ tlv_block [] OpBer s None ns).
  { clear. intros s ls objs H O. inversion H as [g q I E|n X D N|f' ns0 m B N A]; subst.
    - exfalso. unfold byte_operations in I. cbn [In] in I. repeat (destruct I as [I|I]; [discriminate|]); destruct I.
    - discriminate.
    - inversion B as [? ? BB| | |]; subst. exists ns0. split; [|assumption]. destruct BB as (o & Oo & TT). now rewrite (ber_objects_det _ _ _ O Oo). }
  destruct (X s ls objs H O) as (ns & N & B), (X s' ls' objs' H' O') as (ns' & N' & B').
  rewrite (C82_blocks p [] false OpBer OpBer s s' None None ns ns' ls ls' T T' B B' H H'). split.
  - intros [_ <-]. apply trees_objects in N, N'. rewrite N in N'. clear -N'. revert objs' N'.
    induction objs as [|[t v] os IH]; intros [|[t' v'] os'] E; try discriminate E; [reflexivity|]. cbn [map fst snd] in E. injection E as -> -> E. f_equal. now apply IH.
  - intros <-. split; [reflexivity|]. now apply (ber_trees_det [] objs).
Qed.
(* The same of the running program: what it writes to the screen, without the colours. *)
Lemma displays_characters o ls : displays o ls -> text_of (o_stdout o) = characters ls.
Proof.
  intros (_ & _ & _ & S & _). unfold text_of. rewrite S. clear. unfold characters. induction ls as [|l ls IH]; [reflexivity|]. cbn [render flat_map]. rewrite map_app. f_equal; [|exact IH].
  unfold render_line, line_text. rewrite !map_app. cbn [map snd]. unfold ink at 1. rewrite map_map, map_id. rewrite <- app_assoc. f_equal. f_equal.
  induction (l_spans l) as [|sp l' IH']; [reflexivity|]. cbn [flat_map]. rewrite map_app, IH'. unfold ink. now rewrite map_map, map_id.
Qed.
Theorem C82_written : forall p e m st op s ls, load_settings e m = Ok st -> chosen m op s -> text64 p s ->
  sheet (set_masking st) (set_sort st) op s ls -> fits p (deepest ls) -> text_of (o_stdout (run_main p e m)) = characters ls.
Proof. intros p e m st op s ls L C T H F. apply displays_characters. now apply (C73_shown p e m st op s ls). Qed.
Theorem C82_program : forall p e m st e' m' st' op f s s' ls ls', In (op, f) told ->
  load_settings e m = Ok st -> chosen m op s -> text64 p s -> sheet (set_masking st) (set_sort st) op s ls ->
  load_settings e' m' = Ok st' -> chosen m' op s' -> text64 p s' -> sheet (set_masking st') (set_sort st') op s' ls' ->
  (text_of (o_stdout (run_main p e m)) = text_of (o_stdout (run_main p e' m')) <-> f (hex_bytes s) = f (hex_bytes s')).
Proof.
  intros p e m st e' m' st' op f s s' ls ls' I L C T H L' C' T' H'.
  assert (G : exists g, In (op, g) byte_operations).
  { unfold told in I. cbn [In] in I. repeat (destruct I as [I|I]; [injection I as <- _; eexists; cbn; eauto 8|]). destruct I. }
  destruct G as [g G].
  assert (F : forall masks sort s ls, text64 p s -> sheet masks sort op s ls -> fits p (deepest ls)).
  { clear -G. intros masks sort s ls T H. destruct (C73_sheet p masks sort op s ls (deepest ls) T) as [_ X]. specialize (X (conj H eq_refl)).
    inversion X as [v M EL EK|f ns r r' B P A EL EK].
    - pose proof (value_fits0 p v) as Z. rewrite N.add_0_l in Z. exact Z.
    - exfalso. unfold byte_operations in G. cbn [In] in G. inversion B; subst; repeat (destruct G as [G|G]; [discriminate|]); destruct G. }
  rewrite (C82_written p e m st op s ls L C T H (F _ _ _ _ T H)), (C82_written p e' m' st' op s' ls' L' C' T' H' (F _ _ _ _ T' H')).
  now apply (C82_values p (set_masking st) (set_sort st) (set_masking st') (set_sort st') op f s s' ls ls').
Qed.
Lemma succeeded p e m st op s : load_settings e m = Ok st -> chosen m op s -> text64 p s -> o_panic (run_main p e m) = false -> o_stderr (run_main p e m) = [] ->
  exists ls, sheet (set_masking st) (set_sort st) op s ls /\ text_of (o_stdout (run_main p e m)) = characters ls.
Proof.
  intros L C T P E. destruct (C73_total p (set_masking st) (set_sort st) op s T) as [(ls & H & _)|(er & R & _)].
  - exists ls. split; [assumption|]. apply (C82_written p e m st op s ls L C T H). intros O. destruct (N.lt_ge_cases (deepest ls) 256) as [X|X]; [assumption|].
    destruct (C73_overflow p e m st op s ls L C T H) as [_ Y]. rewrite Y in P by auto. discriminate.
  - destruct (C61_refused p e m st op s er L C T R) as (_ & _ & _ & X). rewrite X in E. symmetry in E. now apply app_cons_not_nil in E.
Qed.
Theorem C82_program_objects : forall p e m st e' m' st' s s' objs objs',
  load_settings e m = Ok st -> set_masking st = [] -> set_sort st = false -> chosen m OpBer s -> text64 p s ->
  load_settings e' m' = Ok st' -> set_masking st' = [] -> set_sort st' = false -> chosen m' OpBer s' -> text64 p s' ->
  ber_objects (hex_bytes s) objs [] -> ber_objects (hex_bytes s') objs' [] ->
  o_panic (run_main p e m) = false -> o_stderr (run_main p e m) = [] -> o_panic (run_main p e' m') = false -> o_stderr (run_main p e' m') = [] ->
  (text_of (o_stdout (run_main p e m)) = text_of (o_stdout (run_main p e' m')) <-> objs = objs').
Proof.
  intros p e m st e' m' st' s s' objs objs' L M S C T L' M' S' C' T' O O' P E P' E'.
  destruct (succeeded p e m st OpBer s L C T P E) as (ls & H & ->), (succeeded p e' m' st' OpBer s' L' C' T' P' E') as (ls' & H' & ->).
  rewrite M, S in H. rewrite M', S' in H'. now apply (C82_objects p s s').
Qed.
(* Not everything: codes the program does not know look alike, and so do the reserved bits. *)
Theorem C82_everything_refuted : exists s s' ls, hex_bytes s <> hex_bytes s' /\ text64 p64 s /\ text64 p64 s'
  /\ sheet [] true OpCvmResults s ls /\ sheet [] true OpCvmResults s' ls.
Proof.
  exists (lit "0A0002"), (lit "0B0002"). eexists. split; [vm_compute; discriminate|]. split; [split; reflexivity|]. split; [split; reflexivity|].
  split; (eapply (sheet_value _ _ OpCvmResults); [right; right; right; right; left; reflexivity|]); vm_compute; reflexivity.
Qed.
Theorem C82_reserved_refuted : exists s s' ls, hex_bytes s <> hex_bytes s' /\ text64 p64 s /\ text64 p64 s'
  /\ sheet [] true OpTsi s ls /\ sheet [] true OpTsi s' ls.
Proof.
  exists (lit "F800"), (lit "F8FF"). eexists. split; [vm_compute; discriminate|]. split; [split; reflexivity|]. split; [split; reflexivity|].
  split; (eapply (sheet_value _ _ OpTsi); [right; right; right; left; reflexivity|]); vm_compute; reflexivity.
Qed.
(* Two ways of writing one object, and another object. *)
Example C82_example : exists ls ls' ls'', sheet [] false OpBer (lit "5A0112") ls /\ sheet [] false OpBer (lit "5A 810112") ls' /\ sheet [] false OpBer (lit "5A0113") ls''
  /\ characters ls = characters ls' /\ characters ls <> characters ls''.
Proof.
  assert (T1 : text64 p64 (lit "5A0112")) by (split; reflexivity). assert (T2 : text64 p64 (lit "5A 810112")) by (split; reflexivity). assert (T3 : text64 p64 (lit "5A0113")) by (split; reflexivity).
  assert (F : forall c ty d e, ~ tag_fails (mkRawTag [0x5A] c ty d) e).
  { intros c ty d e (v & _ & R). cbn in R. inversion R as [t' n d' In0 L| | | | | | |]; subst. cbn in In0. intuition discriminate. }
  assert (X : forall s v l, text64 p64 s -> hex_bytes s = [0x5A] ++ l ++ [v] ++ [] -> ber_len l 1 -> ber_objects (hex_bytes s) [([0x5A], [v])] [] /\ exists ls, sheet [] false OpBer s ls).
  { intros s v l T E L. assert (O : ber_objects (hex_bytes s) [([0x5A], [v])] []).
    { rewrite E. econstructor; [|constructor]. apply ber_object_intro; [apply ber_tag_short; discriminate|exact L|discriminate]. }
    split; [exact O|]. eexists. eapply (sheet_block _ _ OpBer s None); [apply block_ber; eexists; split; [exact O|]; constructor; [|constructor];
      apply (ber_tree_leaf [] [0x5A] [v] (Normal [v])); [right; split; [intros [Z _]; cbn in Z; lia|reflexivity]|left; reflexivity]|cbn; constructor; [apply F|constructor]|reflexivity]. }
  destruct (X _ 0x12 [1] T1 ltac:(vm_compute; reflexivity) ltac:(now apply ber_len_short)) as [O1 (ls & H1)].
  destruct (X _ 0x12 [0x81; 1] T2 ltac:(vm_compute; reflexivity) ltac:(apply (ber_len_long [1]); cbn; lia)) as [O2 (ls' & H2)].
  destruct (X _ 0x13 [1] T3 ltac:(vm_compute; reflexivity) ltac:(now apply ber_len_short)) as [O3 (ls'' & H3)].
  exists ls, ls', ls''. repeat (split; [assumption|]). split.
  - now apply (C82_objects p64 _ _ _ _ _ _ T1 T2 O1 O2 H1 H2).
  - intros E. apply (C82_objects p64 _ _ _ _ _ _ T1 T3 O1 O3 H1 H3) in E. discriminate.
Qed.
(* Two status words that differ in a bit in use. *)
Example C82_values_example : exists ls ls', sheet [] true OpTsi (lit "F800") ls /\ sheet [42] false OpTsi (lit "7800") ls' /\ characters ls <> characters ls'.
Proof.
  assert (X : forall masks sort s, len (hex_bytes s) = 2 -> exists ls, sheet masks sort OpTsi s ls).
  { intros masks sort s E. eexists. apply (sheet_value _ _ _ _ (bits_picture 2 tsi_bits tsi_used)); [cbn; tauto|]. unfold bits_picture. rewrite E. reflexivity. }
  destruct (X [] true (lit "F800") ltac:(vm_compute; reflexivity)) as [ls H], (X [42] false (lit "7800") ltac:(vm_compute; reflexivity)) as [ls' H']. exists ls, ls'. repeat (split; [assumption|]).
  intros E. apply (C82_values p64 [] true [42] false OpTsi (fun d => map Some (keep_bits d tsi_used)) (lit "F800") (lit "7800") ls ls' ltac:(cbn; tauto) ltac:(split; reflexivity) ltac:(split; reflexivity) H H') in E.
  vm_compute in E. discriminate.
Qed.
