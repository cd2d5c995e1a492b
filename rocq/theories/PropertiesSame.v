(** The same value is shown in the same way wherever it occurs. *)

From Coq Require Import ZArith NArith List String Ascii Bool Lia ZifyN ZifyBool ZifyNat Permutation Sorting.
From Verif Require Import Base ModelUtil ModelEnums ModelBitflag ModelSchemas ModelTags ModelTlv ModelValues ModelProcess ModelDisplay
  SpecUtil SpecCodes SpecValues SpecTlv SpecIngenico SpecTags SpecProcess SpecDisplay
  ProofsUtil ProofsGrammar ProofsBer ProofsIngenico ProofsValues PropertiesValues
  PropertiesBer PropertiesIngenico ProofsProcess PropertiesProcess ProofsDisplay ProofsDiagram ProofsScreens ProofsLayout PropertiesDisplay
  SpecPictures ProofsPictures ModelMain SpecMain ProofsMain PropertiesMain ModelCli SpecCli ProofsCli PropertiesCli PropertiesPictures
  SpecReading PropertiesReading SpecTells ProofsTells PropertiesTells SpecSame.
Import ListNotations.
Local Open Scope N_scope.

(** ** Moving lines *)

Lemma some_inj {A} (a b : A) : Some a = Some b -> a = b.
Proof. congruence. Qed.
Lemma moved_row k i sp l : moved k (row i (sp :: l)) = row (i + k) (sp :: l).
Proof. reflexivity. Qed.
Lemma moved_moved a b l : moved b (moved a l) = moved (a + b) l.
Proof. destruct l as [t [|sp l] e]; [reflexivity|]. unfold moved. cbn [l_spans l_tabs l_end]. now rewrite N.add_assoc. Qed.
Lemma diagram_moved n raw ranges i k show : diagram n raw ranges (i + k) show = map (moved k) (diagram n raw ranges i show).
Proof.
  unfold diagram. cbn [map]. f_equal. rewrite map_app. f_equal; [now destruct (existsb _ ranges)|]. rewrite map_map. apply map_ext. reflexivity.
Qed.
Lemma hex_dump_moved d i k : hex_dump (i + k) d = map (moved k) (hex_dump i d).
Proof. unfold hex_dump. rewrite map_map. apply map_ext. reflexivity. Qed.
Lemma wide_dump_moved d i k : wide_dump (i + k) d = map (moved k) (wide_dump i d).
Proof. unfold wide_dump. rewrite map_map. apply map_ext. reflexivity. Qed.
Definition movable (q : picture) : Prop := forall i k show, q (i + k) show = map (moved k) (q i show).
Lemma bits_movable n t used d q : bits_picture n t used d = Some q -> movable q.
Proof. unfold bits_picture. destruct (_ && _); [|discriminate]. intros E. apply some_inj in E. subst q. intros i k show. apply diagram_moved. Qed.
Lemma rules_moved : forall d i k j, rules_picture (i + k) j d = map (moved k) (rules_picture i j d).
Proof.
  fix IH 1. intros [|a [|b t]] i k j; [reflexivity..|]. cbn [rules_picture map]. rewrite <- IH. unfold bold_row, titled, row, moved. cbn [l_spans l_tabs l_end].
  rewrite <- !N.add_assoc, (N.add_comm k 1). reflexivity.
Qed.
Lemma cvm_list_movable d q : cvm_list_picture d = Some q -> movable q.
Proof.
  unfold cvm_list_picture. destruct (_ && _); [|discriminate]. intros E. apply some_inj in E. subst q. intros i k show. rewrite map_app. cbn [map]. rewrite <- rules_moved. f_equal. now destruct (_ && _).
Qed.
Lemma cvm_results_movable d q : cvm_results_picture d = Some q -> movable q.
Proof.
  unfold cvm_results_picture. destruct d as [|a [|b [|c [|? ?]]]]; try discriminate. destruct (find_code _ c); [|discriminate]. intros E. apply some_inj in E. subst q. intros i k show. apply diagram_moved.
Qed.
Lemma iad_movable d q : iad_picture d = Some q -> movable q.
Proof.
  unfold iad_picture. destruct (_ && _); [|discriminate]. intros E. apply some_inj in E. subst q. intros i k show. repeat (cbn [map]; rewrite ?map_app).
  rewrite <- !diagram_moved, <- !hex_dump_moved, !(N.add_shuffle0 i k 1). reflexivity.
Qed.
Lemma action_movable x d q : action_picture x d = Some q -> movable q.
Proof.
  unfold action_picture. destruct (bits_picture _ _ _ d) as [q0|] eqn:B; [|discriminate]. intros E. apply some_inj in E. subst q. intros i k show. cbn [map]. rewrite <- (bits_movable _ _ _ _ _ B). reflexivity.
Qed.
Lemma code_movable A (table : list (N * A * string)) d q : code_picture table d = Some q -> movable q.
Proof. unfold code_picture. destruct d as [|b [|? ?]]; try discriminate. destruct (find_code _ b); [|discriminate]. intros E. apply some_inj in E. subst q. intros i k show. reflexivity. Qed.
Lemma response_movable d q : response_picture d = Some q -> movable q.
Proof. unfold response_picture. destruct (find _ _); [|discriminate]. intros E. apply some_inj in E. subst q. intros i k show. reflexivity. Qed.
Lemma service_movable n : movable (service_picture n).
Proof. intros i k show. reflexivity. Qed.
Lemma picture_movable t d q : picture_of t d = Some q -> movable q.
Proof.
  unfold picture_of. destruct (SpecPictures.lookup pictures t) as [f|] eqn:L; [|discriminate]. unfold SpecPictures.lookup in L. destruct (find _ pictures) as [[t' g]|] eqn:F; [|discriminate]. injection L as <-.
  apply find_some in F. destruct F as [F _]. unfold pictures in F. cbn [In] in F.
  repeat (destruct F as [F|F]; [injection F as <- <-; cbn [snd];
    first [apply bits_movable|apply cvm_list_movable|apply cvm_results_movable|apply iad_movable|apply action_movable|apply code_movable|apply response_movable|idtac]|]); [|destruct F].
  unfold service_data_picture. destruct d as [|a [|b [|? ?]]]; try discriminate. destruct (_ && _); [|discriminate]. intros E. apply some_inj in E. subst q. apply service_movable.
Qed.
Lemma separated_moved k : forall l, map (moved k) (separated l) = separated (map (map (moved k)) l).
Proof. induction l as [|x [|y l] IH]; [reflexivity..|]. cbn [map] in *. change (separated (x :: y :: l)) with (x ++ blank :: separated (y :: l)). rewrite map_app. cbn [map]. rewrite IH. reflexivity. Qed.
Lemma tag_lines_moved t i k show : tag_lines t (i + k) show = map (moved k) (tag_lines t i show).
Proof.
  unfold tag_lines. cbn [map]. rewrite map_app. f_equal. f_equal.
  - unfold data_lines. destruct (rt_data t) as [[|a l]|]; [reflexivity| |reflexivity]. cbn [map]. rewrite <- wide_dump_moved, (N.add_shuffle0 i 1 k). reflexivity.
  - unfold meaning_lines. destruct (rt_data t) as [d|]; [|reflexivity]. destruct (picture_of _ d) as [q|] eqn:Q; [|reflexivity]. cbn [map]. rewrite <- (picture_movable _ _ _ Q), (N.add_shuffle0 i 1 k). reflexivity.
Qed.
Fixpoint tree_lines_moved show n {struct n} : forall i k, tree_lines show n (i + k) = map (moved k) (tree_lines show n i).
Proof.
  destruct n as [t c]. intros i k. cbn [tree_lines]. rewrite map_app, <- tag_lines_moved. f_equal. destruct c as [|n c]; [reflexivity|]. cbn [map]. f_equal.
  rewrite (N.add_shuffle0 i k 1). rewrite separated_moved. f_equal. cbn [map]. f_equal; [apply tree_lines_moved|].
  induction c as [|m c IH]; [reflexivity|]. cbn [map]. f_equal; [apply tree_lines_moved|exact IH].
Qed.
Lemma forest_lines_moved ns i k show : forest_lines ns (i + k) show = map (moved k) (forest_lines ns i show).
Proof. unfold forest_lines. rewrite separated_moved, map_map. f_equal. apply map_ext. intros n. apply tree_lines_moved. Qed.

(** ** Objects inside a block *)

Lemma occurs_shown n ns : occurs n ns -> forall ns', in_order ns ns' -> exists n', occurs n' ns' /\ node_in_order n n'.
Proof.
  intros O. induction O as [ns H|m ns H O IH]; intros ns' A; inversion A as [? l ? P S F EO]; subst; apply (Permutation_in _ P) in H.
  - apply each_forall in EO. clear -EO H. induction EO as [|a b l l' R EO IH]; [destruct H|]. destruct H as [->|H].
    + exists b. split; [constructor; now left|assumption].
    + destruct (IH H) as (n' & O & R'). exists n'. split; [|assumption]. inversion O as [? I|m ? I O']; subst; [constructor; now right|apply (occurs_below _ m); [now right|assumption]].
  - apply each_forall in EO. clear -EO H IH. induction EO as [|a b l l' R EO IH']; [destruct H|]. destruct H as [->|H].
    + destruct R as (t & c & c' & -> & -> & I). destruct (IH c' I) as (n' & O & R'). exists n'. split; [|assumption]. apply (occurs_below _ (RawNode t c')); [now left|assumption].
    + destruct (IH' H) as (n' & O & R'). exists n'. split; [|assumption]. inversion O as [? I|m' ? I O']; subst; [constructor; now right|apply (occurs_below _ m'); [now right|assumption]].
Qed.
Lemma in_lines n ns : In n ns -> forall i show, exists before after, forest_lines ns i show = before ++ tree_lines show n i ++ after.
Proof.
  induction ns as [|m ns IH]; [intros []|]. intros H i show. unfold forest_lines in *. cbn [map]. rewrite separated_cons. destruct H as [->|H].
  - exists []. eexists. reflexivity.
  - destruct ns as [|m' ns]; [destruct H|]. destruct (IH H i show) as (b & a & E). cbn [map] in *. rewrite E. exists (tree_lines show m i ++ blank :: b), a. rewrite <- app_assoc. reflexivity.
Qed.
Lemma occurs_lines n ns : occurs n ns -> forall i show, exists j before after, forest_lines ns i show = before ++ tree_lines show n j ++ after.
Proof.
  intros O. induction O as [ns H|m ns H O IH]; intros i show.
  - exists i. now apply in_lines.
  - destruct (in_lines m ns H i show) as (b & a & E), m as [t c], (IH (i + 1) show) as (j & b' & a' & E'). cbn [node_children] in *. rewrite E. cbn [tree_lines].
    destruct c as [|n0 c]; [inversion O as [? I|m ? I ?]; inversion I|]. unfold forest_lines in E'. rewrite E'. exists j, (b ++ tag_lines t i show ++ heading_row i (lit "Constructed Data Object's Child Tags:") :: b'), (a' ++ a).
    rewrite <- !app_assoc. cbn [app]. rewrite <- !app_assoc. reflexivity.
Qed.
Lemma occurs_preorder n ns : occurs n ns -> incl (preorder n) (flat_map preorder ns).
Proof.
  intros O. induction O as [ns H|m ns H O IH]; intros t I; apply in_flat_map.
  - eauto.
  - exists m. split; [assumption|]. destruct m as [t' c]. cbn [preorder node_children] in *. right. now apply IH.
Qed.
Lemma occurs_made masks n ns : occurs n ns -> Forall (fun n => exists t d, ing_node masks t d n) ns -> exists t d, ing_node masks t d n.
Proof.
  intros O. induction O as [ns H|m ns H O IH]; intros F.
  - rewrite Forall_forall in F. auto.
  - rewrite Forall_forall in F. destruct (F m H) as (t & d & I). apply IH. inversion I; subst; cbn [node_children]; [constructor|]. eapply ber_trees_made; eassumption.
Qed.
(* The lines of an object on a screen. *)
Lemma object_shown p masks sort op s f ns n ls : text64 p s -> tlv_block masks op s f ns -> occurs n ns -> sheet masks sort op s ls ->
  exists n' i before after, ls = before ++ tree_lines true n' i ++ after /\ (if sort then node_in_order n n' else n' = n).
Proof.
  intros T B O H. destruct (sheet_of_block p _ _ _ _ _ _ _ T B H) as (m & -> & A).
  assert (X : exists n', occurs n' m /\ if sort then node_in_order n n' else n' = n).
  { destruct sort; [now apply (occurs_shown n ns)|subst m; eauto]. }
  destruct X as (n' & O' & R). destruct (occurs_lines n' m O' 0 true) as (j & b & a & E). exists n', j, (format_lines f ++ b), a. rewrite E, <- app_assoc. auto.
Qed.
Lemma shown_tag (sort : bool) n n' : (if sort then node_in_order n n' else n' = n) -> node_tag n' = node_tag n.
Proof. destruct sort; [now intros (t & c & c' & -> & -> & _)|now intros ->]. Qed.

(** C83: the same value, the same breakdown. *)

(* The value of a tag is shown as the operation for that value shows it. *)
Theorem C83_value : forall p masks sort op t s ls masks' sort' op' s' f ns n ls', In (op, t) value_of_tag -> sheet masks sort op s ls ->
  text64 p s' -> tlv_block masks' op' s' f ns -> occurs n ns -> rt_tag (node_tag n) = t -> rt_data (node_tag n) = Normal (hex_bytes s) -> sheet masks' sort' op' s' ls' ->
  exists i before after, ls' = before ++ object_lines i (node_tag n) ++ heading_row i (lit "Parsed:") :: map (moved (i + 1)) ls ++ after.
Proof.
  intros p masks sort op t s ls masks' sort' op' s' f ns n ls' I H T B O Et Ed H'.
  destruct (object_shown p _ _ _ _ _ _ _ _ T B O H') as (n' & i & b & a & -> & R). apply shown_tag in R.
  assert (Q : exists q, picture_of t (hex_bytes s) = Some q /\ ls = q 0 true).
  { unfold value_of_tag in I. cbn [In] in I. repeat (destruct I as [I|I]; [injection I as <- <-; eapply sheet_of_value in H; [exact H|cbn; tauto]|]). destruct I. }
  destruct Q as (q & Q & ->). destruct n' as [r c]. cbn [node_tag] in R. cbn [tree_lines]. subst r. unfold tag_lines, meaning_lines. rewrite Ed, Et, Q.
  exists i, b. eexists. rewrite <- (picture_movable _ _ _ Q), N.add_0_l. unfold object_lines. rewrite <- !app_assoc. cbn [app]. rewrite <- !app_assoc. cbn [app]. reflexivity.
Qed.
(* What the operation refuses is refused with the same message (unless an earlier object is refused). *)
Theorem C83_refused : forall masks op t s e masks' op' s' f ns before r after, In (op, t) value_of_tag -> op <> OpIad -> refused masks op s e ->
  tlv_block masks' op' s' f ns -> flat_map preorder ns = before ++ r :: after -> (forall x e', In x before -> ~ tag_fails x e') ->
  rt_tag r = t -> rt_data r = Normal (hex_bytes s) -> refused masks' op' s' e.
Proof.
  intros masks op t s e masks' op' s' f ns before r after I N R B E Nb Et Ed. apply (refused_tag masks' op' s' f ns before r after e B E Nb). exists (hex_bytes s). split; [assumption|]. rewrite Et.
  unfold value_of_tag in I. cbn [In] in I.
  repeat (destruct I as [I|I]; [injection I as <- <-; inversion R as [| | | | | | | | | | | | |? ? ? ? ? ? ? ? B']; subst; try assumption; try inversion B'; congruence|]). destruct I.
Qed.
(* Issuer application data that is not in the common core format is not refused, only named so. *)
Theorem C83_iad : forall p masks s e masks' sort' op' s' f ns n ls', refused masks OpIad s e ->
  text64 p s' -> tlv_block masks' op' s' f ns -> occurs n ns -> rt_tag (node_tag n) = [0x9F; 0x10] -> rt_data (node_tag n) = Normal (hex_bytes s) -> sheet masks' sort' op' s' ls' ->
  exists i before after, ls' = before ++ (tag_row i (node_tag n) (lit "Issuer Application Data (Not CCD-Compliant)") :: data_lines i (node_tag n)) ++ after.
Proof.
  intros p masks s e masks' sort' op' s' f ns n ls' R T B O Et Ed H'.
  destruct (object_shown p _ _ _ _ _ _ _ _ T B O H') as (n' & i & b & a & -> & Rn). apply shown_tag in Rn.
  assert (Q : picture_of [0x9F; 0x10] (hex_bytes s) = None).
  { destruct (picture_of [0x9F; 0x10] (hex_bytes s)) as [q|] eqn:Q; [exfalso|reflexivity]. change (iad_picture (hex_bytes s) = Some q) in Q. unfold iad_picture in Q. destruct ((len (hex_bytes s) =? 32) && _ && _ && _) eqn:C; [|discriminate]. clear Q.
    rewrite !andb_true_iff, orb_true_iff, !N.eqb_eq in C. destruct C as (((L & C0) & C16) & C1).
    inversion R as [|? X| | | | | | | | | | | |? ? ? ? ? ? ? ? B']; subst; [|inversion B']. apply X. do 5 eexists. split; [exact (iad_glue _ L C0 C16)|exact C1]. }
  destruct n' as [r c]. cbn [node_tag] in Rn. cbn [tree_lines]. subst r. unfold tag_lines, tag_title, meaning_lines. rewrite Ed, Et, Q, app_nil_r.
  change (SpecPictures.lookup unrecognised_names [0x9F; 0x10]) with (Some "Issuer Application Data (Not CCD-Compliant)"%string). cbv iota. exists i, b. eexists. cbn [app]. rewrite <- !app_assoc. reflexivity.
Qed.
(* A service code in tag 5F30 is shown like the number. *)
Theorem C83_service_code : forall p masks sort s v ls masks' sort' op' s' f ns n ls', denotes_number s v -> sheet masks sort OpServiceCode s ls ->
  text64 p s' -> tlv_block masks' op' s' f ns -> occurs n ns -> rt_tag (node_tag n) = [0x5F; 0x30] -> rt_data (node_tag n) = Normal (service_bytes v) -> sheet masks' sort' op' s' ls' ->
  exists i before after, ls' = before ++ object_lines i (node_tag n) ++ heading_row i (lit "Parsed:") :: map (moved (i + 1)) ls ++ after.
Proof.
  intros p masks sort s v ls masks' sort' op' s' f ns n ls' D H T B O Et Ed H'.
  destruct (object_shown p _ _ _ _ _ _ _ _ T B O H') as (n' & i & b & a & -> & R). apply shown_tag in R.
  assert (X : v <= 999 /\ ls = service_picture v 0 true).
  { inversion H as [g q I E|m Oo D' Le|f' ns0 m B' N A]; subst.
    - exfalso. unfold byte_operations in I. cbn [In] in I. repeat (destruct I as [I|I]; [discriminate|]). destruct I.
    - rewrite (denotes_det s v m D D'). auto.
    - inversion B'. }
  destruct X as [Le ->].
  assert (Q : picture_of [0x5F; 0x30] (service_bytes v) = Some (service_picture v)).
  { change (service_data_picture (service_bytes v) = Some (service_picture v)). unfold service_data_picture, service_bytes.
    replace ((16 * (v / 10 mod 10) + v mod 10) / 16) with (v / 10 mod 10) by (apply (N.div_unique _ _ _ (v mod 10)); [pose proof (N.mod_lt v 10); lia|reflexivity]).
    replace ((16 * (v / 10 mod 10) + v mod 10) mod 16) with (v mod 10) by (apply (N.mod_unique _ _ (v / 10 mod 10)); [pose proof (N.mod_lt v 10); lia|reflexivity]).
    replace ((v / 100 <? 10) && (v / 10 mod 10 <? 10) && (v mod 10 <? 10)) with true.
    - do 2 f_equal. change 100 with (10 * 10). rewrite <- N.div_div by lia. pose proof (N.div_mod v 10). pose proof (N.div_mod (v / 10) 10). lia.
    - symmetry. rewrite !andb_true_iff, !N.ltb_lt. repeat split; [apply N.div_lt_upper_bound; lia|apply N.mod_lt; lia..]. }
  destruct n' as [r c]. cbn [node_tag] in R. cbn [tree_lines]. subst r. unfold tag_lines, meaning_lines. rewrite Ed, Et, Q.
  exists i, b. eexists. rewrite <- (picture_movable _ _ _ Q), N.add_0_l. unfold object_lines. rewrite <- !app_assoc. cbn [app]. rewrite <- !app_assoc. cbn [app]. reflexivity.
Qed.
(* The content of a constructed object is shown as it would be on its own. *)
Theorem C83_nested : forall p masks sort op s f ns t c v s2 ls, text64 p s -> text64 p s2 -> tlv_block masks op s f ns -> occurs (RawNode t c) ns -> c <> [] ->
  rt_data t = Normal v -> hex_bytes s2 = v -> sheet masks sort op s ls ->
  exists ls2 i before after, sheet masks sort OpBer s2 ls2
    /\ ls = before ++ tag_lines t i true ++ heading_row i (lit "Constructed Data Object's Child Tags:") :: map (moved (i + 1)) ls2 ++ after.
Proof.
  intros p masks sort op s f ns t c v s2 ls T T2 B O N D E H. pose proof (block_made p masks op s f ns T B) as M.
  assert (F : Forall (fun t => forall e, ~ tag_fails t e) (flat_map preorder c)).
  { inversion H as [g q I Eq|m Oo D' Le|f' ns0 m B' N0 A]; subst.
    - exfalso. unfold byte_operations in I. cbn [In] in I. inversion B; subst; repeat (destruct I as [I|I]; [discriminate|]); destruct I.
    - inversion B.
    - destruct (tlv_block_det p _ _ _ _ _ _ _ T B B') as [<- <-]. rewrite Forall_forall in *. intros x I. apply N0. apply (occurs_preorder _ _ O). cbn [preorder]. now right. }
  destruct (occurs_made masks _ _ O) as (t0 & d0 & I). { eapply Forall_impl; [|exact M]. intros a [X _]. exact X. }
  inversion I as [|v' objs cs Ty Ho Ht]; subst; [contradiction|]. cbn [rt_data] in D. injection D as ->.
  assert (B2 : tlv_block masks OpBer s2 None c) by (apply block_ber; eexists; eauto).
  destruct (object_shown p _ _ _ _ _ _ _ _ T B O H) as (n' & i & b & a & -> & R).
  assert (X : exists c', n' = RawNode (mkRawTag t0 (class_of (first_byte t0)) Constructed (Normal (hex_bytes s2))) c' /\ c' <> [] /\ if sort then in_order c c' else c' = c).
  { destruct sort; [|subst n'; eauto]. destruct R as (x & y & c' & E1 & -> & R). injection E1 as <- <-. exists c'. split; [reflexivity|]. split; [|assumption]. intros ->.
    inversion R as [? l ? P S G EO]; subst. inversion EO; subst. symmetry in P. apply Permutation_nil in P. contradiction. }
  destruct X as (c' & -> & Nc & A). exists (format_lines None ++ forest_lines c' 0 true), i, b, a. split; [now apply (sheet_block _ _ _ _ None c)|].
  cbn [format_lines app]. rewrite <- forest_lines_moved, N.add_0_l. cbn [tree_lines]. destruct c' as [|n1 c']; [contradiction|]. unfold forest_lines. rewrite <- !app_assoc. reflexivity.
Qed.
(* The name of a tag is the one the identification of the tag gives; the title of an object is that name unless its data is not recognised. *)
Theorem C83_name : forall p masks sort s ls masks' sort' op' s' f ns n ls', sheet masks sort OpIdentify s ls ->
  text64 p s' -> tlv_block masks' op' s' f ns -> occurs n ns -> rt_tag (node_tag n) = hex_bytes s -> sheet masks' sort' op' s' ls' ->
  exists name title i before after rest, ls = titled 0 heading (lit "Name:") (lit "             " ++ name) :: rest
    /\ ls' = before ++ tag_row i (node_tag n) title :: after
    /\ (title = name \/ In (hex_bytes s) [[0x8A]; [0x9C]; [0x9F; 0x10]] /\ rt_data (node_tag n) <> Masked).
Proof.
  intros p masks sort s ls masks' sort' op' s' f ns n ls' H T B O Et H'.
  destruct (object_shown p _ _ _ _ _ _ _ _ T B O H') as (n' & i & b & a & -> & R). apply shown_tag in R. destruct n' as [r c]. cbn [node_tag] in R. subst r.
  apply (sheet_of_value _ _ _ _ _ identify_picture) in H; [|cbn; tauto]. destruct H as (q & Q & ->). unfold identify_picture in Q. destruct (hex_bytes s) as [|b0 l] eqn:E; [discriminate|].
  apply some_inj in Q. subst q. exists (name_of (b0 :: l)), (tag_title (node_tag n)), i, b. do 2 eexists. split; [reflexivity|]. split; [reflexivity|].
  unfold tag_title. rewrite Et. destruct (rt_data (node_tag n)) as [d|] eqn:D; [|now left]. destruct (picture_of _ d); [now left|].
  destruct (SpecPictures.lookup unrecognised_names (b0 :: l)) eqn:L; [|now left]. right. split; [|discriminate].
  unfold SpecPictures.lookup, unrecognised_names in L. cbn [find fst] in L.
  assert (Z : forall a b, same_bytes a b = true -> a = b).
  { clear. induction a as [|x a IH]; intros [|y b] Z; try discriminate; [reflexivity|]. cbn [same_bytes] in Z. apply andb_true_iff in Z. destruct Z as [Z1 Z2]. apply N.eqb_eq in Z1. f_equal; auto. }
  repeat (destruct (same_bytes _ (b0 :: l)) eqn:Y in L; [apply Z in Y; rewrite <- Y; cbn [In]; tauto|clear Y]). discriminate.
Qed.
(* A status word inside a template, and the text that is its content. *)
Example C83_example : exists ls ls' ns n t c, sheet [] true OpTsi (lit "F8 00") ls /\ sheet [] true OpBer (lit "70049B02F800") ls' /\ tlv_block [] OpBer (lit "70049B02F800") None ns
  /\ occurs n ns /\ rt_tag (node_tag n) = [0x9B] /\ rt_data (node_tag n) = Normal (hex_bytes (lit "F8 00"))
  /\ occurs (RawNode t c) ns /\ c <> [] /\ rt_data t = Normal (hex_bytes (lit "9B02F800")) /\ In (OpTsi, [0x9B]) value_of_tag.
Proof.
  assert (T : text64 p64 (lit "70049B02F800")) by (split; reflexivity). destruct (tlv_settles p64 [] OpBer _ _ T eq_refl) as (B & _).
  assert (F : forall c ty d e, ~ tag_fails (mkRawTag [0x70] c ty d) e).
  { intros c ty d e (v & _ & R). cbn in R. inversion R as [t' n d' In0 L| | | | | | |]; subst. cbn in In0. intuition discriminate. }
  assert (G : forall c ty e, ~ tag_fails (mkRawTag [0x9B] c ty (Normal [0xF8; 0])) e).
  { intros c ty e (v & E & R). cbn in E, R. injection E as <-. inversion R as [t' n d' In0 L| | | | | | |]; subst. cbn in In0. destruct L. unfold len. cbn. intuition congruence. }
  assert (P : exists ns, ns = [RawNode (mkRawTag [0x70] TagClass_Application Constructed (Normal [0x9B; 2; 0xF8; 0])) [RawNode (mkRawTag [0x9B] TagClass_ContextSpecific Primitive (Normal [0xF8; 0])) []]]
    /\ tlv_block [] OpBer (lit "70049B02F800") None ns) by (eexists; split; [reflexivity|apply B; vm_compute; reflexivity]).
  destruct P as (ns & E & P). do 2 eexists. exists ns, (RawNode (mkRawTag [0x9B] TagClass_ContextSpecific Primitive (Normal [0xF8; 0])) []). do 2 eexists.
  split; [apply (sheet_value _ _ _ _ (bits_picture 2 tsi_bits tsi_used)); [cbn; tauto|vm_compute; reflexivity]|].
  split. { eapply (sheet_block _ _ OpBer _ None); [exact P|subst ns; cbn; repeat constructor; auto|]. subst ns. econstructor; [reflexivity|repeat constructor|reflexivity|].
    constructor; [|constructor]. econstructor; [reflexivity|repeat constructor|reflexivity|]. constructor; [|constructor]. econstructor; [reflexivity|constructor|reflexivity|constructor]. }
  split; [exact P|]. subst ns. split; [eapply occurs_below; [left; reflexivity|constructor; left; reflexivity]|]. split; [reflexivity|]. split; [vm_compute; reflexivity|].
  split; [constructor; left; reflexivity|]. split; [discriminate|]. split; [vm_compute; reflexivity|cbn; tauto].
Qed.
