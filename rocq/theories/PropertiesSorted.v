(** The properties of where an object stands on a sorted screen. *)

From Coq Require Import ZArith NArith String List Bool Lia ZifyN ZifyBool ZifyNat Permutation Sorting.
From Verif Require Import Base ModelUtil ModelEnums ModelBitflag ModelSchemas ModelTags ModelTlv ModelValues ModelProcess ModelDisplay
  SpecUtil SpecCodes SpecValues SpecTlv SpecIngenico SpecTags SpecProcess SpecDisplay
  ProofsUtil ProofsGrammar ProofsBer ProofsIngenico ProofsValues PropertiesValues
  PropertiesBer PropertiesIngenico ProofsProcess PropertiesProcess ProofsDisplay ProofsDiagram ProofsScreens ProofsLayout PropertiesDisplay
  SpecPictures ProofsPictures ModelMain SpecMain ProofsMain PropertiesMain ModelCli SpecCli ProofsCli PropertiesCli PropertiesPictures
  SpecReading PropertiesReading ModelTerminal SpecTerminal ProofsTerminal PropertiesTerminal SpecTells ProofsTells PropertiesTells
  SpecSame PropertiesSame SpecMasking PropertiesMasking SpecJoin PropertiesJoin PropertiesCut SpecWrap PropertiesWrap PropertiesScope SpecSorted.
Import ListNotations.
Local Open Scope N_scope.

(** ** One object among sorted objects *)

Lemma filter_split {A} (f : A -> bool) n v : forall m u, filter f m = u ++ n :: v ->
  exists m1 m2, m = m1 ++ n :: m2 /\ filter f m1 = u /\ filter f m2 = v.
Proof.
  induction m as [|y m IH]; intros u E; [destruct u; discriminate E|]. cbn [filter] in E. destruct (f y) eqn:Ey.
  - destruct u as [|z u]; cbn [app] in E.
    + injection E as -> <-. exists [], m. auto.
    + injection E as -> E. destruct (IH _ E) as (m1 & m2 & -> & <- & <-). exists (z :: m1), m2. cbn [filter app]. rewrite Ey. auto.
  - destruct (IH _ E) as (m1 & m2 & -> & <- & <-). exists (y :: m1), m2. cbn [filter app]. rewrite Ey. auto.
Qed.
Lemma each_app m1 : forall m2 l, each_in_order (m1 ++ m2) l -> exists l1 l2, l = l1 ++ l2 /\ each_in_order m1 l1 /\ each_in_order m2 l2.
Proof.
  induction m1 as [|n m1 IH]; intros m2 l H.
  - exists [], l. split; [reflexivity|]. split; [constructor|exact H].
  - cbn [app] in H. inversion H as [|t c c' m l' O E]; subst. destruct (IH _ _ E) as (l1 & l2 & -> & E1 & E2).
    exists (RawNode t c' :: l1), l2. split; [reflexivity|]. split; [now constructor|assumption].
Qed.
Lemma each_joined m1 l1 m2 l2 : each_in_order m1 l1 -> each_in_order m2 l2 -> each_in_order (m1 ++ m2) (l1 ++ l2).
Proof. induction 1; intros H2; [exact H2|]. cbn [app]. constructor; auto. Qed.
Lemma each_tags m l : each_in_order m l -> map node_tag_bytes m = map node_tag_bytes l.
Proof. induction 1; [reflexivity|]. cbn [map node_tag_bytes]. congruence. Qed.
Lemma each_tagged t m l : each_in_order m l -> List.length (tagged t m) = List.length (tagged t l).
Proof. induction 1; [reflexivity|]. unfold tagged in *. cbn [filter node_tag_bytes]. destruct (same_bytes (rt_tag t0) t); cbn [List.length]; congruence. Qed.
Lemma single_order n n' : in_order [n] n' -> exists k, n' = [k] /\ each_in_order [n] [k].
Proof.
  intros H. inversion H as [l m l' P S T E]; subst. apply Permutation_length_1_inv in P. subst m. inversion E as [|t c c' m l O E']; subst. inversion E'; subst. eauto.
Qed.
Lemma order_single n k : each_in_order [n] [k] -> in_order [n] [k].
Proof. intros E. apply in_order_intro with [n]; [reflexivity|repeat constructor|reflexivity|exact E]. Qed.
Lemma sorted_app (R : raw_node -> raw_node -> Prop) a : forall b, StronglySorted R (a ++ b) <-> StronglySorted R a /\ StronglySorted R b /\ (forall x y, In x a -> In y b -> R x y).
Proof.
  induction a as [|n a IH]; intros b; cbn [app].
  - split; [intros H; split; [constructor|]; split; [exact H|intros x y []]|tauto].
  - split.
    + intros H. apply StronglySorted_inv in H. destruct H as [H F]. apply IH in H. destruct H as (H1 & H2 & H3). apply Forall_app in F. destruct F as [F1 F2].
      split; [now constructor|]. split; [assumption|]. intros x y [<-|I] J; [|auto]. rewrite Forall_forall in F2. auto.
    + intros (H1 & H2 & H3). apply StronglySorted_inv in H1. destruct H1 as [H1 F]. constructor.
      * apply IH. split; [assumption|]. split; [assumption|]. intros x y I J. apply H3; [now right|assumption].
      * apply Forall_app. split; [assumption|]. apply Forall_forall. intros y J. apply H3; [now left|assumption].
Qed.
Lemma tagged_other t n l1 l2 : node_tag_bytes n <> t -> tagged t (l1 ++ n :: l2) = tagged t (l1 ++ l2).
Proof.
  intros N. rewrite !tagged_app. f_equal. unfold tagged. cbn [filter]. destruct (same_bytes (node_tag_bytes n) t) eqn:E; [|reflexivity]. now apply same_bytes_eq in E.
Qed.
Lemma tagged_own n l1 l2 : tagged (node_tag_bytes n) (l1 ++ n :: l2) = tagged (node_tag_bytes n) l1 ++ n :: tagged (node_tag_bytes n) l2.
Proof.
  rewrite !tagged_app. f_equal. unfold tagged. cbn [filter]. destruct (same_bytes (node_tag_bytes n) (node_tag_bytes n)) eqn:E; [reflexivity|].
  assert (K : same_bytes (node_tag_bytes n) (node_tag_bytes n) = true) by now apply same_bytes_eq. congruence.
Qed.
Lemma in_slot na n nb l : in_order (na ++ n :: nb) l -> exists u k v, l = u ++ k :: v /\ in_order [n] [k] /\ in_order (na ++ nb) (u ++ v)
  /\ (forall n' k', node_tag_bytes n' = node_tag_bytes n -> in_order [n'] [k'] -> in_order (na ++ n' :: nb) (u ++ k' :: v))
  /\ stands (node_tag_bytes n) na (forest_lines u 0 true) (forest_lines v 0 true).
Proof.
  intros H. inversion H as [l0 m l' P S T E]; subst. pose proof (T (node_tag_bytes n)) as Tn. rewrite tagged_own in Tn.
  apply filter_split in Tn. destruct Tn as (m1 & m2 & -> & T1 & T2).
  destruct (each_app _ _ _ E) as (u & kv & -> & Eu & E2). change (n :: m2) with ([n] ++ m2) in E2. destruct (each_app _ _ _ E2) as (k0 & v & -> & Ek & Ev).
  destruct (single_order n k0 ltac:(apply in_order_intro with [n]; [reflexivity|repeat constructor|reflexivity|exact Ek])) as (k & -> & Ek').
  apply sorted_app in S. destruct S as (S1 & S2 & S3). apply StronglySorted_inv in S2. destruct S2 as [S2 F2].
  apply Permutation_app_inv in P.
  exists u, k, v. split; [reflexivity|]. split; [now apply order_single|]. split; [|split].
  - apply in_order_intro with (m1 ++ m2); [assumption| | |now apply each_joined].
    + apply sorted_app. split; [assumption|]. split; [assumption|]. intros x y I J. apply S3; [assumption|now right].
    + intros t. destruct (list_eq_dec N.eq_dec (node_tag_bytes n) t) as [<-|D].
      * rewrite !tagged_app. unfold tagged at 1 2. now rewrite T1, T2.
      * rewrite <- (tagged_other t n m1 m2 D), <- (tagged_other t n na nb D). apply T.
  - intros n' k' Et O. destruct (single_order _ _ O) as (k2 & Ek2 & E'). injection Ek2 as <-. apply in_order_intro with (m1 ++ n' :: m2).
    + transitivity (n' :: na ++ nb); [symmetry; apply Permutation_middle|]. transitivity (n' :: m1 ++ m2); [now constructor|apply Permutation_middle].
    + apply sorted_app. split; [assumption|]. split.
      * constructor; [assumption|]. revert F2. apply Forall_impl. intros y. unfold node_le. now rewrite Et.
      * intros x y I [<-|J]; [|apply S3; [assumption|now right]]. specialize (S3 x n I (or_introl eq_refl)). unfold node_le in *. now rewrite Et.
    + intros t. destruct (list_eq_dec N.eq_dec (node_tag_bytes n') t) as [<-|D].
      * rewrite !tagged_own. rewrite Et. unfold tagged at 1 2. now rewrite T1, T2.
      * rewrite (tagged_other t n' m1 m2 D), (tagged_other t n' na nb D). rewrite Et in D. rewrite <- (tagged_other t n m1 m2 D), <- (tagged_other t n na nb D). apply T.
    + apply each_joined; [assumption|]. change (n' :: m2) with ([n'] ++ m2). change (k' :: v) with ([k'] ++ v). now apply each_joined.
  - exists u, v. split; [reflexivity|]. split; [reflexivity|].
    assert (X : forall m l y, each_in_order m l -> In y l -> exists z, In z m /\ node_tag_bytes z = node_tag_bytes y).
    { clear. intros m l y Q. apply each_tags in Q. intros I. apply (in_map node_tag_bytes) in I. rewrite <- Q in I. apply in_map_iff in I. destruct I as (z & Z & J). eauto. }
    split; [|split].
    + intros y I. destruct (X _ _ _ Eu I) as (z & J & <-). apply (S3 z n J). now left.
    + intros y I. destruct (X _ _ _ Ev I) as (z & J & <-). rewrite Forall_forall in F2. destruct (F2 z J) as [K|K]; auto.
    + rewrite <- (each_tagged _ _ _ Eu). unfold tagged at 1. now rewrite T1.
Qed.
Lemma forest_between u k v : forest_lines (u ++ k :: v) 0 true = below (forest_lines u 0 true) (below (forest_lines [k] 0 true) (forest_lines v 0 true)).
Proof. change (k :: v) with ([k] ++ v). now rewrite !forest_app. Qed.
Lemma fine_parts na n nb : Forall (fun t => forall e, ~ tag_fails t e) (flat_map preorder (na ++ n :: nb))
  <-> Forall (fun t => forall e, ~ tag_fails t e) (flat_map preorder (na ++ nb)) /\ Forall (fun t => forall e, ~ tag_fails t e) (flat_map preorder [n]).
Proof. change (n :: nb) with ([n] ++ nb). rewrite !flat_map_app, !Forall_app. tauto. Qed.

(** ** C109: one object on a sorted screen *)

(* An object that is changed but keeps its tag keeps its place, an object that is added leaves
   the others as they were: only its own lines change. *)
Lemma part_sheet p masks sort op a na ls : text64 p a -> part masks op a na -> sheet masks sort op a ls ->
  exists m, Forall (fun t => forall e, ~ tag_fails t e) (flat_map preorder na) /\ (if sort then in_order na m else m = na) /\ ls = forest_lines m 0 true.
Proof.
  intros T P S. pose proof (part_alone p _ _ _ _ T P) as B. inversion S as [g q I E|n O D N|f ns m B' N A]; subst.
  - exfalso. unfold byte_operations in I. cbn [In] in I. inversion B; subst; repeat (destruct I as [I|I]; [discriminate|]); destruct I.
  - inversion B.
  - destruct (tlv_block_det p _ _ _ _ _ _ _ T B B') as [E <-]. exists m. subst f. auto.
Qed.
Theorem C109_changed : forall p masks op a x b na n ls, text64 p (a ++ x ++ b) -> part masks op a na -> part masks op x [n] ->
  sheet masks true op (a ++ x ++ b) ls ->
  exists above lx under, stands (node_tag_bytes n) na above under /\ sheet masks true op x lx /\ ls = below above (below lx under)
  /\ sheet masks true op (a ++ b) (below above under)
  /\ forall x' n' lx', text64 p (a ++ x' ++ b) -> part masks op x' [n'] -> node_tag_bytes n' = node_tag_bytes n -> sheet masks true op x' lx' ->
     sheet masks true op (a ++ x' ++ b) (below above (below lx' under)).
Proof.
  intros p masks op a x b na n ls T Pa Px H.
  assert (T1 : text64 p (x ++ b) /\ text64 p (a ++ b) /\ text64 p x /\ text64 p b /\ text64 p a).
  { destruct T as [T1 T2]. unfold text64. rewrite !len_app in *. repeat split; try assumption; lia. }
  destruct T1 as (T1 & Tab & Tx & Tb & Ta). pose proof (part_alone p _ _ _ _ Ta Pa) as Ba.
  inversion H as [g q I E|k O Dn N|f ns0 m B N A]; subst.
  - exfalso. unfold byte_operations in I. cbn [In] in I. inversion Ba; subst; repeat (destruct I as [I|I]; [discriminate|]); destruct I.
  - inversion Ba.
  - apply (part_block p _ _ _ _ _ _ _ T Pa) in B. destruct B as (n1 & -> & B). apply (part_block p _ _ _ _ _ _ _ T1 Px) in B. destruct B as (nb & -> & B).
    change ([n] ++ nb) with (n :: nb) in *. destruct (in_slot _ _ _ _ A) as (u & k & v & -> & Ok & Ouv & Oc & Sl). apply fine_parts in N. destruct N as [Nab Nn].
    assert (Ef : f = None) by (inversion B; subst; try reflexivity; inversion Ba). subst f. cbn [format_lines app] in *.
    assert (Bab : tlv_block masks op (a ++ b) None (na ++ nb)) by (apply (part_block p _ _ _ _ _ _ _ Tab Pa); eauto).
    exists (forest_lines u 0 true), (forest_lines [k] 0 true), (forest_lines v 0 true). split; [exact Sl|]. split; [|split; [|split]].
    + change (forest_lines [k] 0 true) with (format_lines None ++ forest_lines [k] 0 true). apply (sheet_block _ _ _ _ None [n]); [now apply (part_alone p)|assumption|assumption].
    + apply forest_between.
    + rewrite <- forest_app. change (forest_lines (u ++ v) 0 true) with (format_lines None ++ forest_lines (u ++ v) 0 true). now apply (sheet_block _ _ _ _ None (na ++ nb)).
    + intros x' n' lx' T' Px' Et S'.
      assert (T1' : text64 p (x' ++ b) /\ text64 p x'). { destruct T' as [T2 T3]. unfold text64. rewrite !len_app in *. repeat split; try assumption; lia. }
      destruct T1' as [T1' Tx']. destruct (part_sheet p _ _ _ _ _ _ Tx' Px' S') as (k' & Fn' & O' & ->). destruct (single_order _ _ O') as (k2 & -> & _). rewrite <- forest_between.
      change (forest_lines (u ++ k2 :: v) 0 true) with (format_lines None ++ forest_lines (u ++ k2 :: v) 0 true). apply (sheet_block _ _ _ _ None (na ++ n' :: nb)).
      * apply (part_block p _ _ _ _ _ _ _ T' Pa). eexists. split; [reflexivity|]. apply (part_block p _ _ _ _ _ _ _ T1' Px'). eexists. split; [|exact B]. reflexivity.
      * now apply fine_parts.
      * now apply Oc.
Qed.

(** ** Inside templates *)

(* The screen of BER-TLV bytes. *)
Definition bytes_sheet (masks v : list N) (ls : list line) : Prop :=
  exists objs ns m, ber_objects v objs [] /\ ber_trees masks objs ns /\ Forall (fun t => forall e, ~ tag_fails t e) (flat_map preorder ns)
  /\ in_order ns m /\ ls = forest_lines m 0 true.
Lemma bytes_sheet_iff masks x ls : sheet masks true OpBer x ls <-> bytes_sheet masks (hex_bytes x) ls.
Proof.
  split.
  - intros S. destruct (ber_sheet _ _ _ _ S) as (ns & m & (objs & O & R) & F & A & ->). exists objs, ns, m. auto.
  - intros (objs & ns & m & O & R & F & A & ->). change (forest_lines m 0 true) with (format_lines None ++ forest_lines m 0 true). apply (sheet_block _ _ _ _ None ns); [|assumption|assumption].
    constructor. exists objs. auto.
Qed.
(* Bytes that hold objects. *)
Definition bytes_block (masks v : list N) (ns : list raw_node) : Prop := exists objs, ber_objects v objs [] /\ ber_trees masks objs ns.
Lemma bytes_block_join masks a na b nb : bytes_block masks a na -> bytes_block masks b nb -> bytes_block masks (a ++ b) (na ++ nb).
Proof. intros (oa & Oa & Ra) (ob & Ob & Rb). exists (oa ++ ob). split; [now apply objects_join|now apply trees_join]. Qed.
Lemma bytes_block_det masks a na nb : bytes_block masks a na -> bytes_block masks a nb -> na = nb.
Proof. intros (oa & Oa & Ra) (ob & Ob & Rb). rewrite (ber_objects_det _ _ _ Ob Oa) in Rb. now apply (ber_trees_det _ _ _ Ra). Qed.
Lemma sheet_of_block masks v ns ls : bytes_block masks v ns -> bytes_sheet masks v ls -> exists m,
  Forall (fun t => forall e, ~ tag_fails t e) (flat_map preorder ns) /\ in_order ns m /\ ls = forest_lines m 0 true.
Proof.
  intros B (objs & ns' & m & O & R & F & A & E). exists m. rewrite (bytes_block_det masks v ns ns' B); [auto|]. exists objs. auto.
Qed.
Lemma block_sheet masks v ns m : bytes_block masks v ns -> Forall (fun t => forall e, ~ tag_fails t e) (flat_map preorder ns) -> in_order ns m ->
  bytes_sheet masks v (forest_lines m 0 true).
Proof. intros (objs & O & R) F A. exists objs, ns, m. auto. Qed.
Lemma level masks a na b nb x n ls : bytes_block masks a na -> bytes_block masks b nb -> bytes_block masks x [n] -> bytes_sheet masks (a ++ x ++ b) ls ->
  exists above lx under, bytes_sheet masks x lx /\ ls = below above (below lx under)
  /\ forall x' n' lx', bytes_block masks x' [n'] -> node_tag_bytes n' = node_tag_bytes n -> bytes_sheet masks x' lx' ->
     bytes_sheet masks (a ++ x' ++ b) (below above (below lx' under)).
Proof.
  intros A B X S. destruct (sheet_of_block masks _ _ _ (bytes_block_join _ _ _ _ _ A (bytes_block_join _ _ _ _ _ X B)) S) as (m & F & O & ->).
  change ([n] ++ nb) with (n :: nb) in *. destruct (in_slot _ _ _ _ O) as (u & k & v & -> & Ok & Ouv & Oc & _). apply fine_parts in F. destruct F as [Fab Fn].
  exists (forest_lines u 0 true), (forest_lines [k] 0 true), (forest_lines v 0 true). split; [now apply (block_sheet _ _ [n])|]. split; [apply forest_between|].
  intros x' n' lx' X' Et S'. destruct (sheet_of_block _ _ _ _ X' S') as (k' & F' & O' & ->). destruct (single_order _ _ O') as (k2 & -> & _).
  rewrite <- forest_between. apply (block_sheet _ _ (na ++ n' :: nb)).
  - apply bytes_block_join; [assumption|]. change (n' :: nb) with ([n'] ++ nb). now apply bytes_block_join.
  - now apply fine_parts.
  - now apply Oc.
Qed.
Lemma template_one masks t l s ns : ber_tag t -> type_of (first_byte t) = Constructed -> ber_len l (len (hex_bytes s)) -> hex_bytes s <> [] -> ~ masked masks (hex_bytes s) ->
  ber_block masks s ns -> bytes_block masks (t ++ l ++ hex_bytes s) [template_node t (hex_bytes s) ns].
Proof.
  intros Tt C L V M B. exists [(t, hex_bytes s)]. split; [now apply one_object|]. constructor; [|constructor]. apply template_tree; auto.
Qed.
Lemma template_shown t s m : type_of (first_byte t) = Constructed -> hex_bytes s <> [] -> m <> [] ->
  forest_lines [template_node t (hex_bytes s) m] 0 true = template_lines t (hex_bytes s) (forest_lines m 0 true).
Proof.
  intros C V N. unfold forest_lines at 1. cbn [map separated]. unfold template_node. rewrite (constructed_lines t _ (hex_bytes s) m 0 C V). destruct m; [contradiction|]. reflexivity.
Qed.
Lemma template_sheet masks t l s ns : ber_tag t -> type_of (first_byte t) = Constructed -> ber_len l (len (hex_bytes s)) -> hex_bytes s <> [] -> ~ masked masks (hex_bytes s) ->
  ber_block masks s ns -> forall lt, bytes_sheet masks (t ++ l ++ hex_bytes s) lt <-> exists ls, sheet masks true OpBer s ls /\ lt = template_lines t (hex_bytes s) ls.
Proof.
  intros Tt C L V M B lt. pose proof (template_one masks t l s ns Tt C L V M B) as X. pose proof (some_lines _ _ _ B V) as N. split.
  - intros S. destruct (sheet_of_block _ _ _ _ X S) as (m & F & O & ->). destruct (single_order _ _ O) as (k & -> & E). inversion E as [|t0 c c' m0 l0 Oc E0]; subst.
    exists (forest_lines c' 0 true). split.
    + apply bytes_sheet_iff. apply (block_sheet _ _ ns); [exact B| |assumption]. cbn [flat_map] in F. rewrite app_nil_r in F. unfold template_node in F. cbn [preorder] in F. now apply Forall_cons_iff in F.
    + rewrite <- template_shown; [reflexivity|assumption..|]. now apply (in_order_some ns).
  - intros (ls & S & ->). apply bytes_sheet_iff in S. destruct (sheet_of_block _ _ _ _ B S) as (m & F & O & ->). rewrite <- template_shown; [|assumption..|now apply (in_order_some ns)].
    apply (block_sheet _ _ [template_node t (hex_bytes s) ns]); [exact X| |now apply in_order_single].
    cbn [flat_map]. rewrite app_nil_r. unfold template_node. cbn [preorder]. constructor; [|assumption]. intros e. now apply constructed_fine.
Qed.
Lemma within_block masks x x' t0 ts w w' : one_of masks t0 x -> one_of masks t0 x' -> within masks x x' ts w w' ->
  (exists ns, ber_block masks w ns /\ hex_bytes w <> []) /\ (exists ns, ber_block masks w' ns /\ hex_bytes w' <> []).
Proof.
  intros (n & Bx & En) (n' & Bx' & En') W.
  assert (Z : forall v k, bytes_block masks v [k] -> v <> []).
  { intros v k (objs & O & R) ->. rewrite (ber_objects_det [] objs [] O (ber_objects_nil [])) in R. inversion R. }
  assert (Z' : forall (a b : list N) v k, bytes_block masks v [k] -> a ++ v ++ b <> []).
  { intros a b v k Q K. apply app_eq_nil in K. destruct K as [_ K]. apply app_eq_nil in K. destruct K as [K _]. now apply (Z _ _ Q). }
  induction W as [pre post npre npost w w' Bp Bq E E'|ts s s' pre post npre npost t l l' w w' W IH Bp Bq Tt C L L' M M' E E'].
  - split.
    + exists (npre ++ [n] ++ npost). split; [|rewrite E; now apply (Z' _ _ _ n)]. unfold ber_block. rewrite E. apply bytes_block_join; [exact Bp|]. now apply bytes_block_join.
    + exists (npre ++ [n'] ++ npost). split; [|rewrite E'; now apply (Z' _ _ _ n')]. unfold ber_block. rewrite E'. apply bytes_block_join; [exact Bp|]. now apply bytes_block_join.
  - destruct IH as [(ns & B & V) (ns' & B' & V')]. pose proof (template_one masks t l s ns Tt C L V M B) as X. pose proof (template_one masks t l' s' ns' Tt C L' V' M' B') as X'.
    assert (E1 : hex_bytes w = hex_bytes pre ++ (t ++ l ++ hex_bytes s) ++ hex_bytes post) by (rewrite E; now rewrite <- !app_assoc).
    assert (E1' : hex_bytes w' = hex_bytes pre ++ (t ++ l' ++ hex_bytes s') ++ hex_bytes post) by (rewrite E'; now rewrite <- !app_assoc).
    split.
    + exists (npre ++ [template_node t (hex_bytes s) ns] ++ npost). split; [|rewrite E1; now apply (Z' _ _ _ (template_node t (hex_bytes s) ns))]. unfold ber_block. rewrite E1. apply bytes_block_join; [exact Bp|]. now apply bytes_block_join.
    + exists (npre ++ [template_node t (hex_bytes s') ns'] ++ npost). split; [|rewrite E1'; now apply (Z' _ _ _ (template_node t (hex_bytes s') ns'))]. unfold ber_block. rewrite E1'. apply bytes_block_join; [exact Bp|]. now apply bytes_block_join.
Qed.
(* Changing an object at any depth changes its own lines, the own lines of the templates around
   it, and nothing else. *)
Theorem C109_within : forall masks x x' t0 ts w w' lw, one_of masks t0 x -> one_of masks t0 x' -> within masks x x' ts w w' -> sheet masks true OpBer w lw ->
  exists lx before before' after, sheet masks true OpBer x lx /\ matching ts before before' /\ lw = before ++ map (moved (len ts)) lx ++ after
  /\ forall lx', sheet masks true OpBer x' lx' -> sheet masks true OpBer w' (before' ++ map (moved (len ts)) lx' ++ after).
Proof.
  intros masks x x' t0 ts w w' lw Hx Hx' W. revert lw.
  assert (Z : forall masks v k lv, bytes_block masks v [k] -> bytes_sheet masks v lv -> lv <> []).
  { intros masks0 v k lv Q S. destruct (sheet_of_block _ _ _ _ Q S) as (m & F & O & ->). destruct (single_order _ _ O) as (k2 & -> & _). intros K. apply forest_none in K. discriminate K. }
  induction W as [pre post npre npost w w' Bp Bq E E'|ts s s' pre post npre npost t l l' w w' W IH Bp Bq Tt C L L' M M' E E']; intros lw S.
  - destruct Hx as (n & Bx & En), Hx' as (n' & Bx' & En'). apply bytes_sheet_iff in S. rewrite E in S. destruct (level _ _ _ _ _ _ _ _ Bp Bq Bx S) as (above & lx & under & Sx & -> & K).
    destruct (below_split above under) as (u & v & Hu). exists lx, u, u, v.
    assert (Id : forall ls, map (moved (len (@nil (list N)))) ls = ls).
    { induction ls as [|[i [|sp l] st] ls IH]; [reflexivity|..]; cbn [map]; rewrite IH; [reflexivity|]. unfold moved. cbn. now rewrite N.add_0_r. }
    rewrite !Id. split; [now apply bytes_sheet_iff|]. split; [rewrite <- (app_nil_r u); apply matching_app; constructor|]. split; [apply Hu; now apply (Z masks (hex_bytes x) n)|].
    intros lx' S'. apply bytes_sheet_iff in S'. rewrite Id, <- Hu by (now apply (Z masks (hex_bytes x') n')). apply bytes_sheet_iff. rewrite E'. apply (K _ n'); [assumption|congruence|assumption].
  - destruct (within_block _ _ _ _ _ _ _ Hx Hx' W) as [(ns & B & V) (ns' & B' & V')].
    pose proof (template_one masks t l s ns Tt C L V M B) as X. pose proof (template_one masks t l' s' ns' Tt C L' V' M' B') as X'.
    assert (E1 : hex_bytes w = hex_bytes pre ++ (t ++ l ++ hex_bytes s) ++ hex_bytes post) by (rewrite E; now rewrite <- !app_assoc).
    assert (E1' : hex_bytes w' = hex_bytes pre ++ (t ++ l' ++ hex_bytes s') ++ hex_bytes post) by (rewrite E'; now rewrite <- !app_assoc).
    apply bytes_sheet_iff in S. rewrite E1 in S. destruct (level _ _ _ _ _ _ _ _ Bp Bq X S) as (above & lt & under & St & -> & K).
    apply (template_sheet masks t l s ns Tt C L V M B) in St. destruct St as (ls & Ss & ->). destruct (IH _ Ss) as (lx & b & b' & a & Sx & Mt & -> & Q).
    destruct (below_split above under) as (u & v & Hu).
    assert (Y : forall ls, map (moved 1) (map (moved (len ts)) ls) = map (moved (len (t :: ts))) ls).
    { intros l0. rewrite map_map. apply map_ext. intros y. rewrite moved_moved. f_equal. rewrite len_cons. lia. }
    exists lx, (u ++ own_lines 0 t (hex_bytes s) ++ heading_row 0 (lit "Constructed Data Object's Child Tags:") :: map (moved 1) b),
      (u ++ own_lines 0 t (hex_bytes s') ++ heading_row 0 (lit "Constructed Data Object's Child Tags:") :: map (moved 1) b'), (map (moved 1) a ++ v).
    split; [exact Sx|]. split; [apply matching_app; constructor; constructor; now apply matching_moved|]. split.
    + rewrite Hu by (unfold template_lines, own_lines; discriminate). unfold template_lines. rewrite !map_app, Y. rewrite <- !app_assoc; cbn [app]; rewrite <- !app_assoc; reflexivity.
    + intros lx' Sx'. specialize (Q lx' Sx'). apply bytes_sheet_iff. rewrite E1'.
      assert (St' : bytes_sheet masks (t ++ l' ++ hex_bytes s') (template_lines t (hex_bytes s') (b' ++ map (moved (len ts)) lx' ++ a))) by (apply (template_sheet masks t l' s' ns' Tt C L' V' M' B'); eauto).
      pose proof (K _ (template_node t (hex_bytes s') ns') _ X' eq_refl St') as R. rewrite Hu in R by (unfold template_lines, own_lines; discriminate).
      unfold template_lines in R. rewrite !map_app, Y in R. rewrite <- !app_assoc in *. cbn [app] in *. rewrite <- !app_assoc in *. exact R.
Qed.
Lemma within_sym masks x x' ts w w' : within masks x x' ts w w' -> within masks x' x ts w' w.
Proof.
  induction 1 as [pre post npre npost w w' Bp Bq E E'|ts s s' pre post npre npost t l l' w w' W IH Bp Bq Tt C L L' M M' E E'].
  - now apply (within_here _ _ _ pre post npre npost).
  - now apply (within_template _ _ _ ts s' s pre post npre npost t l' l).
Qed.
Lemma ber_sheet_det masks s ls ls' : sheet masks true OpBer s ls -> sheet masks true OpBer s ls' -> ls = ls'.
Proof.
  intros A B. apply bytes_sheet_iff in A, B. destruct A as (objs & ns & m & O & R & F & I & ->). destruct (sheet_of_block _ _ ns _ (ex_intro _ objs (conj O R)) B) as (m' & _ & I' & ->).
  now rewrite (in_order_det _ _ _ I I').
Qed.
(* The same for the program. *)
Theorem C109_program : forall p e e' m m' st st' x x' t0 ts w w' lw lw', load_settings e m = Ok st -> load_settings e' m' = Ok st' ->
  set_masking st' = set_masking st -> set_sort st = true -> set_sort st' = true -> chosen m OpBer w -> chosen m' OpBer w' -> text64 p w -> text64 p w' ->
  one_of (set_masking st) t0 x -> one_of (set_masking st) t0 x' -> within (set_masking st) x x' ts w w' ->
  sheet (set_masking st) true OpBer w lw -> sheet (set_masking st) true OpBer w' lw' -> fits p (deepest lw) -> fits p (deepest lw') ->
  exists lx lx' before before' after, sheet (set_masking st) true OpBer x lx /\ sheet (set_masking st) true OpBer x' lx' /\ matching ts before before'
    /\ displays (run_main p e m) (before ++ map (moved (len ts)) lx ++ after) /\ displays (run_main p e' m') (before' ++ map (moved (len ts)) lx' ++ after).
Proof.
  intros p e e' m m' st st' x x' t0 ts w w' lw lw' L L' M O O' C C' T T' Hx Hx' W S S' F F'.
  destruct (C109_within _ _ _ _ _ _ _ _ Hx Hx' W S) as (lx & b & b' & a & Sx & Mt & -> & Q).
  destruct (C109_within _ _ _ _ _ _ _ _ Hx' Hx (within_sym _ _ _ _ _ _ W) S') as (lx' & _ & _ & _ & Sx' & _ & _ & _).
  pose proof (ber_sheet_det _ _ _ _ S' (Q _ Sx')) as ->.
  exists lx, lx', b, b', a. split; [exact Sx|]. split; [exact Sx'|]. split; [exact Mt|]. split.
  - apply (C73_shown p e m st OpBer w _ L C T); [now rewrite O|assumption].
  - apply (C73_shown p e' m' st' OpBer w' _ L' C' T'); [now rewrite M, O'|assumption].
Qed.
(* An object that is given another tag may move, so that other lines change too. *)
Lemma sample_sorted s ns m : text64 p64 s -> ber_parse p64 [42] (parse_hex_str s) = Ok ns ->
  forallb (fun t => negb (existsb (fun x => same_bytes x (rt_tag t)) ([0x8E] :: map fst fixed_lengths))) (flat_map preorder ns) = true ->
  in_order ns m -> sheet [42] true OpBer s (forest_lines m 0 true).
Proof.
  intros T E F O. apply (sheet_block _ _ _ _ None ns m); [|apply Forall_forall; intros t I; apply no_failure; rewrite forallb_forall in F; now apply negb_true_iff, F|exact O].
  constructor. now apply (ber_block_iff p64).
Qed.
Definition sample_leaf (t : list N) (v : list N) : raw_node := RawNode (mkRawTag t (class_of (first_byte t)) (type_of (first_byte t)) (Normal v)) [].
Lemma order_none : in_order [] [].
Proof. apply in_order_intro with []; [constructor|constructor|reflexivity|constructor]. Qed.
Lemma leaf_alone t v : in_order [sample_leaf t v] [sample_leaf t v].
Proof. apply in_order_single, order_none. Qed.
Lemma two_leaves t v t' v' : dict_lt t t' -> t <> t' -> in_order [sample_leaf t v; sample_leaf t' v'] [sample_leaf t v; sample_leaf t' v']
  /\ in_order [sample_leaf t' v'; sample_leaf t v] [sample_leaf t v; sample_leaf t' v'].
Proof.
  intros L D.
  assert (S : StronglySorted node_le [sample_leaf t v; sample_leaf t' v']) by (repeat constructor; exact L).
  assert (E : each_in_order [sample_leaf t v; sample_leaf t' v'] [sample_leaf t v; sample_leaf t' v']) by (repeat (constructor; [apply order_none|]); constructor).
  split; apply in_order_intro with [sample_leaf t v; sample_leaf t' v']; try assumption; [reflexivity|reflexivity|apply perm_swap|].
  intros u. unfold tagged. cbn [filter sample_leaf node_tag_bytes rt_tag]. destruct (same_bytes t u) eqn:A; [|reflexivity]. destruct (same_bytes t' u) eqn:B; [|reflexivity].
  apply same_bytes_eq in A, B. congruence.
Qed.
Theorem C109_retagged_refuted : exists x x' b n n' lx lx' lb ls', part [42] OpBer x [n] /\ part [42] OpBer x' [n'] /\ sheet [42] true OpBer x lx /\ sheet [42] true OpBer x' lx'
  /\ sheet [42] true OpBer (x ++ b) (below lx lb) /\ sheet [42] true OpBer (x' ++ b) ls' /\ ls' <> below lx' lb.
Proof.
  exists (lit "570131"), (lit "9F200131"), (lit "5A0131"), (sample_leaf [0x57] [0x31]), (sample_leaf [0x9F; 0x20] [0x31]).
  exists (forest_lines [sample_leaf [0x57] [0x31]] 0 true), (forest_lines [sample_leaf [0x9F; 0x20] [0x31]] 0 true), (forest_lines [sample_leaf [0x5A] [0x31]] 0 true),
    (forest_lines [sample_leaf [0x5A] [0x31]; sample_leaf [0x9F; 0x20] [0x31]] 0 true).
  assert (A : dict_lt [0x57] [0x5A]) by (constructor; lia). assert (B : dict_lt [0x5A] [0x9F; 0x20]) by (constructor; lia).
  destruct (two_leaves [0x57] [0x31] [0x5A] [0x31] A ltac:(discriminate)) as [A1 _]. destruct (two_leaves [0x5A] [0x31] [0x9F; 0x20] [0x31] B ltac:(discriminate)) as [_ B2].
  split; [constructor; [reflexivity|apply (ber_block_iff p64); [split; vm_compute; reflexivity|vm_compute; reflexivity]]|].
  split; [constructor; [reflexivity|apply (ber_block_iff p64); [split; vm_compute; reflexivity|vm_compute; reflexivity]]|].
  split; [eapply sample_sorted; [split; vm_compute; reflexivity|vm_compute; reflexivity|vm_compute; reflexivity|apply (leaf_alone [0x57])]|].
  split; [eapply sample_sorted; [split; vm_compute; reflexivity|vm_compute; reflexivity|vm_compute; reflexivity|apply (leaf_alone [0x9F; 0x20])]|].
  split; [|split].
  - rewrite <- forest_app. eapply sample_sorted; [split; vm_compute; reflexivity|vm_compute; reflexivity|vm_compute; reflexivity|exact A1].
  - eapply sample_sorted; [split; vm_compute; reflexivity|vm_compute; reflexivity|vm_compute; reflexivity|exact B2].
  - rewrite <- forest_app. intros K. revert K. vm_compute. intros K. discriminate K.
Qed.
(* The number of a card between other objects, and inside two templates. *)
Example C109_example : exists na n ls, part [42] OpBer (lit "9F200131") na /\ part [42] OpBer (lit "5A0131") [n] /\ text64 p64 (lit "9F200131" ++ lit "5A0131" ++ [])
  /\ sheet [42] true OpBer (lit "9F200131" ++ lit "5A0131" ++ []) ls
  /\ one_of [42] [0x5A] (lit "5A0131") /\ one_of [42] [0x5A] (lit "5A023131")
  /\ within [42] (lit "5A0131") (lit "5A023131") [[0x70]; [0x77]] (lit "9A03210131 700D 9F370100 7707 9F380100 5A0131") (lit "9A03210131 700E 9F370100 7708 9F380100 5A023131")
  /\ (exists lw, sheet [42] true OpBer (lit "9A03210131 700D 9F370100 7707 9F380100 5A0131") lw)
  /\ (exists lw, sheet [42] true OpBer (lit "9A03210131 700E 9F370100 7708 9F380100 5A023131") lw).
Proof.
  assert (B : dict_lt [0x5A] [0x9F; 0x20]) by (constructor; lia). destruct (two_leaves [0x5A] [0x31] [0x9F; 0x20] [0x31] B ltac:(discriminate)) as [_ B2].
  assert (N : ber_block [42] [] []) by (exists []; split; constructor).
  assert (P : forall s ns, text64 p64 s -> ber_parse p64 [42] (parse_hex_str s) = Ok ns -> ber_block [42] s ns) by (intros s ns T E; now apply (ber_block_iff p64)).
  assert (X : forall s, text64 p64 s -> o_stderr (run_main p64 plain_env (with_ber s)) = [] -> exists lw, sheet [42] true OpBer s lw).
  { intros s T Z. destruct (C73_total p64 [42] true OpBer s T) as [(ls & H & _)|(er & R & _)]; [eauto|]. exfalso.
    assert (C : chosen (with_ber s) OpBer s).
    { split; [reflexivity|]. exists [OpTvr; OpIad; OpCvr; OpTsi; OpCvmResults; OpCvmList; OpIdentify; OpAuto], [OpIngenico; OpServiceCode]. split; [reflexivity|]. repeat constructor. }
    destruct (C61_refused p64 plain_env (with_ber s) (mkSettings TAuto [42] true) OpBer s er (plain_settings (with_ber s) eq_refl eq_refl eq_refl eq_refl) C T R) as (_ & _ & _ & Q). rewrite Z in Q. destruct (error_text er); discriminate Q. }
  do 3 eexists. split; [constructor; [reflexivity|apply P; [split; vm_compute; reflexivity|vm_compute; reflexivity]]|].
  split; [constructor; [reflexivity|apply P; [split; vm_compute; reflexivity|vm_compute; reflexivity]]|]. split; [split; vm_compute; reflexivity|].
  split; [eapply sample_sorted; [split; vm_compute; reflexivity|vm_compute; reflexivity|vm_compute; reflexivity|exact B2]|].
  split; [eexists; split; [apply P; [split; vm_compute; reflexivity|vm_compute; reflexivity]|reflexivity]|].
  split; [eexists; split; [apply P; [split; vm_compute; reflexivity|vm_compute; reflexivity]|reflexivity]|].
  split; [|split; apply X; [split; vm_compute; reflexivity|vm_compute; reflexivity|split; vm_compute; reflexivity|vm_compute; reflexivity]].
  eapply (within_template _ _ _ [[0x77]] (lit "9F370100 7707 9F380100 5A0131") (lit "9F370100 7708 9F380100 5A023131") (lit "9A03210131") [] _ _ [0x70] [13] [14]).
  - eapply (within_template _ _ _ [] (lit "9F380100 5A0131") (lit "9F380100 5A023131") (lit "9F370100") [] _ _ [0x77] [7] [8]).
    + eapply (within_here _ _ _ (lit "9F380100") []); [apply P; [split; vm_compute; reflexivity|vm_compute; reflexivity]|exact N|reflexivity|reflexivity].
    + apply P; [split; vm_compute; reflexivity|vm_compute; reflexivity].
    + exact N.
    + now apply ber_tag_short.
    + reflexivity.
    + apply (ber_len_short 7). lia.
    + apply (ber_len_short 8). lia.
    + intros (_ & mk & [<-|[]] & K). vm_compute in K. inversion K; subst. discriminate.
    + intros (_ & mk & [<-|[]] & K). vm_compute in K. inversion K; subst. discriminate.
    + reflexivity.
    + reflexivity.
  - apply P; [split; vm_compute; reflexivity|vm_compute; reflexivity].
  - exact N.
  - now apply ber_tag_short.
  - reflexivity.
  - apply (ber_len_short 13). lia.
  - apply (ber_len_short 14). lia.
  - intros (_ & mk & [<-|[]] & K). vm_compute in K. inversion K; subst. discriminate.
  - intros (_ & mk & [<-|[]] & K). vm_compute in K. inversion K; subst. discriminate.
  - reflexivity.
  - reflexivity.
Qed.

(** ** C87: any reordering of parts without a common tag *)

Lemma part_join masks op a na x nx : part masks op a na -> part masks op x nx -> part masks op (a ++ x) (na ++ nx).
Proof.
  intros A X. destruct A as [a na Ev B|a es na As P N]; inversion X as [x' nx' Ev' B'|x' es' nx' As' P' N']; subst.
  - constructor; [rewrite filter_app, app_length, Nat.even_add, Ev, Ev'; reflexivity|]. unfold ber_block. rewrite (hex_bytes_app a x Ev). now apply bytes_block_join.
  - apply (part_ingenico _ _ (es ++ es')); [now apply ascii_app| |].
    + clear -P P'. induction P as [|f e sep rest es F P IH]; [exact P'|]. cbn [app]. rewrite <- app_assoc. cbn [app]. now constructor.
    + clear -N N'. induction N as [|e es ns T N IH|e es n ns T K N IH]; [exact N'|..]; cbn [app]; now constructor.
Qed.
Lemma no_common_sym x y : no_common_tag x y -> no_common_tag y x.
Proof. intros D n n' I I' E. now apply (D n' n). Qed.
Lemma part_none masks op a na : part masks op a na -> part masks op [] [].
Proof.
  intros P. destruct P.
  - constructor; [reflexivity|]. exists []. split; constructor.
  - apply (part_ingenico _ _ []); [constructor|constructor|constructor].
Qed.
Definition told_apart (x y : str * list raw_node) : Prop := no_common_tag (snd x) (snd y).
Lemma apart_perm l l' : Permutation l l' -> ForallOrdPairs told_apart l -> ForallOrdPairs told_apart l'.
Proof.
  induction 1 as [|x l l' P IH|x y l|l l' l'' P IH P' IH']; intros F; [exact F| | |auto].
  - inversion F as [|? ? Fx Fl]; subst. constructor; [|auto]. rewrite Forall_forall in *. intros z I. apply Fx. now apply (Permutation_in z (Permutation_sym P)).
  - inversion F as [|? ? Fy Fl]; subst. inversion Fl as [|? ? Fx Fl']; subst. apply Forall_cons_iff in Fy. destruct Fy as [Fxy Fy].
    constructor; [constructor; [now apply no_common_sym|assumption]|]. now constructor.
Qed.
Theorem C87_reordered : forall p masks op a na parts parts' b ls, part masks op a na -> Forall (fun x => part masks op (fst x) (snd x)) parts ->
  ForallOrdPairs (fun x y => no_common_tag (snd x) (snd y)) parts -> Permutation parts parts' -> text64 p (a ++ List.concat (map fst parts) ++ b) ->
  (sheet masks true op (a ++ List.concat (map fst parts) ++ b) ls <-> sheet masks true op (a ++ List.concat (map fst parts') ++ b) ls).
Proof.
  intros p masks op a na parts parts' b ls Pa F D P. revert a na Pa F D.
  induction P as [|x l l' P IH|x y l|l l' l'' P IH P' IH']; intros a na Pa F D T.
  - reflexivity.
  - cbn [map List.concat] in *. apply Forall_cons_iff in F. destruct F as [Fx F]. inversion D as [|? ? _ D']; subst.
    specialize (IH (a ++ fst x) (na ++ snd x) (part_join _ _ _ _ _ _ Pa Fx) F D'). rewrite <- !app_assoc in *. apply IH. exact T.
  - cbn [map List.concat] in *. apply Forall_cons_iff in F. destruct F as [Fy F]. apply Forall_cons_iff in F. destruct F as [Fx F].
    inversion D as [|? ? Dy D']; subst. apply Forall_cons_iff in Dy. destruct Dy as [Dy _].
    rewrite <- !app_assoc in *. apply (C87_swapped p _ _ _ _ _ _ na (snd y) (snd x)); assumption.
  - rewrite (IH a na Pa F D T). apply (IH' a na Pa).
    + apply Forall_forall. intros z I. rewrite Forall_forall in F. apply F. now apply (Permutation_in z (Permutation_sym P)).
    + now apply (apart_perm l).
    + destruct T as [T1 T2]. split; [assumption|]. replace (len (a ++ List.concat (map fst l') ++ b)) with (len (a ++ List.concat (map fst l) ++ b)); [assumption|].
      rewrite !len_app. f_equal. f_equal. unfold len. f_equal. apply Permutation_length. apply concat_perm. now apply Permutation_map.
Qed.
Example C87_reordered_example : exists na n n', part [42] OpBer [] na /\ Forall (fun x => part [42] OpBer (fst x) (snd x)) [(lit "9F200131", [n]); (lit "5A0131", [n'])]
  /\ ForallOrdPairs (fun x y : str * list raw_node => no_common_tag (snd x) (snd y)) [(lit "9F200131", [n]); (lit "5A0131", [n'])]
  /\ text64 p64 ([] ++ List.concat (map fst [(lit "9F200131", [n]); (lit "5A0131", [n'])]) ++ []).
Proof.
  exists [], (sample_leaf [0x9F; 0x20] [0x31]), (sample_leaf [0x5A] [0x31]).
  split; [constructor; [reflexivity|exists []; split; constructor]|]. split.
  - repeat (constructor; [constructor; [reflexivity|apply (ber_block_iff p64); [split; vm_compute; reflexivity|vm_compute; reflexivity]]|]). constructor.
  - split; [|split; vm_compute; reflexivity]. constructor; [|constructor; [constructor|constructor]]. constructor; [|constructor].
    intros x y [<-|[]] [<-|[]]. intros K. vm_compute in K. discriminate K.
Qed.
