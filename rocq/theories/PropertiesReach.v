(** What damage to BER-TLV or Ingenico data leaves untouched. *)

From Coq Require Import ZArith NArith String List Bool Lia ZifyN ZifyBool ZifyNat Permutation Sorting.
From Verif Require Import Base ModelUtil ModelEnums ModelBitflag ModelSchemas ModelTags ModelTlv ModelValues ModelProcess ModelDisplay
  SpecUtil SpecCodes SpecValues SpecTlv SpecIngenico SpecTags SpecProcess SpecDisplay
  ProofsUtil ProofsGrammar ProofsBer ProofsIngenico ProofsValues PropertiesValues
  PropertiesBer PropertiesIngenico ProofsProcess PropertiesProcess ProofsDisplay ProofsDiagram ProofsScreens ProofsLayout PropertiesDisplay
  SpecPictures ProofsPictures ModelMain SpecMain ProofsMain PropertiesMain ModelCli SpecCli ProofsCli PropertiesCli PropertiesPictures
  SpecReading PropertiesReading ModelTerminal SpecTerminal ProofsTerminal PropertiesTerminal SpecTells ProofsTells PropertiesTells SpecJoin PropertiesJoin PropertiesCut SpecWrap PropertiesWrap SpecReach.
Import ListNotations.
Local Open Scope N_scope.

Lemma tag_first t t' x y : ber_tag t -> ber_tag t' -> t ++ x = t' ++ y -> t = t' /\ x = y.
Proof.
  intros T T' E. assert (A : split_tag (t ++ x) = Some (t, x)) by now apply split_tag_iff. assert (B : split_tag (t ++ x) = Some (t', y)) by now apply split_tag_iff.
  rewrite A in B. injection B as -> ->. now split.
Qed.
Lemma app_cut {A} (a b x y : list A) : List.length a = List.length b -> a ++ x = b ++ y -> a = b /\ x = y.
Proof. revert b. induction a as [|h a IH]; intros [|k b] L E; try discriminate; [now split|]. injection E as -> E. injection L as L. destruct (IH b L E) as [-> ->]. now split. Qed.
Lemma len_first l l' n n' x y : ber_len l n -> ber_len l' n' -> l ++ x = l' ++ y -> l = l' /\ n = n' /\ x = y.
Proof.
  intros L L' E. destruct L as [a A|a A], L' as [b B|b B]; cbn [app] in E.
  - injection E as -> ->. auto.
  - assert (K : a = 128 + len b) by congruence. lia.
  - assert (K : 128 + len a = b) by congruence. lia.
  - assert (K0 : 128 + len a = 128 + len b) by congruence. assert (F : a ++ x = b ++ y) by congruence. clear E. rename K0 into E. assert (K : List.length a = List.length b) by (unfold len in E; lia). destruct (app_cut a b x y K F) as [-> ->]. auto.
Qed.
(* What stands at the beginning of two data with the same tag and length. *)
Lemma header_same t l (v : list N) y t' v' rest' : ber_tag t -> ber_len l (len v) -> ber_object (t ++ l ++ y) t' v' rest' ->
  t' = t /\ len v' = len v /\ y = v' ++ rest' /\ ber_object (t ++ l ++ v' ++ rest') t v' rest'.
Proof.
  intros T L O. inversion O as [t0 l0 v0 rest0 T0 L0 E0 E1]; subst. destruct (tag_first _ _ _ _ T0 T E1) as [-> E2]. destruct (len_first _ _ _ _ _ _ L0 L E2) as (-> & E3 & <-).
  repeat split; auto.
Qed.
Lemma objects_suffix l objs rest : ber_objects l objs rest -> exists x, l = x ++ rest.
Proof.
  induction 1 as [|l t v mid objs rest O _ [x ->]]; [now exists []|]. inversion O as [t0 l0 v0 rest0 T0 L0 E0 E1]; subst. exists (t ++ l0 ++ v ++ x). now rewrite <- !app_assoc.
Qed.
Lemma objects_same u objs b : forall l, ber_objects l objs (u ++ b) -> forall w c objs' mid', l = w ++ u ++ b -> ber_objects (w ++ u ++ c) objs' mid' ->
  List.length objs' = List.length objs -> objs' = objs /\ mid' = u ++ c.
Proof.
  induction objs as [|o objs IH]; intros l H w c objs' mid' E H' L.
  - destruct objs'; [|discriminate]. assert (K : w ++ u ++ b = u ++ b) by (rewrite <- E; inversion H; reflexivity). clear E H. assert (w = []) as -> by (apply (f_equal (@List.length N)) in K; rewrite app_length in K; destruct w; [reflexivity|cbn [List.length] in K; lia]). inversion H'; auto.
  - destruct objs' as [|o' objs']; [discriminate|]. injection L as L. inversion H as [|l0 t v mid objs0 rest0 O Os]; subst. inversion H' as [|l0' t' v' mid2 objs0' rest0' O' Os']; subst.
    destruct (objects_suffix _ _ _ Os) as [x ->]. inversion O as [t0 l0 v0 r0 T0 L0 Z0 E1]; subst.
    assert (w = t ++ l0 ++ v ++ x) as ->. { apply (app_inv_tail (u ++ b)). rewrite <- E1, <- !app_assoc. reflexivity. }
    rewrite <- !app_assoc in O'. destruct (header_same t l0 v _ _ _ _ T0 L0 O') as (-> & Lv & E2 & _).
    assert (K : List.length v' = List.length v) by (unfold len in Lv; lia). symmetry in E2. destruct (app_cut _ _ _ _ K E2) as [-> ->].
    destruct (IH _ Os x c objs' mid' eq_refl Os' L) as [-> ->]. auto.
Qed.
Lemma stands_upto masks l path upto n : stands masks l path upto n -> exists rest, l = upto ++ rest.
Proof.
  induction 1 as [l objs mid t v rest upto n Os O E T|l objs mid t v rest head path upto n Os O E C M V S [r ->]]; [eauto|]. exists (r ++ rest). now rewrite E, <- !app_assoc.
Qed.

(** C120: damage does not reach back. *)
(* An object is the same whatever follows it, if only an object still stands at its place. *)
Theorem C120_place : forall masks path upto n b c, stands masks (upto ++ b) path upto n -> place masks (upto ++ c) path -> stands masks (upto ++ c) path upto n.
Proof.
  intros masks path upto n b c H. remember (upto ++ b) as l eqn:E. revert b c E.
  induction H as [l objs mid t v rest upto n Os O E T|l objs mid t v rest head path upto n Os O E C M V S IH]; intros b c Eb (up' & n' & P).
  - rewrite E in Eb. apply app_inv_head in Eb. subst rest. inversion O as [t0 l0 v0 r0 T0 L0 Z0 E1]; subst.
    destruct (objects_suffix _ _ _ Os) as [w Ew]. assert (upto = w ++ t ++ l0 ++ v) as ->. { apply (app_inv_tail b). rewrite Ew, <- !app_assoc. reflexivity. }
    inversion P as [l1 objs1 mid1 t1 v1 rest1 up1 n1 Os1 O1 E2 T1 F1 F2|l1 objs1 mid1 t1 v1 rest1 head1 path1 up1 n1 Os1 O1 E2 C1 M1 V1 S1 F1 F2]; subst.
    2: { inversion S1. }
    replace (t ++ l0 ++ v ++ b) with ((t ++ l0 ++ v) ++ b) in Os by now rewrite <- !app_assoc. rewrite <- !app_assoc in Os1.
    replace (w ++ t ++ l0 ++ v ++ c) with (w ++ (t ++ l0 ++ v) ++ c) in Os1 by now rewrite <- !app_assoc.
    destruct (objects_same (t ++ l0 ++ v) objs b _ Os w c objs1 mid1) as [-> ->]; [now rewrite <- !app_assoc|assumption|assumption|].
    rewrite <- !app_assoc in O1. destruct (header_same t l0 v _ _ _ _ T0 L0 O1) as (-> & Lv & E3 & Ob).
    assert (K : List.length v1 = List.length v) by (unfold len in Lv; lia). symmetry in E3. destruct (app_cut _ _ _ _ K E3) as [-> ->].
    econstructor; [rewrite <- !app_assoc in *; exact Os1|exact Ob|reflexivity|assumption].
  - destruct (stands_upto _ _ _ _ _ S) as [x Ev]. inversion O as [t0 l0 v0 r0 T0 L0 Z0 E1]; subst.
    destruct (objects_suffix _ _ _ Os) as [w Ew]. assert (head = w ++ t ++ l0) as ->. { apply (app_inv_tail ((upto ++ x) ++ rest)). rewrite Ew, <- !app_assoc. reflexivity. }
    assert (b = x ++ rest) as ->. { rewrite <- !app_assoc in Eb. do 4 apply app_inv_head in Eb. now symmetry. }
    inversion P as [l1 objs1 mid1 t1 v1 rest1 up1 n1 Os1 O1 E2 T1 F1 F2|l1 objs1 mid1 t1 v1 rest1 head1 path1 up1 n1 Os1 O1 E2 C1 M1 V1 S1 F1 F2]; subst.
    { inversion S. }
    rewrite <- !app_assoc in Os, Os1. replace (t ++ l0 ++ upto ++ x ++ rest) with ((t ++ l0) ++ upto ++ x ++ rest) in Os by now rewrite <- !app_assoc.
    replace (w ++ t ++ l0 ++ upto ++ c) with (w ++ (t ++ l0) ++ upto ++ c) in Os1 by now rewrite <- !app_assoc.
    destruct (objects_same (t ++ l0) objs (upto ++ x ++ rest) _ Os w (upto ++ c) objs1 mid1) as [-> ->]; [now rewrite <- !app_assoc|assumption|assumption|].
    rewrite <- !app_assoc in O1. destruct (header_same t l0 (upto ++ x) _ _ _ _ T0 L0 O1) as (-> & Lv & E3 & Ob).
    assert (K : exists x', v1 = upto ++ x'). { exists (skipn (List.length upto) v1). rewrite <- (firstn_skipn (List.length upto) v1) at 1. f_equal.
      assert (Q : (List.length upto <= List.length v1)%nat) by (unfold len in Lv; rewrite app_length in Lv; lia).
      apply (f_equal (firstn (List.length upto))) in E3. rewrite !firstn_app, (proj2 (Nat.sub_0_le _ _) Q), Nat.sub_diag, firstn_all, !firstn_O, !app_nil_r in E3. now symmetry. }
    destruct K as [x' ->]. rewrite <- app_assoc in E3. apply app_inv_head in E3. subst c.
    eapply (stands_inside masks _ objs _ t (upto ++ x') rest1 (w ++ t ++ l0) path upto n); [|exact Ob| |assumption|assumption|assumption|].
    + rewrite <- !app_assoc in *. exact Os1.
    + now rewrite <- !app_assoc.
    + apply (IH x x' eq_refl). now exists up1, n'.
Qed.

(* Whole objects at the beginning are the first objects of whatever data they begin. *)
Lemma objects_follow b objs : forall w, ber_objects (w ++ b) objs b -> forall c os, ber_objects (w ++ c) os [] -> exists os', os = objs ++ os' /\ ber_objects (w ++ c) objs c /\ ber_objects c os' [].
Proof.
  induction objs as [|o objs IH]; intros w H c os H'.
  - assert (K : w ++ b = b) by (inversion H; congruence). assert (w = []) as -> by (apply (f_equal (@List.length N)) in K; rewrite app_length in K; destruct w; [reflexivity|cbn [List.length] in K; lia]).
    exists os. split; [reflexivity|]. split; [constructor|assumption].
  - inversion H as [|l0 t v mid objs0 rest0 O Os E0]; subst. destruct (objects_suffix _ _ _ Os) as [x ->]. inversion O as [t0 l0 v0 r0 T0 L0 Z0 E1]; subst.
    assert (w = t ++ l0 ++ v ++ x) as ->. { apply (app_inv_tail b). rewrite <- E1, <- !app_assoc. reflexivity. }
    rewrite <- !app_assoc in H'. inversion H' as [r Er E2|l1 t' v' mid' os' rest' O' Os' E0]; subst.
    { exfalso. pose proof (ber_tag_ne _ T0). destruct t; [contradiction|discriminate]. }
    destruct (header_same t l0 v _ _ _ _ T0 L0 O') as (-> & Lv & E2 & Ob). assert (K : List.length v' = List.length v) by (unfold len in Lv; lia).
    symmetry in E2. destruct (app_cut _ _ _ _ K E2) as [-> ->]. destruct (IH x Os c os' Os') as (r & -> & A & B). exists r. split; [reflexivity|]. split; [|assumption].
    rewrite <- !app_assoc. econstructor; [exact Ob|exact A].
Qed.
Lemma trees_split masks os1 : forall os2 ns, ber_trees masks (os1 ++ os2) ns -> exists n1 n2, ns = n1 ++ n2 /\ ber_trees masks os1 n1 /\ ber_trees masks os2 n2.
Proof.
  induction os1 as [|o os1 IH]; intros os2 ns H; [exists [], ns; repeat split; [constructor|assumption]|]. inversion H as [|o' n os' ns' T Ts]; subst.
  destruct (IH _ _ Ts) as (n1 & n2 & -> & A & B). exists (n :: n1), n2. split; [reflexivity|]. split; [now constructor|assumption].
Qed.
Lemma tree_same masks o n n' : ber_tree masks o n -> ber_tree masks o n' -> n = n'.
Proof. intros A B. assert (X : [n] = [n']) by (apply (ber_trees_det masks [o]); repeat (constructor; try assumption)). congruence. Qed.
(* At the top nothing else is needed: what is accepted has an object at that place. *)
Theorem C120_top : forall masks i upto n b c os, stands masks (upto ++ b) [i] upto n -> ber_objects (upto ++ c) os [] -> stands masks (upto ++ c) [i] upto n.
Proof.
  intros masks i upto n b c os H A. apply (C120_place masks [i] upto n b c H).
  inversion H as [l objs mid t v rest up n0 Os O E T F1 F2|l objs mid t v rest head path up n0 Os O E C M V S F1 F2]; subst; [|inversion S].
  apply app_inv_head in E. subst rest.
  assert (W : ber_objects (upto ++ b) (objs ++ [(t, v)]) b). { clear - Os O. induction Os as [l|l t0 v0 mid objs rest O0 Os IH]; [econstructor; [exact O|constructor]|econstructor; [exact O0|now apply IH]]. }
  destruct (objects_follow b _ upto W c os A) as (os' & _ & K & _).
  assert (X : exists mid', ber_objects (upto ++ c) objs mid' /\ ber_object mid' t v c).
  { clear - K. revert K. generalize (upto ++ c) as l. induction objs as [|o objs IH]; intros l K; cbn [app] in K; inversion K as [|l0 t0 v0 mid objs0 rest0 O0 Os0 E0]; subst.
    - inversion Os0; subst. exists l. split; [constructor|assumption].
    - destruct (IH _ Os0) as (m & A & B). exists m. split; [|assumption]. econstructor; eassumption. }
  destruct X as (mid' & Y & Z). exists upto, n. econstructor; [exact Y|exact Z|reflexivity|assumption].
Qed.

(** ** Screens *)
Lemma separated_within (a : list (list line)) x b : exists u w, separated (a ++ x :: b) = u ++ x ++ w.
Proof.
  induction a as [|y a (u & w & E)]; cbn [app]; rewrite separated_cons.
  - exists [], (match b with [] => [] | _ => SpecDisplay.blank :: separated b end). reflexivity.
  - destruct (a ++ x :: b) eqn:K; [destruct a; discriminate|]. rewrite E. exists (y ++ SpecDisplay.blank :: u), w. now rewrite <- !app_assoc.
Qed.
Lemma stands_lines masks l path upto n : stands masks l path upto n -> forall os ns i, ber_objects l os [] -> ber_trees masks os ns ->
  exists u w, forest_lines ns i true = u ++ tree_lines true n (i + len path - 1) ++ w.
Proof.
  assert (D : forall l objs mid t v rest os, ber_objects l objs mid -> ber_object mid t v rest -> ber_objects l os [] -> exists os', os = objs ++ (t, v) :: os').
  { clear. intros l objs mid t v rest os H. revert os. induction H as [l|l t0 v0 mid objs rest0 O0 Os IH]; intros os O A.
    - inversion A as [r Er E2|l1 t' v' mid' os' rest' O' Os' E0]; subst; [now apply ber_object_ne in O|]. destruct (ber_object_det _ _ _ _ _ _ _ O O') as (-> & -> & _). now exists os'.
    - inversion A as [r Er E2|l1 t' v' mid' os' rest' O' Os' E0]; subst; [now apply ber_object_ne in O0|]. destruct (ber_object_det _ _ _ _ _ _ _ O0 O') as (-> & -> & ->).
      destruct (IH _ O Os') as [z ->]. now exists z. }
  induction 1 as [l objs mid t v rest upto n Os O E T|l objs mid t v rest head path upto n Os O E C M V S IH]; intros os ns i A Ts.
  - destruct (D _ _ _ _ _ _ _ Os O A) as [os' ->]. destruct (trees_split _ _ _ _ Ts) as (n1 & n2 & -> & _ & T2). inversion T2 as [|o m os0 ms Tm Tms]; subst.
    rewrite (tree_same _ _ _ _ T Tm). unfold forest_lines. rewrite map_app. cbn [map]. replace (i + len [List.length objs] - 1) with i by (cbn [len List.length]; unfold len; cbn [List.length]; lia). apply separated_within.
  - destruct (D _ _ _ _ _ _ _ Os O A) as [os' ->]. destruct (trees_split _ _ _ _ Ts) as (n1 & n2 & -> & _ & T2). inversion T2 as [|o m os0 ms Tm Tms]; subst.
    inversion Tm as [t0 v0 d R Q|t0 v0 ob ch C0 M0 Ob Ch]; subst; [exfalso; destruct Q as [Q|[Q|Q]]; [congruence|contradiction|contradiction]|].
    destruct (IH ob ch (i + 1) Ob Ch) as (u & w & K). unfold forest_lines in *. rewrite map_app. cbn [map].
    destruct (separated_within (map (fun n0 => tree_lines true n0 i) n1) (tree_lines true (RawNode (mkRawTag t (class_of (first_byte t)) Constructed (Normal v)) ch) i) (map (fun n0 => tree_lines true n0 i) ms)) as (u' & w' & ->).
    assert (L : exists k, len path = k + 1). { exists (len path - 1). enough (len path <> 0) by lia. intros Z. destruct path; [inversion S|unfold len in Z; cbn [List.length] in Z; lia]. }
    destruct L as [k L]. replace (i + len (List.length objs :: path) - 1) with (i + 1 + len path - 1) by (unfold len in *; cbn [List.length]; lia).
    destruct ch as [|c0 ch]; [exfalso; cbn [map separated] in K; symmetry in K; apply app_eq_nil in K; destruct K as [_ K]; apply app_eq_nil in K; destruct K as [K _]; destruct n; discriminate K|].
    cbn [tree_lines]. rewrite K. exists (u' ++ tag_lines (mkRawTag t (class_of (first_byte t)) Constructed (Normal v)) i true ++ heading_row i (lit "Constructed Data Object's Child Tags:") :: u), (w ++ w').
    rewrite <- !app_assoc. cbn [app]. now rewrite <- !app_assoc.
Qed.
Definition object_lines (path : list nat) (n : raw_node) : list line := tree_lines true n (len path - 1).
Lemma ber_shown masks sort s ls : sheet masks sort OpBer s ls -> exists os ns m, ber_objects (hex_bytes s) os [] /\ ber_trees masks os ns
  /\ Forall (fun t => forall e, ~ tag_fails t e) (flat_map preorder ns) /\ ls = forest_lines m 0 true /\ if sort then in_order ns m else m = ns.
Proof.
  intros H. inversion H as [g q I E|n O' D N|f' ns m B' N A]; subst; [|discriminate|].
  - exfalso. unfold byte_operations in I. cbn [In] in I. repeat (destruct I as [I|I]; [discriminate|]); destruct I.
  - inversion B' as [s0 ns0 (os & X & Y)| | |]; subst. exists os, ns, m. auto.
Qed.
(* So its lines are on both screens. *)
Theorem C120_screen : forall masks s s' path upto n b c ls ls', hex_bytes s = upto ++ b -> hex_bytes s' = upto ++ c ->
  stands masks (upto ++ b) path upto n -> place masks (upto ++ c) path -> sheet masks false OpBer s ls -> sheet masks false OpBer s' ls' ->
  exists before after before' after', ls = before ++ object_lines path n ++ after /\ ls' = before' ++ object_lines path n ++ after'.
Proof.
  intros masks s s' path upto n b c ls ls' E E' S P H H'. pose proof (C120_place _ _ _ _ _ _ S P) as S'.
  destruct (ber_shown _ _ _ _ H) as (os & ns & m & A & T & _ & -> & ->), (ber_shown _ _ _ _ H') as (os' & ns' & m' & A' & T' & _ & -> & ->). rewrite E in A. rewrite E' in A'.
  destruct (stands_lines _ _ _ _ _ S os ns 0 A T) as (u & w & ->), (stands_lines _ _ _ _ _ S' os' ns' 0 A' T') as (u' & w' & ->). exists u, w, u', w'. split; reflexivity.
Qed.
(* Above the damaged object at the top the screens are the same; sorted, they have the same objects besides others. *)
Theorem C120_above : forall masks sort s s' a b c objs ls ls', hex_bytes s = a ++ b -> hex_bytes s' = a ++ c -> ber_objects (a ++ b) objs b ->
  sheet masks sort OpBer s ls -> sheet masks sort OpBer s' ls' ->
  exists ns top m m' rest rest', ber_trees masks objs ns /\ ls = forest_lines m 0 true /\ ls' = forest_lines m' 0 true
    /\ (if sort then each_in_order ns top /\ Permutation m (top ++ rest) /\ Permutation m' (top ++ rest')
        else top = ns /\ ls = below (forest_lines top 0 true) (forest_lines rest 0 true) /\ ls' = below (forest_lines top 0 true) (forest_lines rest' 0 true)).
Proof.
  intros masks sort s s' a b c objs ls ls' E E' O H H'.
  destruct (ber_shown _ _ _ _ H) as (os & ns & m & A & T & _ & -> & I), (ber_shown _ _ _ _ H') as (os' & ns' & m' & A' & T' & _ & -> & I'). rewrite E in A. rewrite E' in A'.
  destruct (objects_follow b objs a O b os A) as (o2 & -> & _), (objects_follow b objs a O c os' A') as (o2' & -> & _).
  destruct (trees_split _ _ _ _ T) as (n1 & n2 & -> & T1 & _), (trees_split _ _ _ _ T') as (n1' & n2' & -> & T1' & _).
  rewrite <- (ber_trees_det _ _ _ T1 _ T1') in *. destruct sort.
  - assert (X : forall n2 m, in_order (n1 ++ n2) m -> exists top rest, Forall2 node_in_order n1 top /\ Permutation m (top ++ rest)).
    { clear. intros n2 m I. inversion I as [l m1 l' P _ _ Ea]; subst. apply each_forall in Ea.
      destruct (forall2_permuted _ _ _ (Permutation_sym P) m Ea) as (m2 & Q & F). apply Forall2_app_inv_l in F. destruct F as (x & y & Fx & _ & ->). eauto. }
    destruct (X _ _ I) as (top & rest & F & P), (X _ _ I') as (top' & rest' & F' & P'). rewrite <- (forall2_same _ _ node_in_order_det _ _ F F') in P'.
    exists n1, top, m, m', rest, rest'. split; [assumption|]. split; [reflexivity|]. split; [reflexivity|]. split; [|auto]. clear - F. induction F as [|x y l l' (t & d & d' & -> & -> & R) _ IH]; now constructor.
  - subst. exists n1, n1, (n1 ++ n2), (n1 ++ n2'), n2, n2'. split; [assumption|]. repeat split; apply forest_app.
Qed.
(* An object before the damage that cannot be interpreted is the reason for the refusal, whatever follows it, if only all of it are objects. *)
Theorem C120_refused : forall masks s' a b c objs ns before t after e ns', hex_bytes s' = a ++ c -> ber_objects (a ++ b) objs b ->
  ber_trees masks objs ns -> flat_map preorder ns = before ++ t :: after -> (forall u e', In u before -> ~ tag_fails u e') -> tag_fails t e ->
  ber_block masks s' ns' -> refused masks OpBer s' e.
Proof.
  intros masks s' a b c objs ns before t after e ns' E' O T Ep N F (os & A & Ts). rewrite E' in A. destruct (objects_follow b objs a O c os A) as (o2 & -> & _).
  destruct (trees_split _ _ _ _ Ts) as (n1 & n2 & -> & T1 & T2). rewrite (ber_trees_det _ _ _ T1 _ T) in *.
  apply (refused_tag masks OpBer s' None (ns ++ n2) before t (after ++ flat_map preorder n2) e); [|now rewrite flat_map_app, Ep, <- app_assoc|assumption|assumption].
  constructor. exists (objs ++ o2). rewrite E'. split; [assumption|exact Ts].
Qed.
(* Ingenico fields that are closed before the damage, and any parts of data before it. *)
Theorem C120_fields : forall p masks op a b c na ls ls', text64 p (a ++ b) -> text64 p (a ++ c) -> part masks op a na ->
  sheet masks false op (a ++ b) ls -> sheet masks false op (a ++ c) ls' ->
  exists lb lc, ls = below (forest_lines na 0 true) lb /\ ls' = below (forest_lines na 0 true) lc.
Proof.
  intros p masks op a b c na ls ls' T T' P H H'.
  assert (X : forall b ls, text64 p (a ++ b) -> sheet masks false op (a ++ b) ls -> exists lb, ls = below (forest_lines na 0 true) lb).
  { clear - P. intros b ls T H. inversion H as [g q I E|n O' D N|f' ns m B' N A]; subst.
    - exfalso. unfold byte_operations in I. cbn [In] in I. destruct P; repeat (destruct I as [I|I]; [discriminate|]); destruct I.
    - inversion P.
    - assert (f' = None) as -> by (destruct P; inversion B'; reflexivity). apply (part_block p masks op a na b None ns T P) in B'. destruct B' as (nb & -> & _).
      exists (forest_lines nb 0 true). cbn [format_lines app]. apply forest_app. }
  destruct (X b ls T H) as [lb ->], (X c ls' T' H') as [lc ->]. now exists lb, lc.
Qed.
(* Two runs: the same lines, in spite of the damage. *)
Theorem C120_program : forall p e e' m m' st st' s s' path upto n b c ls ls', load_settings e m = Ok st -> load_settings e' m' = Ok st' ->
  set_masking st' = set_masking st -> set_sort st = false -> set_sort st' = false -> chosen m OpBer s -> chosen m' OpBer s' -> text64 p s -> text64 p s' ->
  hex_bytes s = upto ++ b -> hex_bytes s' = upto ++ c -> stands (set_masking st) (upto ++ b) path upto n -> place (set_masking st) (upto ++ c) path ->
  sheet (set_masking st) false OpBer s ls -> sheet (set_masking st) false OpBer s' ls' -> fits p (deepest ls) -> fits p (deepest ls') ->
  exists before after before' after', displays (run_main p e m) (before ++ object_lines path n ++ after)
    /\ displays (run_main p e' m') (before' ++ object_lines path n ++ after').
Proof.
  intros p e e' m m' st st' s s' path upto n b c ls ls' L L' M O O' C C' T T' E E' S P H H' F F'.
  destruct (C120_screen _ _ _ _ _ _ _ _ _ _ E E' S P H H') as (u & w & u' & w' & X & X'). exists u, w, u', w'. rewrite <- X, <- X'. split.
  - apply (C73_shown p e m st OpBer s ls L C T); [now rewrite O|assumption].
  - apply (C73_shown p e' m' st' OpBer s' ls' L' C' T'); [now rewrite M, O'|assumption].
Qed.

(** ** Examples *)
Lemma short_object t n v rest : t mod 32 <> 31 -> n < 128 -> len v = n -> ber_object (t :: n :: v ++ rest) [t] v rest.
Proof.
  intros T L E. apply (ber_object_intro [t] [n] v rest); [now constructor|rewrite E; now constructor|]. intros (x & r & X & G). injection X as <- <-. lia.
Qed.
Lemma sample_stands a v r : a mod 32 <> 31 -> stands [42] ([0x70; 6; 0x5A; 1; 0x12] ++ [a; 1; v] ++ r) [0%nat; 0%nat] ([0x70; 6] ++ [0x5A; 1; 0x12])
  (RawNode (mkRawTag [0x5A] TagClass_Application Primitive (Normal [0x12])) []).
Proof.
  intros A. apply (stands_inside [42] ([0x70; 6; 0x5A; 1; 0x12] ++ [a; 1; v] ++ r) [] ([0x70; 6; 0x5A; 1; 0x12] ++ [a; 1; v] ++ r) [0x70] [0x5A; 1; 0x12; a; 1; v] r [0x70; 6] [0%nat]);
    [constructor|apply (short_object 0x70 6 [0x5A; 1; 0x12; a; 1; v] r); [discriminate|reflexivity|reflexivity]|reflexivity|reflexivity| | |].
  - intros [_ (k & I & F)]. inversion F as [|x l Z1 F1]; subst. inversion F1; subst. discriminate.
  - exists [([0x5A], [0x12]); ([a], [v])]. econstructor; [apply (short_object 0x5A 1 [0x12] [a; 1; v]); [discriminate|reflexivity|reflexivity]|].
    econstructor; [apply (short_object a 1 [v] []); [assumption|reflexivity|reflexivity]|constructor].
  - apply (stands_here [42] [0x5A; 1; 0x12; a; 1; v] [] [0x5A; 1; 0x12; a; 1; v] [0x5A] [0x12] [a; 1; v]); [constructor|apply (short_object 0x5A 1 [0x12] [a; 1; v]); [discriminate|reflexivity|reflexivity]|reflexivity|].
    apply (ber_tree_leaf [42] [0x5A] [0x12] (Normal [0x12])); [right; split; [intros [K _]; cbn in K; lia|reflexivity]|now left].
Qed.
(* Behind an object in a template everything is different. *)
Example C120_example : let n := RawNode (mkRawTag [0x5A] TagClass_Application Primitive (Normal [0x12])) [] in
  let s := lit "70065A0112570113 4F01A0" in let s' := lit "70065A0112500134 9F3700" in
  hex_bytes s = [0x70; 6; 0x5A; 1; 0x12] ++ [0x57; 1; 0x13; 0x4F; 1; 0xA0] /\ hex_bytes s' = [0x70; 6; 0x5A; 1; 0x12] ++ [0x50; 1; 0x34; 0x9F; 0x37; 0]
  /\ stands [42] ([0x70; 6; 0x5A; 1; 0x12] ++ [0x57; 1; 0x13; 0x4F; 1; 0xA0]) [0%nat; 0%nat] [0x70; 6; 0x5A; 1; 0x12] n
  /\ place [42] ([0x70; 6; 0x5A; 1; 0x12] ++ [0x50; 1; 0x34; 0x9F; 0x37; 0]) [0%nat; 0%nat]
  /\ exists ls ls', sheet [42] false OpBer s ls /\ sheet [42] false OpBer s' ls' /\ ls <> ls' /\ text64 p64 s /\ fits p64 (deepest ls).
Proof.
  intros n s s'. split; [vm_compute; reflexivity|]. split; [vm_compute; reflexivity|]. split; [apply (sample_stands 0x57 0x13 [0x4F; 1; 0xA0]); discriminate|].
  split; [eexists _, n; apply (sample_stands 0x50 0x34 [0x9F; 0x37; 0]); discriminate|].
  do 2 eexists. split; [apply sample_sheet; [split; vm_compute; reflexivity|vm_compute; reflexivity|reflexivity]|].
  split; [apply sample_sheet; [split; vm_compute; reflexivity|vm_compute; reflexivity|reflexivity]|].
  split; [intros K; apply (f_equal (map line_text)) in K; vm_compute in K; discriminate K|]. split; [split; vm_compute; reflexivity|intros _; vm_compute; reflexivity].
Qed.
(* If no object stands there any more, because the template's value is not made of objects now, the lines are gone. *)
Theorem C120_swallowed_refuted : exists s s' path upto n b c ls ls', hex_bytes s = upto ++ b /\ hex_bytes s' = upto ++ c /\ len b = len c
  /\ stands [42] (upto ++ b) path upto n /\ sheet [42] false OpBer s ls /\ sheet [42] false OpBer s' ls'
  /\ ~ exists before after, ls' = before ++ object_lines path n ++ after.
Proof.
  exists (lit "70065A0112570113"), (lit "70065A0112577F13"), [0%nat; 0%nat], [0x70; 6; 0x5A; 1; 0x12], (RawNode (mkRawTag [0x5A] TagClass_Application Primitive (Normal [0x12])) []), [0x57; 1; 0x13], [0x57; 0x7F; 0x13].
  do 2 eexists. split; [vm_compute; reflexivity|]. split; [vm_compute; reflexivity|]. split; [reflexivity|]. split; [apply (sample_stands 0x57 0x13 []); discriminate|].
  split; [apply sample_sheet; [split; vm_compute; reflexivity|vm_compute; reflexivity|reflexivity]|]. split; [apply sample_sheet; [split; vm_compute; reflexivity|vm_compute; reflexivity|reflexivity]|].
  intros (u & w & K). set (o := object_lines [0%nat; 0%nat] (RawNode (mkRawTag [0x5A] TagClass_Application Primitive (Normal [0x12])) [])) in *.
  assert (I : In (line_text (hd SpecDisplay.blank o)) (map line_text (u ++ o ++ w))). { apply in_map, in_or_app. right. apply in_or_app. left. unfold o, object_lines. cbn [tree_lines]. unfold tag_lines. left. reflexivity. }
  rewrite <- K in I. vm_compute in I. repeat (destruct I as [I|I]; [discriminate I|]). exact I.
Qed.
(* The same at the top, with an object that cannot be interpreted before the damage, and with closed fields. *)
Example C120_top_example :
  ber_objects ([0x5A; 1; 0x12] ++ [0x57; 1; 0x13]) [([0x5A], [0x12])] [0x57; 1; 0x13]
  /\ (exists ls ls', sheet [42] false OpBer (lit "5A0112570113") ls /\ sheet [42] false OpBer (lit "5A0112 4F00 5000") ls' /\ ls <> ls')
  /\ (exists t, ber_objects ([0x95; 1; 0] ++ [0x57; 1; 0x13]) [([0x95], [0])] [0x57; 1; 0x13] /\ ber_trees [42] [([0x95], [0])] [RawNode t []]
      /\ tag_fails t (ByteCountIncorrect Eq 5 1) /\ exists ns, ber_block [42] (lit "950100 50021234") ns /\ hex_bytes (lit "950100 50021234") = [0x95; 1; 0] ++ [0x50; 2; 0x12; 0x34])
  /\ (exists na, part [42] OpIngenico (lit "T9F02:01:h07,") na /\ na <> []).
Proof.
  split; [econstructor; [apply (short_object 0x5A 1 [0x12] [0x57; 1; 0x13]); [discriminate|reflexivity|reflexivity]|constructor]|]. split.
  { do 2 eexists. split; [apply sample_sheet; [split; vm_compute; reflexivity|vm_compute; reflexivity|reflexivity]|].
    split; [apply sample_sheet; [split; vm_compute; reflexivity|vm_compute; reflexivity|reflexivity]|]. intros K. apply (f_equal (map line_text)) in K. vm_compute in K. discriminate K. }
  split.
  { exists (mkRawTag [0x95] TagClass_ContextSpecific Primitive (Normal [0])).
    split; [econstructor; [apply (short_object 0x95 1 [0] [0x57; 1; 0x13]); [discriminate|reflexivity|reflexivity]|constructor]|].
    split; [constructor; [|constructor]; apply (ber_tree_leaf [42] [0x95] [0] (Normal [0])); [right; split; [intros [K _]; cbn in K; lia|reflexivity]|now left]|].
    split; [exists [0]; split; [reflexivity|apply (rejected_length [0x95] 5 [0]); [unfold fixed_lengths; cbn [In]; tauto|discriminate]]|].
    eexists. split; [apply (ber_block_iff p64); [split; vm_compute; reflexivity|vm_compute; reflexivity]|vm_compute; reflexivity]. }
  destruct C87_example as (nx & ny & _ & P & _ & _ & N & _). now exists ny.
Qed.
