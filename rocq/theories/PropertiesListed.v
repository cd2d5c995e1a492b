(** The property of CVM lists, rule by rule. *)

From Coq Require Import ZArith NArith Ascii String List Bool Lia ZifyN ZifyBool ZifyNat Permutation Sorting.
From Verif Require Import Base ModelUtil ModelEnums ModelBitflag ModelSchemas ModelTags ModelTlv ModelValues ModelProcess ModelDisplay
  SpecUtil SpecCodes SpecValues SpecTlv SpecIngenico SpecTags SpecProcess SpecDisplay
  ProofsUtil ProofsGrammar ProofsBer ProofsIngenico ProofsValues PropertiesValues
  PropertiesBer PropertiesIngenico ProofsProcess PropertiesProcess ProofsDisplay ProofsDiagram ProofsScreens ProofsLayout PropertiesDisplay
  SpecPictures ProofsPictures ModelMain SpecMain ProofsMain PropertiesMain ModelCli SpecCli ProofsCli PropertiesCli PropertiesPictures
  SpecReading PropertiesReading SpecMatch SpecExplain PropertiesExplain SpecRules PropertiesRules SpecListed.
Import ListNotations.
Local Open Scope N_scope.

(** ** The rules *)

Lemma rules_are i : forall d k, len d mod 2 = 0 -> rules_lines i k d (rules_picture i k d).
Proof.
  induction d as [d IH] using length_ind. intros k E. destruct d as [|a [|b d]]; [constructor|discriminate E|]. cbn [rules_picture].
  change (rules_lines i k (a :: b :: d) (rule_lines i k a b ++ rules_picture i (k + 1) d)). constructor. apply IH; [cbn [List.length]; lia|].
  rewrite !len_cons in E. replace (1 + (1 + len d)) with (len d + 1 * 2) in E by lia. now rewrite N.mod_add in E by discriminate.
Qed.
Lemma rules_det i k d ls ls' : rules_lines i k d ls -> rules_lines i k d ls' -> ls = ls'.
Proof. intros H. revert ls'. induction H as [|k x y d ls H IH]; intros ls' H'; inversion H'; subst; [reflexivity|]. f_equal. now apply IH. Qed.
Lemma rules_app i : forall a k b, len a mod 2 = 0 -> rules_picture i k (a ++ b) = rules_picture i k a ++ rules_picture i (k + len a / 2) b.
Proof.
  induction a as [a IH] using length_ind. intros k b E. destruct a as [|x [|y a]]; [now rewrite N.add_0_r|discriminate E|]. rewrite !len_cons in *.
  replace (1 + (1 + len a)) with (len a + 1 * 2) in * by lia. rewrite N.mod_add in E by discriminate. rewrite N.div_add by discriminate. cbn [app rules_picture].
  rewrite IH by (try (cbn [List.length]; lia); assumption). replace (k + 1 + len a / 2) with (k + (len a / 2 + 1)) by lia. reflexivity.
Qed.
Lemma mentions_iff : forall d, mentions_amount d = true <-> exists j x y, nth_error d (N.to_nat (2 * j)) = Some x /\ nth_error d (N.to_nat (2 * j + 1)) = Some y /\ compares y.
Proof.
  induction d as [d IH] using length_ind. destruct d as [|a [|b d]]; cbn [mentions_amount].
  - split; [discriminate|]. intros (j & x & y & H & _). destruct (N.to_nat (2 * j)); discriminate H.
  - split; [discriminate|]. intros (j & x & y & _ & H & _). destruct (N.to_nat (2 * j + 1)) as [|n] eqn:K; [lia|]. destruct n; discriminate H.
  - rewrite orb_true_iff, (IH d) by (cbn [List.length]; lia). split.
    + intros [H|(j & x & y & X & Y & C)].
      * exists 0, a, b. split; [reflexivity|]. split; [reflexivity|]. unfold compares. lia.
      * exists (j + 1), x, y. replace (N.to_nat (2 * (j + 1))) with (Datatypes.S (Datatypes.S (N.to_nat (2 * j)))) by lia. replace (N.to_nat (2 * (j + 1) + 1)) with (Datatypes.S (Datatypes.S (N.to_nat (2 * j + 1)))) by lia. auto.
    + intros (j & x & y & X & Y & C). destruct (N.eq_dec j 0) as [->|J].
      * cbn in Y. injection Y as ->. left. unfold compares in C. lia.
      * right. exists (j - 1), x, y. replace (N.to_nat (2 * j)) with (Datatypes.S (Datatypes.S (N.to_nat (2 * (j - 1))))) in X by lia. replace (N.to_nat (2 * j + 1)) with (Datatypes.S (Datatypes.S (N.to_nat (2 * (j - 1) + 1)))) in Y by lia. auto.
Qed.
Lemma amounts_iff d : (amount_x d =? 0) && (amount_y d =? 0) && negb (mentions_amount (skipn 8 d)) = false <-> has_amounts d.
Proof.
  assert (M : mentions_amount (skipn 8 d) = true <-> exists k x y, rule_at d k x y /\ compares y).
  { rewrite mentions_iff. split.
    - intros (j & x & y & X & Y & C). rewrite nth_skip in X, Y. exists (j + 1), x, y. split; [|exact C]. split; [lia|]. split; [rewrite <- X|rewrite <- Y]; f_equal; lia.
    - intros (k & x & y & (L & X & Y) & C). exists (k - 1), x, y. rewrite !nth_skip. split; [rewrite <- X; f_equal; lia|]. split; [rewrite <- Y; f_equal; lia|exact C]. }
  unfold has_amounts. rewrite <- M. destruct (N.eqb_spec (amount_x d) 0), (N.eqb_spec (amount_y d) 0), (mentions_amount (skipn 8 d)); cbn [andb negb]; intuition congruence.
Qed.
Definition above (i : N) (d : list N) : list line :=
  if (amount_x d =? 0) && (amount_y d =? 0) && negb (mentions_amount (skipn 8 d)) then [] else amounts_picture (amount_x d) (amount_y d) i.
Lemma above_top i d : top_lines i d (above i d).
Proof.
  unfold top_lines, above. pose proof (amounts_iff d) as A. destruct (_ && _ && _); [right; split; [intros K; apply A in K; discriminate K|reflexivity]|left; split; [now apply A|reflexivity]].
Qed.
Lemma picture_is (d : list N) : 8 <= len d -> len d mod 2 = 0 -> exists q, cvm_list_picture d = Some q /\ forall i show, q i show = above i d ++ rules_heading i :: rules_picture i 1 (skipn 8 d).
Proof.
  intros L E. unfold cvm_list_picture. apply N.leb_le in L. apply N.eqb_eq in E. rewrite L, E. cbn [andb]. eexists. split; [reflexivity|]. intros i show. reflexivity.
Qed.
Lemma picture_inv d q : cvm_list_picture d = Some q -> 8 <= len d /\ len d mod 2 = 0 /\ forall i show, q i show = above i d ++ rules_heading i :: rules_picture i 1 (skipn 8 d).
Proof.
  intros Q. assert (C : 8 <= len d /\ len d mod 2 = 0).
  { unfold cvm_list_picture in Q. destruct (N.leb_spec 8 (len d)); [|discriminate Q]. destruct (N.eqb_spec (len d mod 2) 0); [auto|discriminate Q]. }
  destruct C as [L E]. split; [exact L|]. split; [exact E|]. destruct (picture_is d L E) as (q' & Q' & H). rewrite Q in Q'. injection Q' as <-. exact H.
Qed.
Lemma skip_even (d : list N) : 8 <= len d -> len d mod 2 = 0 -> len (skipn 8 d) mod 2 = 0 /\ len (skipn 8 d) = len d - 8.
Proof.
  intros L E. assert (K : len (skipn 8 d) = len d - 8) by (unfold len in *; rewrite skipn_length; lia). split; [|exact K]. rewrite K.
  replace (len d) with (len d - 8 + 4 * 2) in E by lia. now rewrite N.mod_add in E by discriminate.
Qed.
Lemma skip_app (a b : list N) : 8 <= len a -> skipn 8 (a ++ b) = skipn 8 a ++ b.
Proof. intros L. rewrite skipn_app. replace (8 - List.length a)%nat with 0%nat by (unfold len in L; lia). reflexivity. Qed.
Lemma amounts_app (a b : list N) : 8 <= len a -> amount_x (a ++ b) = amount_x a /\ amount_y (a ++ b) = amount_y a.
Proof.
  intros L. unfold amount_x, amount_y. assert (8 <= List.length a)%nat by (unfold len in L; lia). rewrite skipn_app, !firstn_app, skipn_length. replace (4 - List.length a)%nat with 0%nat by lia. replace (4 - (List.length a - 4))%nat with 0%nat by lia.
  cbn [firstn]. now rewrite !app_nil_r.
Qed.
Lemma mentions_app : forall (a b : list N), len a mod 2 = 0 -> mentions_amount (a ++ b) = mentions_amount a || mentions_amount b.
Proof.
  induction a as [a IH] using length_ind. intros b E. destruct a as [|x [|y a]]; [reflexivity|discriminate E|]. rewrite !len_cons in *. replace (1 + (1 + len a)) with (len a + 1 * 2) in * by lia. rewrite N.mod_add in E by discriminate.
  cbn [app mentions_amount]. rewrite IH by (try (cbn [List.length]; lia); assumption). now rewrite orb_assoc.
Qed.

(** ** C123 *)

(* The screen of a list: the amounts if they matter, the heading, and four lines for each rule in the order of the rules. *)
Theorem C123_shape : forall d q i show, cvm_list_picture d = Some q ->
  exists top rules, q i show = top ++ rules_heading i :: rules /\ top_lines i d top /\ rules_lines i 1 (skipn 8 d) rules.
Proof.
  intros d q i show Q. destruct (picture_inv d q Q) as (L & E & H). exists (above i d), (rules_picture i 1 (skipn 8 d)). rewrite H. split; [reflexivity|]. split; [apply above_top|]. apply rules_are. now apply skip_even.
Qed.
(* A rule added at the end: its lines are added below, and the amounts above if they have not mattered before. *)
Theorem C123_appended : forall d q x y, cvm_list_picture d = Some q -> exists q', cvm_list_picture (d ++ [x; y]) = Some q' /\ forall i show,
  (has_amounts d \/ ~ compares y -> q' i show = q i show ++ rule_lines i ((len d - 6) / 2) x y)
  /\ (~ has_amounts d -> compares y -> q' i show = amounts_picture 0 0 i ++ q i show ++ rule_lines i ((len d - 6) / 2) x y).
Proof.
  intros d q x y Q. destruct (picture_inv d q Q) as (L & E & H). destruct (skip_even d L E) as [E8 L8].
  destruct (picture_is (d ++ [x; y])) as (q' & Q' & H').
  - rewrite len_app. lia.
  - rewrite len_app. change (len [x; y]) with (1 * 2). now rewrite N.mod_add by discriminate.
  - exists q'. split; [exact Q'|]. intros i show. rewrite H, H'. rewrite (skip_app d [x; y] L), (rules_app i (skipn 8 d) 1 [x; y] E8), L8.
    replace (1 + (len d - 8) / 2) with ((len d - 6) / 2) by (replace (len d - 6) with (len d - 8 + 1 * 2) by lia; rewrite N.div_add by discriminate; lia).
    assert (R : rules_picture i ((len d - 6) / 2) [x; y] = rule_lines i ((len d - 6) / 2) x y) by reflexivity. rewrite R. clear R.
    pose proof (amounts_iff d) as A. destruct (amounts_app d [x; y] L) as [X Y].
    assert (B : above i (d ++ [x; y]) = if (amount_x d =? 0) && (amount_y d =? 0) && negb (mentions_amount (skipn 8 d) || ((6 <=? y) && (y <=? 9))) then [] else amounts_picture (amount_x d) (amount_y d) i).
    { unfold above. rewrite X, Y, (skip_app d [x; y] L), (mentions_app _ [x; y] E8). cbn [mentions_amount]. now rewrite orb_false_r. }
    rewrite B. clear B X Y. unfold above. assert (C : (6 <=? y) && (y <=? 9) = true <-> compares y) by (unfold compares; lia).
    destruct (N.eqb_spec (amount_x d) 0) as [X|X], (N.eqb_spec (amount_y d) 0) as [Y|Y], (mentions_amount (skipn 8 d)); cbn [andb negb orb] in *;
      try (split; [intros _; cbn [app]; now rewrite <- ?app_assoc|intros K; exfalso; apply K; now apply A]).
    assert (NA : ~ has_amounts d) by (intros K; apply A in K; discriminate K). destruct ((6 <=? y) && (y <=? 9)); cbn [negb].
    + split; [intros [K|K]; [contradiction|exfalso; apply K; now apply C]|]. intros _ _. rewrite X, Y. cbn [app]. reflexivity.
    + split; [reflexivity|]. intros _ K. apply C in K. discriminate K.
Qed.
(* A rule replaced by another: only its own lines change, except that the amounts can appear or disappear above. *)
Theorem C123_changed : forall a b x y x' y' q, 8 <= len a -> len a mod 2 = 0 -> cvm_list_picture (a ++ [x; y] ++ b) = Some q -> exists q', cvm_list_picture (a ++ [x'; y'] ++ b) = Some q' /\ forall i show,
  exists top top' before after, q i show = top ++ before ++ rule_lines i ((len a - 6) / 2) x y ++ after /\ q' i show = top' ++ before ++ rule_lines i ((len a - 6) / 2) x' y' ++ after
    /\ top_lines i (a ++ [x; y] ++ b) top /\ top_lines i (a ++ [x'; y'] ++ b) top'.
Proof.
  intros a b x y x' y' q L E Q. destruct (picture_inv _ q Q) as (L1 & E1 & H). destruct (skip_even a L E) as [E8 L8].
  assert (Ll : len (a ++ [x'; y'] ++ b) = len (a ++ [x; y] ++ b)) by (rewrite !len_app; reflexivity).
  destruct (picture_is (a ++ [x'; y'] ++ b)) as (q' & Q' & H'); [now rewrite Ll|now rewrite Ll|]. exists q'. split; [exact Q'|]. intros i show. rewrite H, H'.
  rewrite !(skip_app a _ L), !(rules_app i (skipn 8 a) 1 _ E8), L8.
  replace (1 + (len a - 8) / 2) with ((len a - 6) / 2) by (replace (len a - 6) with (len a - 8 + 1 * 2) by lia; rewrite N.div_add by discriminate; lia).
  exists (above i (a ++ [x; y] ++ b)), (above i (a ++ [x'; y'] ++ b)), (rules_heading i :: rules_picture i 1 (skipn 8 a)), (rules_picture i ((len a - 6) / 2 + 1) b).
  split; [reflexivity|]. split; [reflexivity|]. split; apply above_top.
Qed.
Lemma swapped_amounts (a b : list N) x y x' y' : has_amounts (a ++ [x; y; x'; y'] ++ b) -> 8 <= len a -> len a mod 2 = 0 -> has_amounts (a ++ [x'; y'; x; y] ++ b).
Proof.
  intros H L E. apply amounts_iff. apply amounts_iff in H. destruct (skip_even a L E) as [E8 _]. destruct (amounts_app a ([x; y; x'; y'] ++ b) L) as [A1 A2]. destruct (amounts_app a ([x'; y'; x; y] ++ b) L) as [B1 B2].
  rewrite A1, A2, (skip_app a _ L), (mentions_app _ _ E8) in H. rewrite B1, B2, (skip_app a _ L), (mentions_app _ _ E8). cbn [app mentions_amount] in *.
  destruct (amount_x a =? 0), (amount_y a =? 0), (mentions_amount (skipn 8 a)), ((6 <=? y) && (y <=? 9)), ((6 <=? y') && (y' <=? 9)), (mentions_amount b); cbn [andb orb negb] in *; congruence.
Qed.
(* Two neighbouring rules exchanged: so are their lines, and nothing else changes. *)
Theorem C123_swapped : forall a b x y x' y' q, 8 <= len a -> len a mod 2 = 0 -> cvm_list_picture (a ++ [x; y; x'; y'] ++ b) = Some q -> exists q', cvm_list_picture (a ++ [x'; y'; x; y] ++ b) = Some q' /\ forall i show,
  let k := (len a - 6) / 2 in
  exists before after, q i show = before ++ rule_lines i k x y ++ rule_lines i (k + 1) x' y' ++ after /\ q' i show = before ++ rule_lines i k x' y' ++ rule_lines i (k + 1) x y ++ after.
Proof.
  intros a b x y x' y' q L E Q. destruct (picture_inv _ q Q) as (L1 & E1 & H). destruct (skip_even a L E) as [E8 L8].
  assert (Ll : len (a ++ [x'; y'; x; y] ++ b) = len (a ++ [x; y; x'; y'] ++ b)) by (rewrite !len_app; reflexivity).
  destruct (picture_is (a ++ [x'; y'; x; y] ++ b)) as (q' & Q' & H'); [now rewrite Ll|now rewrite Ll|]. exists q'. split; [exact Q'|]. intros i show k. rewrite H, H'.
  assert (T : above i (a ++ [x'; y'; x; y] ++ b) = above i (a ++ [x; y; x'; y'] ++ b)).
  { destruct (above_top i (a ++ [x'; y'; x; y] ++ b)) as [[A ->]|[A ->]], (above_top i (a ++ [x; y; x'; y'] ++ b)) as [[B ->]|[B ->]]; try reflexivity.
    - destruct (amounts_app a ([x; y; x'; y'] ++ b) L) as [-> ->], (amounts_app a ([x'; y'; x; y] ++ b) L) as [-> ->]. reflexivity.
    - exfalso. apply B. now apply swapped_amounts.
    - exfalso. apply A. now apply swapped_amounts. }
  rewrite T. rewrite !(skip_app a _ L), !(rules_app i (skipn 8 a) 1 _ E8), L8.
  replace (1 + (len a - 8) / 2) with k by (unfold k; replace (len a - 6) with (len a - 8 + 1 * 2) by lia; rewrite N.div_add by discriminate; lia).
  exists (above i (a ++ [x; y; x'; y'] ++ b) ++ rules_heading i :: rules_picture i 1 (skipn 8 a)), (rules_picture i (k + 1 + 1) b).
  split; rewrite <- app_assoc; reflexivity.
Qed.
(* Other amounts in front of the same rules: the lines from the heading on are the same. *)
Theorem C123_amounts : forall a a' b q, len a = 8 -> len a' = 8 -> cvm_list_picture (a ++ b) = Some q -> exists q', cvm_list_picture (a' ++ b) = Some q' /\ forall i show,
  exists top top' rest, q i show = top ++ rest /\ q' i show = top' ++ rest /\ top_lines i (a ++ b) top /\ top_lines i (a' ++ b) top'.
Proof.
  intros a a' b q L L' Q. destruct (picture_inv _ q Q) as (L1 & E1 & H). assert (Ll : len (a' ++ b) = len (a ++ b)) by (rewrite !len_app; lia).
  destruct (picture_is (a' ++ b)) as (q' & Q' & H'); [now rewrite Ll|now rewrite Ll|]. exists q'. split; [exact Q'|]. intros i show. rewrite H, H', !skip_app by lia.
  replace (skipn 8 a) with (@nil N) by (symmetry; apply skipn_all2; unfold len in L; lia). replace (skipn 8 a') with (@nil N) by (symmetry; apply skipn_all2; unfold len in L'; lia).
  eexists _, _, _. split; [reflexivity|]. split; [reflexivity|]. split; apply above_top.
Qed.
Lemma rules_deep i : forall d k, deepest (rules_picture i k d) <= i + 1.
Proof.
  induction d as [d IH] using length_ind. intros k. destruct d as [|a [|b d]]; cbn [rules_picture]; try apply N.le_0_l.
  rewrite !deepest_cons. pose proof (IH d ltac:(cbn [List.length]; lia) (k + 1)) as K. unfold bold_row, titled, row. cbn [l_tabs]. lia.
Qed.
Lemma list_fits p d q : cvm_list_picture d = Some q -> fits p (deepest (q 0 true)).
Proof.
  intros Q. destruct (picture_inv d q Q) as (_ & _ & H). rewrite H, deepest_app, deepest_cons. pose proof (rules_deep 0 (skipn 8 d) 1) as K.
  assert (A : deepest (above 0 d) <= 0) by (unfold above; destruct (_ && _ && _); [apply N.le_refl|unfold amounts_picture; cbv zeta; rewrite !deepest_cons; unfold titled, row; cbn [l_tabs]; apply N.le_refl]).
  intros _. unfold rules_heading, heading_row, row. cbn [l_tabs]. lia.
Qed.
(* A run of --cvm-list with a rule added at the end. *)
Theorem C123_program : forall p e m m' st s s' ls x y, load_settings e m = Ok st -> load_settings e m' = Ok st -> SpecMain.chosen m OpCvmList s -> SpecMain.chosen m' OpCvmList s' -> text64 p s -> text64 p s' ->
  hex_bytes s' = hex_bytes s ++ [x; y] -> sheet (set_masking st) (set_sort st) OpCvmList s ls -> exists ls', sheet (set_masking st) (set_sort st) OpCvmList s' ls'
    /\ displays (run_main p e m) ls /\ displays (run_main p e m') ls'
    /\ (has_amounts (hex_bytes s) \/ ~ compares y -> ls' = ls ++ rule_lines 0 ((len (hex_bytes s) - 6) / 2) x y)
    /\ (~ has_amounts (hex_bytes s) -> compares y -> ls' = amounts_picture 0 0 0 ++ ls ++ rule_lines 0 ((len (hex_bytes s) - 6) / 2) x y).
Proof.
  intros p e m m' st s s' ls x y S S' C C' T T' E H.
  assert (V : exists q, cvm_list_picture (hex_bytes s) = Some q /\ ls = q 0 true).
  { inversion H as [f q J X|n Y D N|f ns ns' B N A]; subst; [|discriminate|inversion B]. exists q. split; [|reflexivity]. unfold byte_operations in J. cbn [In] in J.
    repeat (destruct J as [J|J]; [try discriminate J; injection J as <-|]); try contradiction; assumption. }
  destruct V as (q & Q & ->). destruct (C123_appended _ q x y Q) as (q' & Q' & P). rewrite <- E in Q'.
  assert (H' : sheet (set_masking st) (set_sort st) OpCvmList s' (q' 0 true)) by (apply (sheet_value _ _ _ _ cvm_list_picture); [unfold byte_operations; cbn [In]; tauto|assumption]).
  exists (q' 0 true). split; [exact H'|]. split; [apply (C73_shown p e m st OpCvmList s); try assumption; now apply (list_fits p (hex_bytes s))|].
  split; [apply (C73_shown p e m' st OpCvmList s'); try assumption; now apply (list_fits p (hex_bytes s'))|]. apply P.
Qed.

(* One rule without amounts, to which a rule with condition 06 is added: the amounts appear. *)
Example C123_example : exists q q', cvm_list_picture [0; 0; 0; 0; 0; 0; 0; 0; 0x42; 3] = Some q /\ cvm_list_picture ([0; 0; 0; 0; 0; 0; 0; 0; 0x42; 3] ++ [0x1F; 6]) = Some q'
  /\ ~ has_amounts [0; 0; 0; 0; 0; 0; 0; 0; 0x42; 3] /\ has_amounts ([0; 0; 0; 0; 0; 0; 0; 0; 0x42; 3] ++ [0x1F; 6])
  /\ q' 0 true = amounts_picture 0 0 0 ++ q 0 true ++ rule_lines 0 2 0x1F 6 /\ rule_lines 0 2 0x1F 6 <> rule_lines 0 2 0x42 3.
Proof.
  set (d := [0; 0; 0; 0; 0; 0; 0; 0; 0x42; 3]). assert (Q : exists q, cvm_list_picture d = Some q) by (eexists; reflexivity). destruct Q as (q & Q).
  destruct (C123_appended d q 0x1F 6 Q) as (q' & Q' & P). assert (Na : ~ has_amounts d) by (intros K; apply amounts_iff in K; discriminate K).
  exists q, q'. split; [exact Q|]. split; [exact Q'|]. split; [exact Na|]. split; [apply amounts_iff; reflexivity|]. split; [|intros K; vm_compute in K; discriminate K].
  destruct (P 0 true) as [_ P2]. change 2 with ((len d - 6) / 2). apply P2; [exact Na|]. now left.
Qed.
Example C123_swapped_example : exists q, 8 <= len [0; 0; 0; 10; 0; 0; 0; 0] /\ cvm_list_picture ([0; 0; 0; 10; 0; 0; 0; 0] ++ [0x42; 3; 0x1F; 6] ++ [0x1E; 0]) = Some q
  /\ rule_lines 0 1 0x42 3 <> rule_lines 0 1 0x1F 6 /\ has_amounts ([0; 0; 0; 10; 0; 0; 0; 0] ++ [0x42; 3; 0x1F; 6] ++ [0x1E; 0]).
Proof.
  assert (Q : exists q, cvm_list_picture ([0; 0; 0; 10; 0; 0; 0; 0] ++ [0x42; 3; 0x1F; 6] ++ [0x1E; 0]) = Some q) by (eexists; reflexivity). destruct Q as (q & Q). exists q.
  split; [discriminate|]. split; [exact Q|]. split; [intros K; vm_compute in K; discriminate K|apply amounts_iff; reflexivity].
Qed.
(* Changing a rule does not always leave the other lines alone. *)
Theorem C123_apart_refuted : exists a x y x' y' q q' i show, 8 <= len a /\ len a mod 2 = 0 /\ cvm_list_picture (a ++ [x; y]) = Some q /\ cvm_list_picture (a ++ [x'; y']) = Some q' /\ len (q i show) <> len (q' i show).
Proof.
  exists [0; 0; 0; 0; 0; 0; 0; 0], 0x42, 3, 0x42, 6. assert (Q : exists q, cvm_list_picture ([0; 0; 0; 0; 0; 0; 0; 0] ++ [0x42; 3]) = Some q /\ len (q 0 true) = 5) by (eexists; split; reflexivity).
  assert (Q' : exists q, cvm_list_picture ([0; 0; 0; 0; 0; 0; 0; 0] ++ [0x42; 6]) = Some q /\ len (q 0 true) = 7) by (eexists; split; vm_compute; reflexivity). destruct Q as (q & Q & L), Q' as (q' & Q' & L').
  exists q, q', 0, true. split; [discriminate|]. split; [reflexivity|]. split; [exact Q|]. split; [exact Q'|]. rewrite L, L'. discriminate.
Qed.
