(** The properties of data that lost its beginning. *)

From Coq Require Import ZArith NArith String List Bool Lia ZifyN ZifyBool ZifyNat Permutation Sorting.
From Verif Require Import Base ModelUtil ModelEnums ModelBitflag ModelSchemas ModelTags ModelTlv ModelValues ModelProcess ModelDisplay
  SpecUtil SpecCodes SpecValues SpecTlv SpecIngenico SpecTags SpecProcess SpecDisplay
  ProofsUtil ProofsGrammar ProofsBer ProofsIngenico ProofsValues PropertiesValues
  PropertiesBer PropertiesIngenico ProofsProcess PropertiesProcess ProofsDisplay ProofsDiagram ProofsScreens ProofsLayout PropertiesDisplay
  SpecPictures ProofsPictures ModelMain SpecMain ProofsMain PropertiesMain ModelCli SpecCli ProofsCli PropertiesCli PropertiesPictures
  SpecReading PropertiesReading ModelTerminal SpecTerminal ProofsTerminal PropertiesTerminal SpecTells ProofsTells PropertiesTells
  SpecSame PropertiesSame SpecMasking PropertiesMasking SpecJoin PropertiesJoin PropertiesCut SpecWrap PropertiesWrap PropertiesScope SpecSorted PropertiesSorted
  SpecBehind PropertiesBehind SpecBreaks PropertiesBreaks SpecOptions PropertiesOptions SpecSlips PropertiesSlips SpecFront.
Import ListNotations.
Local Open Scope N_scope.

(** ** Ingenico fields *)

Lemma same_ingenico p masks s s' : text64 p s -> text64 p s' -> ingenico_parse p masks s = ingenico_parse p masks s' -> same_screen masks OpIngenico s s'.
Proof.
  assert (G : forall s s', text64 p s -> text64 p s' -> ingenico_parse p masks s = ingenico_parse p masks s' ->
    (forall sort ls, sheet masks sort OpIngenico s ls -> sheet masks sort OpIngenico s' ls) /\ (forall e, refused masks OpIngenico s e -> refused masks OpIngenico s' e)).
  { clear s s'. intros s s' T T' E.
    assert (B : forall f ns, tlv_block masks OpIngenico s f ns -> tlv_block masks OpIngenico s' f ns).
    { intros f ns H. inversion H as [|? ? I| |]; subst. constructor. apply (ingenico_block_iff p); [assumption|]. rewrite <- E. now apply (ingenico_block_iff p). }
    split.
    - intros sort ls H. inversion H as [f q I X|n O D N|f ns m K N A]; subst.
      + exfalso. unfold byte_operations in I. cbn [In] in I. repeat (destruct I as [I|I]; [discriminate I|]). exact I.
      + discriminate.
      + apply sheet_block with ns; auto.
    - intros e H. inversion H as [| | | | | | | | | |s0 K|s0 Kn Ku| |op s0 f ns before t after e0 K Ke Kb Kt]; subst.
      + constructor. apply (C24_ingenico_unsupported p); [assumption|]. rewrite <- E. now apply (C24_ingenico_unsupported p).
      + constructor.
        * intros ns K. apply (ingenico_block_iff p) in K; [|assumption]. rewrite <- E in K. apply (ingenico_block_iff p) in K; [|assumption]. now apply (Kn ns).
        * intros K. apply (C24_ingenico_unsupported p) in K; [|assumption]. rewrite <- E in K. apply (C24_ingenico_unsupported p) in K; [|assumption]. contradiction.
      + apply (refused_tag masks OpIngenico s' f ns before t after e); auto. }
  intros T T' E. destruct (G s s' T T' E) as [A B]. destruct (G s' s T' T (eq_sym E)) as [A' B']. split; intros; split; auto.
Qed.
Lemma not_hex_first c l : is_hex_digitb c = false -> all_hex (c :: l) = false.
Proof. intros E. unfold all_hex. cbn [forallb]. now rewrite E. Qed.
Lemma divides_facts c : divides c -> is_hex_digitb c = false /\ c <> colon.
Proof. intros (A & B & _). split; [|assumption]. destruct (is_hex_digitb c) eqn:E; [|reflexivity]. now apply is_hex_digitb_spec in E. Qed.
Lemma head_refused c r : is_hex_digitb c = false -> c <> colon -> match split_colon (c :: r) with Some (u, _) => all_hex u = false | None => True end.
Proof.
  intros H C. cbn [split_colon]. rewrite (proj2 (N.eqb_neq _ _) C). destruct (split_colon r) as [[u w]|]; [|exact I]. now apply not_hex_first.
Qed.
Lemma tail_refused l c r : is_hex_digitb c = false -> c <> colon -> match split_colon (l ++ c :: r) with Some (u, _) => In colon l \/ all_hex u = false | None => True end.
Proof.
  intros H C. induction l as [|x l IH]; cbn [app]; [pose proof (head_refused c r H C) as K; destruct (split_colon (c :: r)) as [[u w]|]; auto|].
  cbn [split_colon]. destruct (N.eqb_spec x colon) as [->|K]; [left; now left|]. destruct (split_colon (l ++ c :: r)) as [[u w]|]; [|exact I].
  destruct IH as [IH|IH]; [left; now right|right]. unfold all_hex in *. cbn [forallb]. now rewrite IH, andb_false_r.
Qed.
(* A rest that starts with a colon, or with hex digits and a colon, in front of h and anything. *)
Lemma h_not_length masks c d r : ~ In colon d -> inext masks (c :: d ++ colon :: letter_h :: r) = Err NonCompliant.
Proof.
  intros C. cbn [inext]. rewrite (split_colon_no d _ C). destruct (negb (all_hex d)); [reflexivity|]. cbv zeta. destruct (trim_leading_0_bytes (bytes_of_digits d)); [reflexivity|].
  pose proof (head_refused letter_h r eq_refl ltac:(discriminate)) as K. destruct (split_colon (letter_h :: r)) as [[u w]|]; [|reflexivity]. now rewrite K.
Qed.
Lemma no_tag masks c d r : ~ In colon d -> (List.length d <= 1)%nat -> inext masks (c :: d ++ colon :: r) = Err NonCompliant.
Proof.
  intros C L. cbn [inext]. rewrite (split_colon_no d _ C). destruct (negb (all_hex d)); [reflexivity|]. destruct d as [|x [|y d]]; [reflexivity|reflexivity|cbn in L; lia].
Qed.
Lemma only_digits masks c d : ~ In colon d -> inext masks (c :: d) = Err NonCompliant.
Proof.
  intros C. cbn [inext]. assert (split_colon d = None) as ->; [|reflexivity]. induction d as [|x d IH]; [reflexivity|]. cbn [split_colon].
  destruct (N.eqb_spec x colon) as [->|K]; [exfalso; apply C; now left|]. rewrite IH; [reflexivity|]. intros I. apply C. now right.
Qed.
Lemma digits_divided masks c d sep r : ~ In colon d -> divides sep -> inext masks (c :: d ++ sep :: r) = Err NonCompliant.
Proof.
  intros C D. apply divides_facts in D. cbn [inext]. pose proof (tail_refused d sep r (proj1 D) (proj2 D)) as K.
  destruct (split_colon (d ++ sep :: r)) as [[u w]|]; [|reflexivity]. destruct K as [K|K]; [contradiction|]. now rewrite K.
Qed.
Lemma not_in_parts a (b : list N) : ~ In colon (a ++ b) -> ~ In colon a /\ ~ In colon b.
Proof. intros C. split; intros I; apply C, in_or_app; auto. Qed.
Lemma rest_of_field masks f f1 f2 s rest : hex_field f -> f = f1 ++ f2 -> f1 <> [] -> f2 <> [] -> followed f2 s rest ->
  inext masks s = Err NonCompliant /\ ~ looks_whole f2
  \/ looks_whole f2 /\ exists e, ing_field masks f2 e /\ ie_type e <> letter_T.
Proof.
  intros [ty td tag ld n txt Ht Hl L F] E N1 N2 W. destruct f1 as [|c g]; [contradiction|]. cbn [app] in E. injection E as <- E.
  pose proof (proj1 Ht) as Htd. pose proof (proj1 Hl) as Hld. pose proof (hex_no_colon td Htd) as Ctd. pose proof (hex_no_colon ld Hld) as Cld. pose proof (hex_no_colon txt F) as Ctx.
  assert (Z : forall f2 s rest, followed f2 s rest -> exists r, s = f2 ++ r).
  { intros x y z [|sep r D]; [exists []; now rewrite app_nil_r|now exists (sep :: r)]. }
  assert (U : forall d r, Forall is_hex_digit d -> looks_whole (d ++ colon :: r) -> (3 <= List.length d)%nat /\ In colon r).
  { intros d r Hd (c & e & x & E' & Hx & Le & Ix). cbn [app] in E'. apply (f_equal split_colon) in E'. inversion Hx as [|? ? Hc He]; subst.
    rewrite (split_colon_no d r (hex_no_colon d Hd)) in E'. change (c :: e ++ colon :: x) with ((c :: e) ++ colon :: x) in E'. rewrite (split_colon_no (c :: e) x (hex_no_colon _ Hx)) in E'.
    injection E' as -> ->. split; [cbn [List.length]; lia|assumption]. }
  destruct (split_at td _ g f2 colon E N2) as [(A2 & Etd & ->)|(B1 & -> & E2)].
  - assert (FA : Forall is_hex_digit A2) by (rewrite Etd in Htd; now apply Forall_app in Htd).
    destruct (Nat.le_gt_cases 3 (List.length A2)) as [K|K].
    + right. destruct A2 as [|c [|d [|d' A2]]]; cbn [List.length] in K; try lia. inversion FA as [|? ? Fc Fd]; subst. split.
      * exists c, (d :: d' :: A2), (ld ++ colon :: letter_h :: txt). split; [reflexivity|]. split; [assumption|]. split; [cbn [List.length]; lia|]. apply in_or_app. right. now left.
      * pose proof (all_hex_true _ Fd) as Hx. assert (T : exists tag', tag_digits (d :: d' :: A2) tag').
        { eexists. apply tag_digits_iff; [assumption|]. split; [reflexivity|]. intros Q.
          destruct (trim_leading_split (bytes_of_digits (d :: d' :: A2))) as (k & Ek & Hn & _). apply Hn in Q. cbn [bytes_of_digits] in Q. discriminate Q. }
        destruct T as [tag' T]. destruct (masked_dec masks txt) as [M|M].
        -- exists (mkEntry c tag' Masked). split; [apply (ing_field_intro masks c (d :: d' :: A2) tag' ld n letter_h txt Masked T Hl); now constructor|].
           cbn [ie_type]. intros ->. apply is_hex_digitb_spec in Fc. discriminate.
        -- exists (mkEntry c tag' (Normal (bytes_of_digits txt))). split; [apply (ing_field_intro masks c (d :: d' :: A2) tag' ld n letter_h txt _ T Hl); now constructor|].
           cbn [ie_type]. intros ->. apply is_hex_digitb_spec in Fc. discriminate.
    + left. split; [|intros X; apply U in X; [lia|assumption]]. destruct (Z _ _ _ W) as [r ->]. rewrite <- app_assoc. cbn [app]. rewrite <- app_assoc. cbn [app].
      destruct A2 as [|c A2]; cbn [app]; [now apply h_not_length|]. apply no_tag; [|cbn [List.length] in K; lia]. inversion FA; subst. now apply hex_no_colon.
  - destruct (split_at ld _ B1 f2 colon E2 N2) as [(A2 & Eld & ->)|(B2 & -> & E3)].
    + assert (FA : Forall is_hex_digit A2) by (rewrite Eld in Hld; now apply Forall_app in Hld).
      left. split; [|intros X; apply U in X; [|assumption]; destruct X as [_ [X|X]]; [discriminate X|contradiction]].
      destruct (Z _ _ _ W) as [r ->]. rewrite <- app_assoc. cbn [app]. destruct A2 as [|c A2]; cbn [app].
      * cbn [inext]. pose proof (head_refused letter_h (txt ++ r) eq_refl ltac:(discriminate)) as K. destruct (split_colon (letter_h :: txt ++ r)) as [[u w]|]; [now rewrite K|reflexivity].
      * apply h_not_length. inversion FA; subst. now apply hex_no_colon.
    + assert (C2 : ~ In colon f2).
      { assert (C : ~ In colon (letter_h :: txt)) by (intros [C|C]; [discriminate C|contradiction]). rewrite E3 in C. now apply not_in_parts in C. }
      left. split.
      * destruct f2 as [|c d]; [contradiction|]. assert (Cd : ~ In colon d) by (intros I; apply C2; now right).
        destruct W as [|sep r D]; [now apply only_digits|]. cbn [app]. now apply digits_divided.
      * intros (c & d & x & -> & _). apply C2. right. apply in_or_app. right. now left.
Qed.

(* A field cut in its tag is passed over if three digits of the tag are left; every other field that lost its beginning is refused. *)
Theorem C116_fields : forall p masks f1 f2 s rest, text64 p s -> ascii_text s -> hex_field (f1 ++ f2) -> f1 <> [] -> f2 <> [] -> followed f2 s rest ->
  (looks_whole f2 -> same_screen masks OpIngenico s rest) /\ (~ looks_whole f2 -> refused masks OpIngenico s NonCompliant).
Proof.
  intros p masks f1 f2 s rest T A H N1 N2 W. destruct (rest_of_field masks (f1 ++ f2) f1 f2 s rest H eq_refl N1 N2 W) as [[E N]|(Y & e & F & Ty)].
  - split; [contradiction|]. intros _. apply (ingenico_noncompliant p); [assumption|]. rewrite text64_eq by assumption. apply stops; [assumption| |assumption].
    intros ->. inversion W as [E1 E2|sep r D E1 E2]; [congruence|]. destruct f2; discriminate.
  - split; [|contradiction]. intros _. destruct W as [|sep rest D].
    + apply (same_ingenico p); [assumption|split; [apply T|reflexivity]|]. rewrite !text64_eq; [|split; [apply T|reflexivity]|constructor|assumption|assumption].
      rewrite <- (app_nil_r f2) in A |- *. rewrite (parse_text_field masks f2 e []) by assumption. now rewrite (proj2 (N.eqb_neq _ _) Ty).
    + assert (Tr : text64 p rest) by (destruct T as [T1 T2]; split; [assumption|rewrite len_app, len_cons in T2; lia]).
      apply (same_ingenico p); [assumption|assumption|]. exact (C26_other_fields_skipped p masks [] [] f2 e sep rest T A (ing_prefix_nil masks) F Ty).
Qed.
Lemma ascii_rest f s rest : followed f s rest -> ascii_text s -> ascii_text rest.
Proof. intros [|sep r D] A; [constructor|]. apply ascii_app in A. now destruct A as [_ A]; apply ascii_cons in A. Qed.
(* A separator in front of a field. *)
Lemma separator_first p masks sep f s rest : text64 p (sep :: s) -> ascii_text (sep :: s) -> divides sep -> hex_field f -> followed f s rest ->
  refused masks OpIngenico (sep :: s) NonCompliant \/ same_screen masks OpIngenico (sep :: s) rest.
Proof.
  intros T A D H W. assert (Z : exists r, s = f ++ r) by (destruct W as [|sep' r D']; [exists []; now rewrite app_nil_r|now exists (sep' :: r)]).
  destruct H as [ty td tag ld n txt Ht Hl L F]. destruct (is_hex_digitb ty) eqn:X.
  - right. set (f := ty :: td ++ colon :: ld ++ colon :: letter_h :: txt) in *. assert (E : exists e, ing_field masks (sep :: f) e /\ ie_type e <> letter_T).
    { assert (Fd : Forall is_hex_digit (ty :: td)) by (constructor; [now apply is_hex_digitb_spec|apply Ht]).
      assert (G : exists tag', tag_digits (ty :: td) tag').
      { eexists. apply tag_digits_iff; [now apply all_hex_true|]. split; [reflexivity|]. intros Q. destruct (trim_leading_split (bytes_of_digits (ty :: td))) as (k & _ & Hn & _). apply Hn in Q.
        destruct Ht as (_ & k' & Ek & Nt & _). destruct td as [|x td]; [destruct k', tag; try discriminate; contradiction|]. cbn [bytes_of_digits] in Q. discriminate Q. }
      destruct G as [tag' G]. destruct D as (_ & _ & D). change (sep :: f) with (sep :: (ty :: td) ++ colon :: ld ++ colon :: letter_h :: txt). destruct (masked_dec masks txt) as [M|M].
      - exists (mkEntry sep tag' Masked). split; [apply (ing_field_intro masks sep _ tag' ld n letter_h txt _ G Hl); now constructor|exact D].
      - exists (mkEntry sep tag' (Normal (bytes_of_digits txt))). split; [apply (ing_field_intro masks sep _ tag' ld n letter_h txt _ G Hl); now constructor|exact D]. }
    destruct E as (e & Fe & Ty). pose proof W as W'. destruct W as [|sep' rest D'].
    + apply (same_ingenico p); [assumption|split; [apply T|reflexivity]|]. rewrite !text64_eq; [|split; [apply T|reflexivity]|constructor|assumption|assumption].
      rewrite <- (app_nil_r (sep :: f)) in A |- *. rewrite (parse_text_field masks _ e []) by assumption. now rewrite (proj2 (N.eqb_neq _ _) Ty).
    + assert (Tr : text64 p rest) by (destruct T as [T1 T2]; split; [assumption|rewrite len_cons, len_app, len_cons in T2; lia]).
      apply (same_ingenico p); [assumption|assumption|]. exact (C26_other_fields_skipped p masks [] [] (sep :: f) e sep' rest T A (ing_prefix_nil masks) Fe Ty).
  - left. apply (ingenico_noncompliant p); [assumption|]. rewrite text64_eq by assumption. apply stops; [assumption|discriminate|].
    destruct Z as [r ->]. cbn [app inext]. destruct (N.eqb_spec ty colon) as [->|C]; [cbn [split_colon]; reflexivity|].
    pose proof (head_refused ty ((td ++ colon :: ld ++ colon :: letter_h :: txt) ++ r) X C) as K. destruct (split_colon (ty :: _)) as [[u w]|]; [now rewrite K|reflexivity].
Qed.
Lemma same_refl masks op s : same_screen masks op s s.
Proof. split; reflexivity. Qed.
(* Wherever the beginning ends: the rest is refused, or shown as the fields that are left. *)
Theorem C116_anywhere : forall p masks fs a b, text64 p (a ++ b) -> ascii_text (a ++ b) -> fields fs (a ++ b) ->
  refused masks OpIngenico b NonCompliant
  \/ exists gone kept pre rest, fs = gone ++ kept /\ (closed gone pre /\ a ++ b = pre ++ rest \/ kept = []) /\ fields kept rest /\ same_screen masks OpIngenico b rest.
Proof.
  intros p masks fs a b T A F. remember (a ++ b) as s eqn:E. revert a b E T A. induction F as [|f H|f sep fs s H D F IH]; intros a b E T A.
  - symmetry in E. apply app_eq_nil in E. destruct E as [-> ->]. right. exists [], [], [], []. split; [reflexivity|]. split; [right; reflexivity|]. split; [constructor|apply same_refl].
  - destruct a as [|x a]; [cbn [app] in E; subst b; right; exists [], [f], [], f; split; [reflexivity|]; split; [left; split; [constructor|reflexivity]|]; split; [now constructor|apply same_refl]|].
    destruct b as [|y b]; [right; exists [f], [], [], []; split; [reflexivity|]; split; [now right|]; split; [constructor|apply same_refl]|].
    assert (Tb : text64 p (y :: b)) by (rewrite E in T; now apply text64_cut in T). assert (Ab : ascii_text (y :: b)) by (rewrite E in A; now apply ascii_app in A).
    rewrite E in H. destruct (C116_fields p masks (x :: a) (y :: b) (y :: b) [] Tb Ab H ltac:(discriminate) ltac:(discriminate) (followed_end _)) as [Y N].
    destruct (rest_of_field masks _ (x :: a) (y :: b) _ [] H eq_refl ltac:(discriminate) ltac:(discriminate) (followed_end _)) as [[_ Q]|[Q _]]; [left; now apply N|right].
    exists [f], [], [], []. split; [reflexivity|]. split; [now right|]. split; [constructor|now apply Y].
  - destruct b as [|y b]; [right; exists (f :: fs), [], [], []; split; [now rewrite app_nil_r|]; split; [now right|]; split; [constructor|apply same_refl]|].
    assert (Tb : text64 p (y :: b)) by (rewrite E in T; now apply text64_cut in T). assert (Ab : ascii_text (y :: b)) by (rewrite E in A; now apply ascii_app in A).
    destruct (split_at f s a (y :: b) sep E ltac:(discriminate)) as [(A2 & Ef & Eb)|(B1 & -> & Es)].
    + destruct a as [|x a]; [cbn [app] in E; right; exists [], (f :: fs), [], (f ++ sep :: s); split; [reflexivity|]; split; [left; split; [constructor|now rewrite E]|]; split; [now constructor|rewrite E; apply same_refl]|].
      assert (G : forall c, followed A2 (y :: b) c -> c = s -> refused masks OpIngenico (y :: b) NonCompliant \/ exists gone kept pre rest, f :: fs = gone ++ kept /\ (closed gone pre /\ f ++ sep :: s = pre ++ rest \/ kept = []) /\ fields kept rest /\ same_screen masks OpIngenico (y :: b) rest).
      { intros c W ->. destruct A2 as [|z A2].
        - cbn [app] in Eb. injection Eb as -> ->. destruct F as [|f' H'|f' sep' fs s H' D' F'].
          + left. apply (ingenico_noncompliant p); [assumption|]. rewrite text64_eq by assumption. apply stops; [assumption|discriminate|reflexivity].
          + destruct (separator_first p masks sep f' f' [] Tb Ab D H' (followed_end _)) as [R|R]; [now left|right]. exists [f; f'], [], [], []. split; [reflexivity|]. split; [now right|]. split; [constructor|assumption].
          + destruct (separator_first p masks sep f' _ s Tb Ab D H' (followed_more _ sep' s D')) as [R|R]; [now left|right]. exists [f; f'], fs, (f ++ sep :: f' ++ [sep']), s. split; [reflexivity|].
            split; [|split; assumption]. left. split; [apply closed_more; [assumption|assumption|]; apply (closed_more f' sep' [] []); [assumption|assumption|constructor]|].
            rewrite <- !app_assoc. cbn [app]. now rewrite <- app_assoc.
        - rewrite Ef in H. destruct (C116_fields p masks (x :: a) (z :: A2) (y :: b) s Tb Ab H ltac:(discriminate) ltac:(discriminate) W) as [Y N].
          destruct (rest_of_field masks _ (x :: a) (z :: A2) _ s H eq_refl ltac:(discriminate) ltac:(discriminate) W) as [[_ Q]|[Q _]]; [left; now apply N|right].
          exists [f], fs, (f ++ [sep]), s. split; [reflexivity|]. split; [|split; [assumption|now apply Y]]. left.
          split; [apply (closed_more f sep [] []); [now rewrite Ef|assumption|constructor]|]. now rewrite <- app_assoc. }
      apply (G s); [|reflexivity]. rewrite Eb. now constructor.
    + assert (Ts : text64 p s) by (destruct T as [T1 T2]; split; [assumption|rewrite len_app, len_cons in T2; lia]).
      assert (As : ascii_text s) by (apply ascii_app in A; destruct A as [_ A]; now apply ascii_cons in A).
      destruct (IH B1 (y :: b) Es Ts As) as [R|(gone & kept & pre & rest & -> & K & Fl & Sm)]; [now left|right].
      exists (f :: gone), kept, (f ++ sep :: pre), rest. split; [reflexivity|]. split; [|split; assumption]. destruct K as [[K1 K2]|K]; [left|now right].
      split; [now apply closed_more|]. rewrite K2, <- app_assoc. reflexivity.
Qed.
Lemma closed_part p masks gone pre : text64 p pre -> ascii_text pre -> closed gone pre -> exists na, part masks OpIngenico pre na.
Proof.
  intros T A C. assert (G : exists es na, ing_prefix masks pre es /\ ing_nodes masks es na).
  { clear T. induction C as [|f sep fs s H D C IH]; [exists [], []; split; constructor|]. apply ascii_app in A. destruct A as [Af As]. apply ascii_cons in As.
    destruct (IH (proj2 As)) as (es & na & P & Q). pose proof H as H0. destruct H as [ty td tag ld n txt Ht Hl L F].
    assert (E : exists e, ing_field masks (ty :: td ++ colon :: ld ++ colon :: letter_h :: txt) e) by (destruct (masked_dec masks txt); eexists; (eapply ing_field_intro; [exact Ht|exact Hl|now constructor])).
    destruct E as [e E]. exists (e :: es). destruct (N.eq_dec (ie_type e) letter_T) as [Ty|Ty].
    - destruct (ing_child_ok masks e (fun v Hv => field_data_bytes masks _ e v Af E Hv)) as [m M]. exists (m :: na). split; [now constructor|].
      apply ing_nodes_take; [assumption| |assumption]. now apply (ing_child_node masks e m (fun v Hv => field_data_bytes masks _ e v Af E Hv)).
    - exists na. split; [now constructor|now apply ing_nodes_skip]. }
  destruct G as (es & na & P & Q). exists na. now apply part_ingenico with es.
Qed.
(* Unsorted, the screen of the rest is the end of the screen of the whole. *)
Theorem C116_ingenico : forall p masks fs a b ls, text64 p (a ++ b) -> fields fs (a ++ b) -> sheet masks false OpIngenico (a ++ b) ls ->
  refused masks OpIngenico b NonCompliant \/ exists la lb, sheet masks false OpIngenico b lb /\ ls = below la lb.
Proof.
  intros p masks fs a b ls T F H.
  assert (B : exists ns, tlv_block masks OpIngenico (a ++ b) None ns /\ Forall (fun t => forall e, ~ tag_fails t e) (flat_map preorder ns) /\ ls = forest_lines ns 0 true).
  { inversion H as [g q I E|n O' D N|f' ns m B' N A']; subst.
    - exfalso. unfold byte_operations in I. cbn [In] in I. repeat (destruct I as [I|I]; [discriminate I|]). destruct I.
    - discriminate.
    - exists ns. inversion B'; subst. auto. }
  destruct B as (ns & B & N & ->). assert (A : ascii_text (a ++ b)) by (inversion B as [|? ? I| |]; subst; apply I).
  destruct (C116_anywhere p masks fs a b T A F) as [R|(gone & kept & pre & rest & -> & K & Fk & Sm)]; [now left|right].
  assert (G : exists na nb, ns = na ++ nb /\ tlv_block masks OpIngenico rest None nb).
  { destruct K as [[C E]|K].
    - rewrite E in B, T, A. pose proof (text64_cut p pre rest T) as [Tp _]. apply ascii_app in A. destruct (closed_part p masks gone pre Tp (proj1 A) C) as [na P].
      apply (part_block p masks OpIngenico pre na rest None ns T P) in B. destruct B as (nb & -> & B). eauto.
    - subst kept. inversion Fk; subst. exists ns, []. split; [now rewrite app_nil_r|]. constructor. split; [constructor|]. exists []. split; constructor. }
  destruct G as (na & nb & -> & Bb). rewrite flat_map_app, Forall_app in N. exists (forest_lines na 0 true), (forest_lines nb 0 true). split; [|apply forest_app].
  apply Sm. change (forest_lines nb 0 true) with (format_lines None ++ forest_lines nb 0 true). apply sheet_block with nb; [assumption|apply N|reflexivity].
Qed.

(** ** BER-TLV *)

Lemma second_uninterpreted b : b < 128 -> ~ In [b] interpreted_tags.
Proof. intros L I. unfold interpreted_tags in I. cbn [In] in I. repeat (destruct I as [I|I]; [try discriminate I; injection I as <-; lia|]). destruct I. Qed.
Lemma uninterpreted_kept t c ty d : ~ In t interpreted_tags -> forall e, ~ tag_fails (mkRawTag t c ty d) e.
Proof.
  intros N e (v & _ & R). apply N. cbn [rt_tag] in R. clear N. inversion R as [t' n d' I L| | | | | | |]; subst; unfold interpreted_tags; cbn [In]; auto 20.
  unfold fixed_lengths in I. cbn [In] in I. repeat (destruct I as [I|I]; [injection I as <- <-; auto 20|]). destruct I.
Qed.
(* Without the first byte of a tag of two bytes the value is shown under the tag that is the second byte, and everything below stays. *)
Theorem C116_tag : forall masks s s' t1 t2 x ls, hex_bytes s = t1 :: t2 :: x -> hex_bytes s' = t2 :: x -> t1 mod 32 = 31 -> second_byte t2 ->
  sheet masks false OpBer s ls ->
  exists d c lo, ls = below (tree_lines true (RawNode (plain_object [t1; t2] d) c) 0) lo
    /\ sheet masks false OpBer s' (below (tag_lines (plain_object [t2] d) 0 true) lo).
Proof.
  intros masks s s' t1 t2 x ls E E' L1 (L2 & M2 & P2) H. inversion H as [g q I X|n O' D N|f' ns m B' N A']; subst.
  { exfalso. unfold byte_operations in I. cbn [In] in I. repeat (destruct I as [I|I]; [discriminate I|]). destruct I. }
  { discriminate. }
  inversion B' as [s0 ns0 (objs & O & R) E1 E2| | |]; subst. clear B' H. cbn [format_lines app]. rewrite E in O.
  inversion O as [rest K|bytes t v mid os rest Ob Os K]; subst.
  inversion Ob as [t' l v' rest' Tg Ln K Eq]; subst.
  assert (Et : t = [t1; t2] /\ x = l ++ v ++ mid).
  { inversion Tg as [b Nb|b more last Mb Fm Ll]; subst; cbn [app] in Eq.
    - injection Eq as -> _. contradiction.
    - injection Eq as -> Eq. destruct more as [|y more]; cbn [app] in Eq; [injection Eq as -> Eq; auto|]. injection Eq as -> _. inversion Fm; subst. lia. }
  destruct Et as [-> ->]. inversion R as [|o n os' ns' Tr Trs]; subst. clear O Ob Tg Eq R.
  assert (Rd : exists d, reported masks v d /\ exists c, n = RawNode (plain_object [t1; t2] d) c).
  { inversion Tr as [t0 v0 d Rp Cs|t0 v0 ob ch Ct Nm Oo Tt]; subst.
    - exists d. split; [assumption|]. now exists [].
    - exists (Normal v). split; [now right|]. exists ch. unfold plain_object. rewrite <- Ct. reflexivity. }
  destruct Rd as (d & Rp & c & ->). exists d, c, (forest_lines ns' 0 true). split; [exact (forest_app [_] ns')|].
  change (tag_lines (plain_object [t2] d) 0 true) with (tag_lines (node_tag (RawNode (plain_object [t2] d) [])) 0 true).
  replace (tag_lines (node_tag (RawNode (plain_object [t2] d) [])) 0 true) with (forest_lines [RawNode (plain_object [t2] d) []] 0 true).
  2: { unfold forest_lines. cbn [map separated tree_lines node_tag]. now rewrite app_nil_r. }
  rewrite <- forest_app. change (forest_lines ([RawNode (plain_object [t2] d) []] ++ ns') 0 true) with (format_lines None ++ forest_lines (RawNode (plain_object [t2] d) [] :: ns') 0 true).
  apply sheet_block with (RawNode (plain_object [t2] d) [] :: ns'); [constructor| |reflexivity].
  - exists (([t2], v) :: os). split.
    + rewrite E'. apply ber_objects_cons with mid; [|assumption]. apply (ber_object_intro [t2] l v mid); [now constructor|assumption|assumption].
    + constructor; [|assumption]. apply ber_tree_leaf; [assumption|now left].
  - cbn [flat_map preorder app] in N |- *. constructor; [apply uninterpreted_kept, second_uninterpreted, L2|]. inversion N; subst. now apply Forall_app in H2.
Qed.
(* Without the tag and length of a template its objects are shown one step further out, and everything below stays. *)
Theorem C116_template : forall masks s after ls lo t l w w', sheet masks false OpBer s ls -> sheet masks false OpBer after lo ->
  ber_tag t -> type_of (first_byte t) = Constructed -> ber_len l (len (hex_bytes s)) -> hex_bytes s <> [] -> ~ masked masks (hex_bytes s) ->
  hex_bytes w = t ++ l ++ hex_bytes w' -> hex_bytes w' = hex_bytes s ++ hex_bytes after ->
  sheet masks false OpBer w (below (template_lines t (hex_bytes s) ls) lo) /\ sheet masks false OpBer w' (below ls lo).
Proof.
  intros masks s after ls lo t l w w' S A Tg C L Ne M E E'. split.
  - change (below (template_lines t (hex_bytes s) ls) lo) with (below [] (below (template_lines t (hex_bytes s) ls) lo)).
    apply (level_sheet masks s ls [] after [] lo t l w); [assumption|apply none_sheet|assumption..|]. now rewrite E, E'.
  - destruct (ber_sheet _ _ _ _ S) as (ns & ? & (os & O & R) & N & -> & ->). destruct (ber_sheet _ _ _ _ A) as (na & ? & (oa & Oa & Ra) & Na & -> & ->).
    rewrite below_forest. change (forest_lines (ns ++ na) 0 true) with (format_lines None ++ forest_lines (ns ++ na) 0 true).
    apply sheet_block with (ns ++ na); [constructor| |reflexivity].
    + exists (os ++ oa). split; [rewrite E'; now apply objects_join|now apply trees_join].
    + rewrite flat_map_app, Forall_app. now split.
Qed.

(** ** Values *)

Lemma digits_left a b : List.length (digits_in (a ++ b)) = (List.length (digits_in a) + List.length (digits_in b))%nat.
Proof. unfold digits_in. now rewrite filter_app, app_length. Qed.
Lemma bytes_left s : len (hex_bytes s) = len (digits_in s) / 2.
Proof. unfold hex_bytes, digits_in, len. rewrite bytes_of_digits_length, Nat.div2_div, Nat2N.inj_div. reflexivity. Qed.
Lemma no_digits_lost a b : digits_in a = [] -> hex_bytes (a ++ b) = hex_bytes b.
Proof. unfold digits_in, hex_bytes. intros E. now rewrite filter_app, E. Qed.
(* A value of a fixed size is refused, unless no digit is lost or a single one that was one too many. *)
Theorem C116_values : forall masks sort op n a b ls, In (op, n) sizes -> sheet masks sort op (a ++ b) ls ->
  (digits_in a = [] /\ sheet masks sort op b ls)
  \/ (len (digits_in a) = 1 /\ len (digits_in (a ++ b)) = 2 * n + 1)
  \/ (len (hex_bytes b) < n /\ refused masks op b (wrong_size op n (len (hex_bytes b)))).
Proof.
  intros masks sort op n a b ls I H. pose proof (PropertiesOptions.sized masks sort op n _ ls I H) as L. destruct (digits_in a) as [|d1 r] eqn:Ea.
  - left. split; [reflexivity|]. destruct (value_sheet masks sort op _ ls (or_introl (size_value op n I)) H) as (f & q & J & E & ->).
    apply sheet_value with f; [assumption|]. now rewrite <- (no_digits_lost a b Ea).
  - right. pose proof (digits_left a b) as K. rewrite Ea in K. rewrite bytes_left in L. cbn [List.length] in K. rewrite bytes_left.
    assert (K' : len (digits_in (a ++ b)) = 1 + len r + len (digits_in b)) by (unfold len; rewrite K; lia).
    destruct (N.lt_ge_cases (len (digits_in b) / 2) n) as [Q|Q].
    + right. split; [assumption|]. rewrite <- bytes_left. apply misfit; [assumption|]. rewrite bytes_left. lia.
    + left. rewrite len_cons. rewrite K' in L |- *. pose proof (N.div_mod (1 + len r + len (digits_in b)) 2 ltac:(lia)). pose proof (N.mod_lt (1 + len r + len (digits_in b)) 2 ltac:(lia)).
      pose proof (N.div_mod (len (digits_in b)) 2 ltac:(lia)). pose proof (N.mod_lt (len (digits_in b)) 2 ltac:(lia)). lia.
Qed.
(* In a TVR, CVR or TSI such a digit is never noticed: the value shown is shifted by one digit. *)
Theorem C116_shifted : forall p masks sort op n a b ls, text64 p b -> In op lenient -> In (op, n) sizes -> sheet masks sort op (a ++ b) ls ->
  len (digits_in a) = 1 -> len (digits_in (a ++ b)) = 2 * n + 1 -> exists ls', sheet masks sort op b ls'.
Proof.
  intros p masks sort op n a b ls T O I H Ea Eab. apply (lenient_sheet p); [assumption|assumption|].
  assert (L : len (hex_bytes b) = len (hex_bytes (a ++ b))).
  { rewrite !bytes_left, Eab. pose proof (digits_left a b) as K. unfold len in *. assert (E : N.of_nat (List.length (digits_in b)) = 2 * n) by lia. rewrite E.
    rewrite (N.mul_comm 2 n), N.div_mul, N.add_comm, N.div_add by lia. reflexivity. }
  rewrite L. apply (sheet_size masks sort op _ ls); [|assumption]. cbn [lenient SpecSlips.sized In] in *. tauto.
Qed.
(* Identified tags, CVM lists and service codes are never refused as long as enough is left. *)
Lemma dec_value_suffix a b : dec_value b <= dec_value (a ++ b).
Proof. induction a as [|x a IH]; cbn [app dec_value]; [apply N.le_refl|eapply N.le_trans; [exact IH|apply N.le_add_l]]. Qed.
Lemma white_no_digit w c : Forall is_white_space w -> In c w -> ~ is_dec_digit c.
Proof.
  intros F I [A B]. rewrite Forall_forall in F. specialize (F c I). unfold is_white_space, white_space_chars in F. cbn [In] in F. repeat (destruct F as [<-|F]; [lia|]). exact F.
Qed.
Lemma number_left s n a b : denotes_number s n -> s = a ++ b -> (exists c, In c b /\ is_dec_digit c) -> exists n', denotes_number b n' /\ n' <= n.
Proof.
  intros (w1 & sg & ds & w2 & E & F1 & F2 & G & Nd & Fd & V) Es (c & Ic & Dc). rewrite Es in E. clear s Es.
  assert (X : forall (x y u v : list N), x ++ y = u ++ v -> (exists z, x = u ++ z /\ v = z ++ y) \/ (exists z, u = x ++ z /\ y = z ++ v)).
  { clear. intros x. induction x as [|i x IH]; intros y u v E; [right; exists u; auto|]. destruct u as [|j u]; [left; exists (i :: x); auto|].
    cbn [app] in E. injection E as -> E. destruct (IH y u v E) as [(z & -> & ->)|(z & -> & ->)]; [left|right]; exists z; auto. }
  symmetry in E. destruct (X _ _ _ _ E) as [(z & -> & ->)|(z & -> & E1)].
  { exists n. split; [|lia]. exists z, sg, ds, w2. apply Forall_app in F1. tauto. }
  clear E. assert (Q : (sg ++ ds) ++ w2 = z ++ b) by now rewrite <- app_assoc. clear E1. destruct (X _ _ _ _ Q) as [(y & E2 & ->)|(y & _ & ->)].
  2: { exfalso. apply Forall_app in F2. exact (white_no_digit b c (proj2 F2) Ic Dc). }
  assert (K : forall d, Forall is_dec_digit d -> d <> [] -> dec_value d <= n -> exists n', denotes_number (d ++ w2) n' /\ n' <= n).
  { intros d Hd Ne L. exists (dec_value d). split; [|assumption]. exists [], [], d, w2. repeat split; auto. }
  destruct G as [-> | ->]; cbn [app] in E2.
  - subst ds. apply Forall_app in Fd. destruct y as [|i y].
    + exfalso. cbn [app] in Ic. exact (white_no_digit w2 c F2 Ic Dc).
    + apply K; [apply Fd|discriminate|]. rewrite V. apply dec_value_suffix.
  - destruct z as [|j z]; cbn [app] in E2.
    + subst y. exists n. split; [|lia]. exists [], [43], ds, w2. repeat split; auto.
    + injection E2 as <- ->. apply Forall_app in Fd. destruct y as [|i y].
      * exfalso. cbn [app] in Ic. exact (white_no_digit w2 c F2 Ic Dc).
      * apply K; [apply Fd|discriminate|]. rewrite V. apply dec_value_suffix.
Qed.
Theorem C116_unnoticed : forall masks sort op a b ls, sheet masks sort op (a ++ b) ls -> enough op b -> exists ls', sheet masks sort op b ls'.
Proof.
  intros masks sort op a b ls H W. destruct op; try contradiction; cbn [enough] in W.
  - eexists. apply sheet_value with cvm_list_picture; [cbn [byte_operations In]; tauto|]. unfold cvm_list_picture. destruct W as [W1 W2].
    rewrite (proj2 (N.leb_le _ _) W1). assert (len (hex_bytes b) mod 2 =? 0 = true) as ->; [|reflexivity]. apply N.eqb_eq. apply N.even_spec in W2. destruct W2 as [k ->]. rewrite N.mul_comm. apply N.mod_mul. lia.
  - destruct (hex_bytes b) as [|x t] eqn:E; [contradiction|]. eexists. apply sheet_value with identify_picture; [cbn [byte_operations In]; tauto|]. rewrite E. reflexivity.
  - inversion H as [f q J X|n O D N|f ns m B N A]; subst.
    + exfalso. unfold byte_operations in J. cbn [In] in J. repeat (destruct J as [J|J]; [discriminate J|]). destruct J.
    + destruct (number_left _ n a b D eq_refl W) as (n' & D' & L). exists (service_picture n' 0 true). apply sheet_service_code; [reflexivity|assumption|lia].
    + inversion B.
Qed.

(* When the format is guessed, the value of a field can be taken for objects of its own. *)
Theorem C116_auto_refuted : exists masks fs a b ls lb l, fields fs (a ++ b) /\ sheet masks false OpAuto (a ++ b) ls /\ sheet masks false OpAuto b lb
  /\ In l lb /\ ~ In l ls /\ ~ In l (format_lines (Some BerTlv)).
Proof.
  set (a := lit "T9F02:03:h"). set (b := lit "5A0112").
  set (n := RawNode (mkRawTag [0x9F; 2] TagClass_ContextSpecific Primitive (Normal [0x5A; 1; 0x12])) []).
  set (n' := RawNode (mkRawTag [0x5A] TagClass_Application Primitive (Normal [0x12])) []).
  assert (T : text64 p64 (a ++ b)) by (split; vm_compute; reflexivity). assert (T' : text64 p64 b) by (split; vm_compute; reflexivity).
  exists [], [a ++ b], a, b, (format_lines (Some Ingenico) ++ forest_lines [n] 0 true), (format_lines (Some BerTlv) ++ forest_lines [n'] 0 true).
  exists (nth (List.length (format_lines (Some BerTlv))) (format_lines (Some BerTlv) ++ forest_lines [n'] 0 true) SpecDisplay.blank).
  assert (P : pair_ok ([0x9F; 2], [0x5A; 1; 0x12])) by (split; [cbn; bytes_lit|]; split; [apply (ber_tag_long 0x9F [] 2); [reflexivity|constructor|lia]|split; [cbn; bytes_lit|vm_compute; reflexivity]]).
  split; [apply fields_last; exact (std_hex_field [0x9F; 2] [0x5A; 1; 0x12] P)|].
  split; [apply (sheet_block [] false OpAuto (a ++ b) (Some Ingenico) [n]); [|repeat constructor; now apply no_failure|reflexivity]|
    split; [apply (sheet_block [] false OpAuto b (Some BerTlv) [n']); [|repeat constructor; now apply no_failure|reflexivity]|]].
  - apply (tlv_settles p64 [] OpAuto (a ++ b) _ T eq_refl). vm_compute. reflexivity.
  - apply (tlv_settles p64 [] OpAuto b _ T' eq_refl). vm_compute. reflexivity.
  - split; [apply nth_In; vm_compute; lia|]. split; intros K; vm_compute in K; repeat (destruct K as [K|K]; [discriminate K|]); exact K.
Qed.

(* What the program does with the end of such fields. *)
Lemma below_deepest la lb : deepest lb <= deepest (below la lb).
Proof.
  unfold below. destruct la as [|l1 la]; [apply N.le_refl|]. destruct lb as [|l2 lb]; [apply N.le_0_l|].
  unfold deepest. rewrite map_app, fold_right_app. generalize (map l_tabs (l1 :: la)) as t. cbn [map]. generalize (map l_tabs lb) as u. intros u t.
  induction t as [|x t IH]; cbn [fold_right]; [cbn [fold_right] in *; lia|]. etransitivity; [exact IH|apply N.le_max_r].
Qed.
Theorem C116_program : forall p e e' m m' st st' fs a b ls, load_settings e m = Ok st -> load_settings e' m' = Ok st' ->
  set_masking st' = set_masking st -> set_sort st = false -> set_sort st' = false ->
  SpecMain.chosen m' OpIngenico (a ++ b) -> SpecMain.chosen m OpIngenico b -> text64 p (a ++ b) -> fields fs (a ++ b) ->
  sheet (set_masking st) false OpIngenico (a ++ b) ls -> fits p (deepest ls) ->
  displays (run_main p e' m') ls
  /\ (complains (run_main p e m) NonCompliant \/ exists la lb, displays (run_main p e m) lb /\ ls = below la lb).
Proof.
  intros p e e' m m' st st' fs a b ls L L' M S S' C' C T Fs H F.
  assert (Tb : text64 p b) by (destruct T as [T1 T2]; split; [assumption|]; revert T2; unfold len; rewrite app_length; lia). split.
  - apply (C73_shown p e' m' st' OpIngenico _ ls L' C' T); [now rewrite M, S'|assumption].
  - destruct (C116_ingenico p _ fs a b ls T Fs H) as [R|(la & lb & Hb & ->)]; [left; exact (C61_refused p e m st OpIngenico b _ L C Tb R)|right].
    exists la, lb. split; [|reflexivity]. apply (C73_shown p e m st OpIngenico _ lb L C Tb); [now rewrite S|].
    intros V. specialize (F V). eapply N.le_lt_trans; [apply below_deepest|exact F].
Qed.

(* The arguments with the option against sorting. *)
Definition unsorted_ingenico (s : str) : matches :=
  mkMatches None None None None None None None None None (Some s) None (Some (lit "auto", SrcDefault))
            (Some ([42], SrcDefault)) (Some (true, SrcDefault)) (Some (true, SrcCommandLine)).
Definition two_fields : str := lit "T9F02:01:h07" ++ [10] ++ lit "T5A:01:h12".
Example C116_example : exists f1 f2 ls,
  f1 ++ f2 = lit "T9F02:01:h07" /\ hex_field (f1 ++ f2) /\ looks_whole f2 /\ followed f2 (f2 ++ [10] ++ lit "T5A:01:h12") (lit "T5A:01:h12")
  /\ ~ looks_whole (lit "02:01:h07") /\ fields [lit "T9F02:01:h07"; lit "T5A:01:h12"] two_fields /\ two_fields = f1 ++ (f2 ++ [10] ++ lit "T5A:01:h12")
  /\ text64 p64 two_fields /\ ascii_text two_fields /\ sheet [42] false OpIngenico two_fields ls /\ fits p64 (deepest ls)
  /\ load_settings plain_env (unsorted_ingenico two_fields) = Ok (mkSettings TAuto [42] false) /\ SpecMain.chosen (unsorted_ingenico two_fields) OpIngenico two_fields.
Proof.
  assert (P : pair_ok ([0x9F; 2], [7])) by (split; [cbn; bytes_lit|]; split; [apply (ber_tag_long 0x9F [] 2); [reflexivity|constructor|lia]|split; [cbn; bytes_lit|vm_compute; reflexivity]]).
  assert (P' : pair_ok ([0x5A], [0x12])) by (split; [cbn; bytes_lit|]; split; [apply ber_tag_short; vm_compute; intros K; discriminate K|split; [cbn; bytes_lit|vm_compute; reflexivity]]).
  pose proof (std_hex_field _ _ P) as F. pose proof (std_hex_field _ _ P') as F'. change (std_field [0x9F; 2] [7]) with (lit "T9F02:01:h07") in F. change (std_field [0x5A] [0x12]) with (lit "T5A:01:h12") in F'.
  assert (D : divides 10) by (unfold divides, is_hex_digit, colon, letter_T; lia).
  set (n := RawNode (mkRawTag [0x9F; 2] TagClass_ContextSpecific Primitive (Normal [7])) []).
  set (n' := RawNode (mkRawTag [0x5A] TagClass_Application Primitive (Normal [0x12])) []).
  assert (T : text64 p64 two_fields) by (split; vm_compute; reflexivity).
  exists (lit "T"), (lit "9F02:01:h07"), (forest_lines [n; n'] 0 true). split; [reflexivity|]. split; [exact F|].
  split; [exists 57, (lit "F02"), (lit "01:h07"); split; [reflexivity|]; split; [cbn; repeat constructor; unfold is_hex_digit; lia|]; split; [cbn; lia|cbn; tauto]|].
  split; [exact (followed_more _ 10 _ D)|].
  split; [intros (c & d & x & E & H & L & _); destruct d as [|d1 [|d2 d]]; cbn [List.length] in L; try lia; injection E as _ _ E _; subst; apply Forall_inv_tail, Forall_inv_tail, Forall_inv in H; revert H; unfold is_hex_digit; lia|].
  split; [apply (fields_more (lit "T9F02:01:h07") 10 [lit "T5A:01:h12"] (lit "T5A:01:h12") F D), fields_last, F'|]. split; [reflexivity|]. split; [exact T|].
  split; [unfold ascii_text; apply Forall_forall; intros c H; cbn in H; repeat (destruct H as [<-|H]; [lia|]); destruct H|].
  split; [apply (sheet_block [42] false OpIngenico two_fields None [n; n']); [|repeat constructor; now apply no_failure|reflexivity]; apply (tlv_settles p64 [42] OpIngenico two_fields _ T eq_refl); vm_compute; reflexivity|].
  split; [intros V; vm_compute; reflexivity|]. split; [vm_compute; reflexivity|]. split; [reflexivity|].
  exists [OpTvr; OpIad; OpCvr; OpTsi; OpCvmResults; OpCvmList; OpIdentify; OpAuto; OpBer], [OpServiceCode]. vm_compute. split; [reflexivity|]. repeat constructor.
Qed.
Example C116_objects_example : exists ls lt lo lv, hex_bytes (lit "9F020107") = [0x9F; 2; 1; 7] /\ second_byte 2 /\ sheet [42] false OpBer (lit "9F020107") ls
  /\ sheet [42] false OpBer (lit "5A0112") lt /\ sheet [42] false OpBer (lit "9A03210131") lo /\ ber_len [3] (len (hex_bytes (lit "5A0112"))) /\ type_of 0x70 = Constructed
  /\ hex_bytes (lit "70035A01129A03210131") = [0x70] ++ [3] ++ hex_bytes (lit "5A01129A03210131")
  /\ In (OpTsi, 2) sizes /\ In OpTsi lenient /\ sheet [42] false OpTsi (lit "E" ++ lit "8000") lv /\ len (digits_in (lit "E" ++ lit "8000")) = 2 * 2 + 1 /\ enough OpIdentify (lit "37").
Proof.
  do 4 eexists. split; [reflexivity|]. split; [split; [lia|split; [intros K; discriminate K|reflexivity]]|].
  split; [apply sample_sheet; [split; vm_compute; reflexivity|vm_compute; reflexivity|reflexivity]|].
  split; [apply sample_sheet; [split; vm_compute; reflexivity|vm_compute; reflexivity|reflexivity]|].
  split; [apply sample_sheet; [split; vm_compute; reflexivity|vm_compute; reflexivity|reflexivity]|].
  split; [now apply (ber_len_short 3)|]. split; [reflexivity|]. split; [reflexivity|]. split; [cbn; tauto|]. split; [cbn; tauto|].
  split; [apply (sheet_value _ _ _ _ (bits_picture 2 tsi_bits tsi_used)); [cbn [byte_operations In]; tauto|reflexivity]|].
  split; [vm_compute; reflexivity|]. intros K. vm_compute in K. discriminate K.
Qed.
