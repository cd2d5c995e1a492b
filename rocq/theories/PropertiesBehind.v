(** The properties of status words and padding behind BER-TLV objects. *)

From Coq Require Import ZArith NArith String List Bool Lia ZifyN ZifyBool ZifyNat Permutation Sorting.
From Verif Require Import Base ModelUtil ModelEnums ModelBitflag ModelSchemas ModelTags ModelTlv ModelValues ModelProcess ModelDisplay
  SpecUtil SpecCodes SpecValues SpecTlv SpecIngenico SpecTags SpecProcess SpecDisplay
  ProofsUtil ProofsGrammar ProofsBer ProofsIngenico ProofsValues PropertiesValues
  PropertiesBer PropertiesIngenico ProofsProcess PropertiesProcess ProofsDisplay ProofsDiagram ProofsScreens ProofsLayout PropertiesDisplay
  SpecPictures ProofsPictures ModelMain SpecMain ProofsMain PropertiesMain ModelCli SpecCli ProofsCli PropertiesCli PropertiesPictures
  SpecReading PropertiesReading ModelTerminal SpecTerminal ProofsTerminal PropertiesTerminal SpecTells ProofsTells PropertiesTells
  SpecSame PropertiesSame SpecMasking PropertiesMasking SpecJoin PropertiesJoin PropertiesCut SpecWrap PropertiesWrap PropertiesScope SpecSorted PropertiesSorted SpecBehind.
Import ListNotations.
Local Open Scope N_scope.

(** ** Bytes alone *)

Lemma len_some l n : ber_len l n -> l <> [].
Proof. intros [|]; discriminate. Qed.
Lemma tag_some t : ber_tag t -> t <> [].
Proof. intros [|]; discriminate. Qed.
Lemma one_byte a : ~ exists objs, ber_objects [a] objs [].
Proof.
  intros [objs O]. inversion O as [|bytes t v mid objs' rest B O']; subst. inversion B as [t' l v' rest' T L K E]; subst.
  destruct t as [|x t]; [now apply tag_some in T|]. injection E as _ E. apply app_eq_nil in E. destruct E as [_ E]. apply app_eq_nil in E. destruct E as [E _]. now apply len_some in L.
Qed.
Lemma two_bytes a b objs : ber_objects [a; b] objs [] <-> reads_empty a b /\ objs = [([a], [])].
Proof.
  split.
  - intros O. inversion O as [|bytes t v mid objs' rest B O']; subst. inversion B as [t' l v' rest' T L K E]; subst.
    pose proof (len_some _ _ L) as Ln. destruct t as [|x t]; [now apply tag_some in T|]. injection E as -> E.
    destruct l as [|y l]; [contradiction|]. destruct t as [|z t]; [|exfalso; injection E as _ E; destruct t; discriminate E].
    cbn [app] in E. injection E as -> E. apply app_eq_nil in E. destruct E as [-> E]. apply app_eq_nil in E. destruct E as [-> ->].
    assert (Lb : b < 128 /\ b = 0).
    { inversion L as [n Hn E1 E2|l' Hl E1 E2]; subst.
      - cbn [len List.length N.of_nat] in *. lia.
      - exfalso. apply K; [|reflexivity]. exists 128, []. split; [reflexivity|lia]. }
    split; [split; [|apply Lb]|].
    + inversion T as [b' Hb|b' more last Hb F Hl E1]; subst; [assumption|]. exfalso. destruct more; discriminate.
    + f_equal. inversion O' as [|bytes t v mid objs0 rest B' O0]; subst; [reflexivity|]. exfalso. now apply ber_object_ne in B'.
  - intros [[A ->] ->]. econstructor; [|constructor]. apply (ber_object_intro [a] [0] [] []); [now constructor|apply ber_len_short; reflexivity|].
    intros (b & r & E & H). injection E as <- _. lia.
Qed.
Lemma empty_tree masks t : ber_tree masks (t, []) (empty_object t).
Proof.
  assert (M : ~ masked masks []) by (intros [K _]; cbn in K; lia). unfold empty_object, empty_tag. destruct (type_of (first_byte t)) eqn:C.
  - rewrite <- C. apply ber_tree_leaf; [right; auto|now left].
  - apply ber_tree_node with []; [assumption|assumption|constructor|constructor].
Qed.
Lemma zeros_even n : ber_objects (repeat 0 (2 * n)) (repeat ([0], []) n) [].
Proof.
  induction n as [|n IH]; [constructor|]. replace (2 * S n)%nat with (S (S (2 * n))) by lia. cbn [repeat]. econstructor; [|exact IH].
  apply (ber_object_intro [0] [0] [] (repeat 0 (2 * n))); [now constructor|apply ber_len_short; reflexivity|]. intros (b & r & E & H). injection E as <- _. lia.
Qed.
Lemma zeros_odd n : ~ exists objs, ber_objects (repeat 0 (S (2 * n))) objs [].
Proof.
  induction n as [|n IH]; [apply one_byte|]. intros [objs O]. replace (S (2 * S n)) with (S (S (S (2 * n)))) in O by lia.
  inversion O as [|bytes t v mid objs' rest B O']; subst. apply IH. exists objs'. 
  assert (B2 : ber_object (repeat 0 (S (S (S (2 * n))))) [0] [] (repeat 0 (S (2 * n)))).
  { apply (ber_object_intro [0] [0] [] (repeat 0 (S (2 * n)))); [now constructor|apply ber_len_short; reflexivity|]. intros (b & r & E & H). injection E as <- _. lia. }
  destruct (ber_object_det _ _ _ _ _ _ _ B B2) as (_ & _ & ->). exact O'.
Qed.
Lemma ones n : ~ exists objs, ber_objects (repeat 255 (S n)) objs [].
Proof.
  intros [objs O]. inversion O as [|bytes t v mid objs' rest B O']; subst. inversion B as [t' l v' rest' T L K E]; subst.
  assert (F : Forall (fun c => c = 255) (t ++ l ++ v ++ mid)) by (rewrite E; apply Forall_forall; intros c I; exact (repeat_spec (S n) 255 c I)).
  apply Forall_app in F. destruct F as [F _]. inversion T as [b Hb|b more last Hb Fm Hl]; subst.
  - apply Forall_inv in F. subst b. now apply Hb.
  - apply Forall_inv_tail, Forall_app in F. destruct F as [_ F]. apply Forall_inv in F. lia.
Qed.
Lemma not_long_zeros n objs t l0 rest : ber_objects (repeat 0 n) objs (t ++ l0 :: rest) -> 132 < l0 -> False.
Proof.
  intros O L. assert (X : forall b objs r, ber_objects b objs r -> Forall (fun c => c = 0) b -> Forall (fun c => c = 0) r).
  { clear. induction 1 as [|b t v mid objs r B O IH]; intros F; [exact F|]. apply IH. inversion B; subst. now rewrite !Forall_app in F. }
  apply X in O; [|apply Forall_forall; intros c I; now apply repeat_spec in I]. apply Forall_app in O. destruct O as [_ O]. apply Forall_inv in O. lia.
Qed.
Lemma not_long_ones n objs t l0 rest : ber_objects (repeat 255 n) objs (t ++ l0 :: rest) -> ber_tag t -> False.
Proof.
  intros O T. assert (X : forall b objs r, ber_objects b objs r -> Forall (fun c => c = 255) b -> Forall (fun c => c = 255) r).
  { clear. induction 1 as [|b t v mid objs r B O IH]; intros F; [exact F|]. apply IH. inversion B; subst. now rewrite !Forall_app in F. }
  apply X in O; [|apply Forall_forall; intros c I; now apply repeat_spec in I]. apply Forall_app in O. destruct O as [F _]. inversion T as [b Hb|b more last Hb Fm Hl]; subst.
  - apply Forall_inv in F. subst b. now apply Hb.
  - apply Forall_inv_tail, Forall_app in F. destruct F as [_ F]. apply Forall_inv in F. lia.
Qed.
Lemma two_too_long a b : (exists objs t l0 rest, ber_objects [a; b] objs (t ++ l0 :: rest) /\ ber_tag t /\ 132 < l0) <-> a mod 32 <> 31 /\ 132 < b.
Proof.
  split.
  - intros (objs & t & l0 & rest & O & T & L). pose proof (tag_some _ T) as Tn. inversion O as [r E0 E2 E1|bytes t0 v mid objs' r B O']; subst.
    + destruct t as [|x [|y t]]; [contradiction| |exfalso; injection E1 as _ _ E1; destruct t; discriminate E1]. injection E1 as -> -> E1. split; [|exact L].
      inversion T as [? Hb|? more last Hb F Hl E]; subst; [assumption|]. exfalso. destruct more; discriminate.
    + exfalso. assert (Ln : (List.length mid <= 0)%nat).
      { inversion B as [t' l v' rest' T' L' K E]; subst. apply (f_equal (@List.length N)) in E. rewrite !app_length in E. cbn [List.length] in E.
        destruct t0 as [|? ?]; [now apply tag_some in T'|]. destruct l as [|? ?]; [now apply len_some in L'|]. cbn [List.length] in E. lia. }
      destruct mid; [|cbn in Ln; lia]. inversion O' as [r E0 E2 E1|bytes t1 v1 mid objs1 r1 B' O1]; subst.
      * destruct t; discriminate E1.
      * now apply ber_object_ne in B'.
  - intros [A L]. exists [], [a], b, []. split; [constructor|]. split; [now constructor|exact L].
Qed.

(** ** Behind whole objects *)

Lemma front p masks sort x nx lx : text64 p x -> part masks OpBer x nx -> sheet masks sort OpBer x lx ->
  exists l, sheet masks false OpBer x l.
Proof.
  intros T P S. destruct (part_sheet p _ _ _ _ _ _ T P S) as (m & F & _ & _). exists (format_lines None ++ forest_lines nx 0 true).
  apply sheet_block with nx; [exact (part_alone p _ _ _ _ T P)|exact F|reflexivity].
Qed.
Lemma text_front p x y : text64 p (x ++ y) -> text64 p x /\ text64 p y.
Proof. intros [T1 T2]. rewrite len_app in T2. repeat split; try assumption; lia. Qed.
Lemma empty_title t : ~ In t interpreted_tags -> tag_title (empty_tag t) = name_of t /\ meaning_lines (empty_tag t) 0 true = [].
Proof.
  intros N. unfold tag_title, meaning_lines, empty_tag. cbn [rt_data rt_tag]. now rewrite (no_picture_uninterpreted t [] N), (no_unrecognised_uninterpreted t N).
Qed.
Lemma empty_lines t : ~ In t interpreted_tags -> tree_lines true (empty_object t) 0 = [empty_line t].
Proof.
  intros N. destruct (empty_title t N) as [A B]. unfold empty_object. cbn [tree_lines]. unfold tag_lines. rewrite A, B. reflexivity.
Qed.
Lemma byte_uninterpreted a : ~ In a (map fst explained_bytes) -> ~ In [a] interpreted_tags.
Proof.
  intros N I. apply N. cbn. unfold interpreted_tags in I. cbn [In] in I. repeat (destruct I as [I|I]; [try discriminate I; injection I as <-; auto 8|]). destruct I.
Qed.
Lemma empty_kept t : ~ In t interpreted_tags -> forall e, ~ tag_fails (empty_tag t) e.
Proof.
  intros N e (d & E & R). injection E as <-. apply N. cbn [rt_tag empty_tag] in R. clear N. inversion R as [t' n d I L| | | | | | |]; subst; unfold interpreted_tags; cbn [In]; auto 20.
  unfold fixed_lengths in I. cbn [In] in I. repeat (destruct I as [I|I]; [injection I as <- <-; auto 20|]). destruct I.
Qed.
Lemma none_sheet masks : sheet masks false OpBer [] [].
Proof. apply (sheet_block masks false OpBer [] None [] []); [constructor; exists []; split; constructor|constructor|reflexivity]. Qed.
Lemma two_part masks y a b : hex_bytes y = [a; b] -> reads_empty a b -> ber_block masks y [empty_object [a]].
Proof.
  intros E R. exists [([a], [])]. rewrite E. split; [now apply two_bytes|]. constructor; [apply empty_tree|constructor].
Qed.

Theorem C110_status : forall p masks sort x y nx lx a b, text64 p (x ++ y) -> part masks OpBer x nx -> sheet masks sort OpBer x lx ->
  hex_bytes y = [a; b] -> ~ reads_empty a b ->
  refused masks OpBer (x ++ y) (if (a mod 32 =? 31) || (b <=? 132) then NonCompliant else Unsupported).
Proof.
  intros p masks sort x y nx lx a b T P S E N. apply (C87_refused p masks sort OpBer x y nx lx _ T P S).
  assert (B : ber_too_long y <-> a mod 32 <> 31 /\ 132 < b) by (unfold ber_too_long; rewrite E; apply two_too_long).
  destruct ((a mod 32 =? 31) || (b <=? 132)) eqn:C.
  - apply refused_ber; [|rewrite B; lia]. intros ns (objs & O & _). rewrite E in O. apply two_bytes in O. tauto.
  - apply refused_ber_unsupported. rewrite B. lia.
Qed.
Theorem C110_shown : forall p masks x y nx lx a b, text64 p (x ++ y) -> part masks OpBer x nx -> sheet masks false OpBer x lx ->
  hex_bytes y = [a; b] -> reads_empty a b -> ~ In a (map fst explained_bytes) ->
  sheet masks false OpBer (x ++ y) (below lx [empty_line [a]]).
Proof.
  intros p masks x y nx lx a b T P S E R N. apply (C87_joined p masks OpBer x y nx lx _ T P S). pose proof (byte_uninterpreted a N) as I.
  rewrite <- (empty_lines [a] I). change (tree_lines true (empty_object [a]) 0) with (format_lines None ++ forest_lines [empty_object [a]] 0 true).
  apply sheet_block with [empty_object [a]]; [constructor; now apply two_part with b| |reflexivity]. constructor; [now apply empty_kept|constructor].
Qed.
Theorem C110_sorted : forall p masks x y nx lx a b, text64 p (x ++ y) -> part masks OpBer x nx -> sheet masks true OpBer x lx ->
  Nat.even (List.length (filter is_hex_digitb y)) = true -> hex_bytes y = [a; b] -> reads_empty a b -> ~ In a (map fst explained_bytes) ->
  exists above under, stands [a] nx above under /\ lx = below above under /\ sheet masks true OpBer (x ++ y) (below above (below [empty_line [a]] under)).
Proof.
  intros p masks x y nx lx a b T P S Ev E R N. destruct (text_front p x y T) as [Tx Ty]. destruct (front p _ _ _ _ _ Tx P S) as [l0 S0].
  pose proof (C110_shown p masks x y nx l0 a b T P S0 E R N) as J. pose proof (C110_shown p masks [] y [] [] a b Ty ltac:(constructor; [reflexivity|exists []; split; constructor]) (none_sheet masks) E R N) as Jy.
  cbn [app below] in Jy.
  destruct (C73_total p masks true OpBer (x ++ y) T) as [(ls & H & _ & _)|(e & K & _ & _)].
  2: { destruct (C73_total p masks false OpBer (x ++ y) T) as [(l & _ & _ & Z)|(e' & _ & _ & Z)]; exfalso; [now apply (Z e)|now apply (Z _ J)]. }
  assert (Py : part masks OpBer y [empty_object [a]]) by (constructor; [assumption|now apply two_part with b]).
  assert (H' : sheet masks true OpBer (x ++ y ++ []) ls) by now rewrite app_nil_r.
  destruct (C109_changed p masks OpBer x y [] nx _ ls ltac:(now rewrite app_nil_r) P Py H') as (above & ly & under & St & Sy & -> & Sx & _).
  exists above, under. split; [exact St|]. rewrite app_nil_r in Sx. split.
  - destruct (C73_total p masks true OpBer x Tx) as [(l & _ & U & _)|(e & _ & _ & Z)]; [now rewrite (U _ S), (U _ Sx)|exfalso; now apply (Z _ S)].
  - assert (X : ly = [empty_line [a]]); [|now rewrite <- X].
    destruct (part_sheet p _ _ _ _ _ _ Ty Py Sy) as (m & _ & O & ->).
    assert (O2 : in_order [empty_object [a]] [empty_object [a]]) by (apply in_order_single, order_none).
    rewrite (in_order_det _ _ _ O O2). rewrite <- (empty_lines [a] (byte_uninterpreted a N)). reflexivity.
Qed.
Theorem C110_explained : forall p masks sort x y nx lx a b e, text64 p (x ++ y) -> part masks OpBer x nx -> sheet masks sort OpBer x lx ->
  hex_bytes y = [a; b] -> reads_empty a b -> In (a, e) explained_bytes -> refused masks OpBer (x ++ y) e.
Proof.
  intros p masks sort x y nx lx a b e T P S E R I. apply (C87_refused p masks sort OpBer x y nx lx _ T P S).
  apply (refused_tag masks OpBer y None [empty_object [a]] [] (empty_tag [a]) []); [constructor; now apply two_part with b|reflexivity|intros ? ? []|].
  exists []. split; [reflexivity|]. cbn [rt_tag empty_tag]. unfold explained_bytes in I. cbn [In] in I.
  repeat (destruct I as [I|I]; [injection I as <- <-; first [apply (rejected_length [_] _ []); [unfold fixed_lengths; cbn [In]; auto 20|discriminate]|apply (rejected_8E_short []); reflexivity]|]). destruct I.
Qed.
Theorem C110_one : forall p masks sort x y nx lx a, text64 p (x ++ y) -> part masks OpBer x nx -> sheet masks sort OpBer x lx ->
  hex_bytes y = [a] -> refused masks OpBer (x ++ y) NonCompliant.
Proof.
  intros p masks sort x y nx lx a T P S E. apply (C87_refused p masks sort OpBer x y nx lx _ T P S). apply refused_ber.
  - intros ns (objs & O & _). rewrite E in O. apply (one_byte a). now exists objs.
  - intros (objs & t & l0 & rest & O & Tg & L). rewrite E in O. pose proof (tag_some _ Tg) as Tn. inversion O as [r E0 E2 E1|bytes t0 v mid objs' r B O']; subst.
    + destruct t as [|? t]; [contradiction|]. injection E1 as _ E1. destruct t; discriminate E1.
    + inversion B as [t' l v' rest' T' L' K E2]; subst. apply (f_equal (@List.length N)) in E2. rewrite !app_length in E2. cbn [List.length] in E2.
      destruct t0 as [|? ?]; [now apply tag_some in T'|]. destruct l as [|? ?]; [now apply len_some in L'|]. cbn [List.length] in E2. lia.
Qed.
Lemma no_zero_tag : ~ In [0] interpreted_tags.
Proof. unfold interpreted_tags. cbn [In]. intros I. repeat (destruct I as [I|I]; [discriminate I|]). destruct I. Qed.
Theorem C110_zeros : forall p masks x y nx lx n, text64 p (x ++ y) -> part masks OpBer x nx -> sheet masks false OpBer x lx ->
  hex_bytes y = repeat 0 (2 * n) -> sheet masks false OpBer (x ++ y) (below lx (separated (repeat [empty_line [0]] n))).
Proof.
  intros p masks x y nx lx n T P S E. apply (C87_joined p masks OpBer x y nx lx _ T P S).
  replace (separated (repeat [empty_line [0]] n)) with (format_lines None ++ forest_lines (repeat (empty_object [0]) n) 0 true).
  - apply sheet_block with (repeat (empty_object [0]) n); [| |reflexivity].
    + constructor. exists (repeat ([0], []) n). split; [rewrite E; apply zeros_even|]. clear E. induction n as [|n IH]; constructor; [apply empty_tree|exact IH].
    + clear E. induction n as [|n IH]; [constructor|]. cbn [repeat flat_map preorder empty_object app]. constructor; [apply empty_kept, no_zero_tag|exact IH].
  - cbn [format_lines app]. unfold forest_lines. f_equal. clear E. induction n as [|n IH]; [reflexivity|]. cbn [repeat map]. now rewrite IH, (empty_lines [0] no_zero_tag).
Qed.
Theorem C110_zeros_odd : forall p masks sort x y nx lx n, text64 p (x ++ y) -> part masks OpBer x nx -> sheet masks sort OpBer x lx ->
  hex_bytes y = repeat 0 (2 * n + 1) -> refused masks OpBer (x ++ y) NonCompliant.
Proof.
  intros p masks sort x y nx lx n T P H E. replace (2 * n + 1)%nat with (S (2 * n)) in E by lia. apply (C87_refused p masks sort OpBer x y nx lx _ T P H). apply refused_ber.
  - intros ns (objs & O & _). rewrite E in O. apply (zeros_odd n). now exists objs.
  - intros (objs & t & l0 & rest & O & Tg & L). rewrite E in O. exact (not_long_zeros _ _ _ _ _ O L).
Qed.
Theorem C110_ones : forall p masks sort x y nx lx n, text64 p (x ++ y) -> part masks OpBer x nx -> sheet masks sort OpBer x lx ->
  hex_bytes y = repeat 255 (S n) -> refused masks OpBer (x ++ y) NonCompliant.
Proof.
  intros p masks sort x y nx lx n T P S E. apply (C87_refused p masks sort OpBer x y nx lx _ T P S). apply refused_ber.
  - intros ns (objs & O & _). rewrite E in O. apply (ones n). now exists objs.
  - intros (objs & t & l0 & rest & O & Tg & L). rewrite E in O. exact (not_long_ones _ _ _ _ _ O Tg).
Qed.

(** ** The program *)

Theorem C110_program : forall p e e' m m' st st' x y nx lx a b, load_settings e m = Ok st -> load_settings e' m' = Ok st' ->
  set_masking st' = set_masking st -> set_sort st = false -> set_sort st' = false -> chosen m OpBer x -> chosen m' OpBer (x ++ y) -> text64 p (x ++ y) ->
  part (set_masking st) OpBer x nx -> sheet (set_masking st) false OpBer x lx -> fits p (deepest lx) -> hex_bytes y = [a; b] ->
  displays (run_main p e m) lx
  /\ (a mod 32 <> 31 -> b = 0 -> ~ In a (map fst explained_bytes) -> displays (run_main p e' m') (below lx [empty_line [a]]))
  /\ (a mod 32 = 31 \/ b <> 0 \/ In a (map fst explained_bytes) -> exists er, complains (run_main p e' m') er).
Proof.
  intros p e e' m m' st st' x y nx lx a b L L' M O O' C C' T P S F E. destruct (text_front p x y T) as [Tx Ty].
  split; [|split].
  - apply (C73_shown p e m st OpBer x lx L C Tx); [now rewrite O|exact F].
  - intros A B N. apply (C73_shown p e' m' st' OpBer (x ++ y) _ L' C' T).
    + rewrite O', M. apply (C110_shown p _ x y nx lx a b); try assumption. now split.
    + unfold below. destruct lx as [|l lx]; [|unfold fits, deepest in *; rewrite map_app, fold_right_app; cbn [map fold_right]].
      * unfold fits, deepest in *. cbn. exact F.
      * replace (N.max (l_tabs blank) (N.max (l_tabs (empty_line [a])) 0)) with 0 by reflexivity. rewrite map_cons in F. exact F.
  - intros K. assert (Z : exists er, refused (set_masking st) OpBer (x ++ y) er).
    { destruct (N.eq_dec (a mod 32) 31) as [A|A]; [eexists; apply (C110_status p _ false x y nx lx a b T P S E); intros [? ?]; lia|].
      destruct (N.eq_dec b 0) as [B|B]; [|eexists; apply (C110_status p _ false x y nx lx a b T P S E); intros [? ?]; lia].
      destruct K as [K|[K|K]]; [contradiction|contradiction|]. apply in_map_iff in K. destruct K as ([a' er] & <- & I).
      exists er. apply (C110_explained p _ false x y nx lx _ b er T P S E); [now split|exact I]. }
    destruct Z as [er Z]. exists er. apply (C61_refused p e' m' st' OpBer (x ++ y) er L' C' T). now rewrite M.
Qed.

(** ** Cases that occur, and limits *)

(* 9000 behind an object is listed as one more object. *)
Example C110_example :
  part [42] OpBer (lit "5A0131") [sample_leaf [0x5A] [0x31]]
  /\ sheet [42] false OpBer (lit "5A0131") (forest_lines [sample_leaf [0x5A] [0x31]] 0 true)
  /\ hex_bytes (lit "90 00") = [0x90; 0] /\ reads_empty 0x90 0 /\ ~ In 0x90 (map fst explained_bytes)
  /\ map snd (render [empty_line [0x90]]) = lit "Tag: 0x90 - 0 bytes - Issuer Public Key Certificate" ++ [10]
  /\ hex_bytes (lit "6A82") = [0x6A; 0x82] /\ ~ reads_empty 0x6A 0x82
  /\ hex_bytes (lit "0000") = repeat 0 2 /\ hex_bytes (lit "FFFFFF") = repeat 255 3 /\ reads_empty 0x95 0.
Proof.
  split; [constructor; [reflexivity|apply (ber_block_iff p64); [split; [reflexivity|vm_compute; reflexivity]|vm_compute; reflexivity]]|].
  split; [apply sample_sheet; [split; [reflexivity|vm_compute; reflexivity]|vm_compute; reflexivity|vm_compute; reflexivity]|].
  split; [vm_compute; reflexivity|]. split; [split; [vm_compute; intros K; discriminate K|reflexivity]|].
  split; [cbn; intros I; repeat (destruct I as [I|I]; [discriminate I|]); destruct I|].
  split; [vm_compute; reflexivity|]. split; [vm_compute; reflexivity|]. split; [intros [_ K]; discriminate K|].
  split; [vm_compute; reflexivity|]. split; [vm_compute; reflexivity|]. split; [vm_compute; intros K; discriminate K|reflexivity].
Qed.

(* The same bytes in front are not harmless: the object behind them is lost. *)
Theorem C110_in_front_refuted : exists z f n0 n1 nx, hex_bytes z = [0] /\ hex_bytes f = [255]
  /\ tlv_block [42] OpBer (z ++ lit "0201AA") None [n0] /\ node_tag_bytes n0 = [0]
  /\ tlv_block [42] OpBer (f ++ lit "5A03020131") None [n1] /\ node_tag_bytes n1 = [0xFF; 0x5A]
  /\ tlv_block [42] OpBer (lit "5A03020131") None [nx] /\ node_tag_bytes nx = [0x5A].
Proof.
  assert (B : forall s ns, text64 p64 s -> ber_parse p64 [42] (parse_hex_str s) = Ok ns -> tlv_block [42] OpBer s None ns).
  { intros s ns T E. constructor. now apply (ber_block_iff p64). }
  exists (lit "00"), (lit "FF"), (sample_leaf [0] [1; 0xAA]), (RawNode (mkRawTag [0xFF; 0x5A] (class_of 0xFF) (type_of 0xFF) (Normal [2; 1; 0x31])) [sample_leaf [2] [0x31]]), (sample_leaf [0x5A] [2; 1; 0x31]).
  split; [vm_compute; reflexivity|]. split; [vm_compute; reflexivity|].
  split; [apply B; [split; [reflexivity|vm_compute; reflexivity]|vm_compute; reflexivity]|]. split; [reflexivity|].
  split; [apply B; [split; [reflexivity|vm_compute; reflexivity]|vm_compute; reflexivity]|]. split; [reflexivity|].
  split; [apply B; [split; [reflexivity|vm_compute; reflexivity]|vm_compute; reflexivity]|reflexivity].
Qed.
