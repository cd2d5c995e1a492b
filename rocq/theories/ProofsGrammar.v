(** The BER-TLV parser and the grammar of SpecTlv. *)

From Coq Require Import ZArith NArith List String Ascii Bool Lia ZifyN ZifyBool ZifyNat.
From Verif Require Import Base ModelUtil ModelEnums ModelTlv SpecUtil SpecTlv ProofsUtil ProofsBer.
Import ListNotations.
Local Open Scope N_scope.

(** ** Tags and lengths *)

Lemma split_more_iff l m r :
  split_more l = Some (m, r) <->
  exists more last, m = more ++ [last] /\ l = m ++ r /\ Forall (fun c => 128 <= c) more /\ last < 128.
Proof.
  split.
  - revert m r. induction l as [|b l IH]; intros m r; cbn [split_more]; [discriminate|].
    destruct (N.leb_spec 128 b) as [H|H].
    + destruct (split_more l) as [[m' r']|]; [|discriminate]. intros E. inversion E; subst.
      destruct (IH m' r eq_refl) as (more & last & -> & -> & F & Hl).
      exists (b :: more), last. repeat split; auto.
    + intros E. inversion E; subst. exists [], b. repeat split; auto.
  - intros (more & last & -> & -> & F & Hl). induction F as [|c more Hc F IH].
    + cbn. rewrite (proj2 (N.leb_gt _ _)) by assumption. reflexivity.
    + cbn [app split_more]. rewrite (proj2 (N.leb_le _ _)) by assumption. now rewrite IH.
Qed.

Lemma split_tag_iff l t r : split_tag l = Some (t, r) <-> l = t ++ r /\ ber_tag t.
Proof.
  split.
  - destruct l as [|b l]; cbn [split_tag]; [discriminate|]. destruct (N.eqb_spec (b mod 32) 31) as [H|H].
    + destruct (split_more l) as [[m r']|] eqn:E; [|discriminate]. intros E'. inversion E'; subst.
      apply split_more_iff in E. destruct E as (more & last & -> & -> & F & Hl).
      split; [reflexivity|]. now constructor.
    + intros E'. inversion E'; subst. split; [reflexivity|]. now constructor.
  - intros [-> T]. destruct T as [b H|b more last H F Hl]; cbn [app split_tag].
    + destruct (N.eqb_spec (b mod 32) 31); [contradiction|reflexivity].
    + rewrite H, N.eqb_refl.
      assert (E : split_more ((more ++ [last]) ++ r) = Some (more ++ [last], r)).
      { apply split_more_iff. exists more, last. auto. }
      now rewrite E.
Qed.

Lemma long_form_cons b r : long_form (b :: r) <-> 128 <= b.
Proof.
  split; [intros (b' & r' & E & H); now inversion E; subst|]. intros H. now exists b, r.
Qed.

Lemma split_length_iff r n r' :
  split_length r = Ok (n, r') <-> exists lf, r = lf ++ r' /\ ber_len lf n /\ (long_form lf -> r' <> []).
Proof.
  split.
  - destruct r as [|l0 l]; cbn [split_length]; [discriminate|]. destruct (N.leb_spec 128 l0) as [H|H].
    + destruct (N.ltb_spec 4 (l0 - 128)); [discriminate|]. destruct (N.leb_spec (len l) (l0 - 128)) as [|Hk]; [discriminate|].
      intros E. inversion E; subst. exists (l0 :: firstn (N.to_nat (l0 - 128)) l).
      split; [cbn [app]; now rewrite firstn_skipn|]. split.
      * replace l0 with (128 + len (firstn (N.to_nat (l0 - 128)) l)) at 1 by (rewrite firstn_len by lia; lia).
        apply ber_len_long. rewrite firstn_length. lia.
      * intros _ E0. apply (f_equal (@List.length N)) in E0. rewrite skipn_length in E0. unfold len in Hk. cbn in E0. lia.
    + intros E. inversion E; subst. exists [n]. split; [reflexivity|]. split; [now constructor|].
      rewrite long_form_cons. lia.
  - intros (lf & -> & L & Hl). destruct L as [n H|l H].
    + cbn [app split_length]. rewrite (proj2 (N.leb_gt _ _)) by assumption. reflexivity.
    + cbn [app split_length]. rewrite (proj2 (N.leb_le _ _)) by (unfold len; lia).
      replace (128 + len l - 128) with (len l) by lia.
      rewrite (proj2 (N.ltb_ge _ _)) by (unfold len; lia).
      rewrite (proj2 (N.leb_gt _ _)).
      * unfold len. rewrite Nat2N.id, firstn_app, firstn_all, Nat.sub_diag, skipn_app, skipn_all, Nat.sub_diag.
        cbn [firstn skipn app]. now rewrite app_nil_r.
      * rewrite len_app. assert (r' <> []) by (apply Hl, long_form_cons; unfold len; lia).
        destruct r'; [congruence|rewrite len_cons; lia].
Qed.

Lemma take_value_iff n r v rest : take_value n r = Ok (v, rest) <-> r = v ++ rest /\ len v = n.
Proof.
  split; [apply take_value_app|]. intros [-> <-]. unfold take_value.
  rewrite (proj2 (N.ltb_ge _ _)) by (rewrite len_app; lia).
  unfold len. rewrite Nat2N.id, firstn_app, firstn_all, Nat.sub_diag, skipn_app, skipn_all, Nat.sub_diag.
  cbn [firstn skipn app]. now rewrite app_nil_r.
Qed.

Lemma next_iff bytes t v rest : next bytes = Ok (t, v, rest) <-> ber_object bytes t v rest.
Proof.
  split.
  - unfold next. destruct (split_tag bytes) as [[t' r]|] eqn:Et; [|discriminate].
    apply split_tag_iff in Et. destruct Et as [-> T].
    destruct (split_length r) as [[n r']| | |] eqn:El; try discriminate.
    apply split_length_iff in El. destruct El as (lf & -> & L & Hl).
    destruct (take_value n r') as [[v' rest']| | |] eqn:Ev; try discriminate.
    apply take_value_iff in Ev. destruct Ev as [-> Hv].
    intros E. inversion E; subst. now constructor.
  - intros O. destruct O as [t l v rest T L Hl]. unfold next.
    rewrite (proj2 (split_tag_iff _ t (l ++ v ++ rest)) (conj eq_refl T)).
    rewrite (proj2 (split_length_iff _ (len v) (v ++ rest))) by eauto.
    now rewrite (proj2 (take_value_iff _ _ v rest)).
Qed.

Lemma next_unsupported bytes :
  next bytes = Err Unsupported <-> exists t l0 r, bytes = t ++ l0 :: r /\ ber_tag t /\ 132 < l0.
Proof.
  split.
  - unfold next. destruct (split_tag bytes) as [[t r]|] eqn:Et; [|discriminate].
    apply split_tag_iff in Et. destruct Et as [-> T].
    destruct r as [|l0 r]; [discriminate|]. cbn [split_length].
    destruct (N.leb_spec 128 l0).
    + destruct (N.ltb_spec 4 (l0 - 128)). { intros _. exists t, l0, r. repeat split; auto. lia. }
      destruct (len r <=? l0 - 128); [discriminate|]. unfold take_value. destruct (_ <? _); discriminate.
    + unfold take_value. destruct (_ <? _); discriminate.
  - intros (t & l0 & r & -> & T & H). unfold next.
    rewrite (proj2 (split_tag_iff _ t (l0 :: r)) (conj eq_refl T)). cbn [split_length].
    rewrite (proj2 (N.leb_le _ _)) by lia. rewrite (proj2 (N.ltb_lt _ _)) by lia. reflexivity.
Qed.

Lemma next_err bytes e : next bytes = Err e -> e = Unsupported \/ e = NonCompliant.
Proof.
  unfold next. destruct (split_tag bytes) as [[t r]|]; [|intros E; inversion E; auto].
  destruct r as [|l0 r]; cbn [split_length]. { intros E; inversion E; auto. }
  destruct (128 <=? l0); [destruct (4 <? l0 - 128); [|destruct (len r <=? l0 - 128)]|];
    unfold take_value; try (intros E; inversion E; now auto); destruct (_ <? _); intros E; inversion E; auto.
Qed.

Lemma ber_tag_ne t : ber_tag t -> t <> [].
Proof. intros []; discriminate. Qed.
Lemma ber_len_ne l n : ber_len l n -> l <> [].
Proof. intros []; discriminate. Qed.

(** ** Sequences of objects *)

Lemma ber_object_det b t v r t' v' r' :
  ber_object b t v r -> ber_object b t' v' r' -> t = t' /\ v = v' /\ r = r'.
Proof. intros H1 H2. apply next_iff in H1, H2. rewrite H1 in H2. now inversion H2. Qed.

Lemma ber_object_ne b t v r : ber_object b t v r -> b <> [].
Proof. intros [? ? ? ? T _ _] E. apply app_eq_nil in E. now apply (ber_tag_ne _ T). Qed.

Lemma ber_object_length b t v r : ber_object b t v r ->
  (List.length t + List.length v + List.length r + 1 <= List.length b /\ List.length t >= 1)%nat.
Proof.
  intros [t' l v' r' T L _]. apply ber_tag_ne in T. apply ber_len_ne in L. rewrite !app_length.
  destruct t', l; try congruence. cbn [List.length]. lia.
Qed.

Lemma ber_objects_det b objs objs' : ber_objects b objs [] -> ber_objects b objs' [] -> objs = objs'.
Proof.
  intros H. remember [] as r eqn:Er in H. revert objs'.
  induction H as [r|b t v mid objs r O Os IH]; subst; intros objs' H'.
  - inversion H' as [|? ? ? ? ? ? O' _]; subst; [reflexivity|]. now apply ber_object_ne in O'.
  - inversion H' as [|? t' v' mid' objs2 ? O' Os']; subst. { now apply ber_object_ne in O. }
    destruct (ber_object_det _ _ _ _ _ _ _ O O') as (-> & -> & ->). f_equal. auto.
Qed.

Lemma ber_objects_nil_inv objs : ber_objects [] objs [] -> objs = [].
Proof. intros H. inversion H as [|? ? ? ? ? ? O _]; subst; [reflexivity|]. now apply ber_object_ne in O. Qed.

Lemma ber_object_bytes b t v r : bytes_ok b -> ber_object b t v r -> bytes_ok t /\ bytes_ok v /\ bytes_ok r.
Proof.
  intros Hb O. revert Hb. destruct O as [t' l v' r' _ _ _]. intros Hb. apply bytes_ok_app in Hb. destruct Hb as [Ht Hb].
  apply bytes_ok_app in Hb. destruct Hb as [_ Hb]. apply bytes_ok_app in Hb. tauto.
Qed.

(** ** Masking *)

Lemma is_masked_u8_spec v masks : is_masked_u8 v masks = true <-> masked masks v.
Proof.
  unfold is_masked_u8, masked, masking_char_minimum. destruct (N.ltb_spec (len v) 2) as [H|H].
  - split; [discriminate|]. unfold len in H. lia.
  - rewrite existsb_exists. split.
    + intros (m & Hm & F). split; [unfold len in H; lia|]. exists m. split; [assumption|].
      rewrite forallb_forall in F. apply Forall_forall. intros b Hb. now apply N.eqb_eq, F.
    + intros (_ & m & Hm & F). exists m. split; [assumption|]. apply forallb_forall. intros b Hb.
      rewrite Forall_forall in F. now apply N.eqb_eq, F.
Qed.

Lemma masked_dec masks v : masked masks v \/ ~ masked masks v.
Proof.
  destruct (is_masked_u8 v masks) eqn:E; [left; now apply is_masked_u8_spec|right].
  intros H. apply is_masked_u8_spec in H. congruence.
Qed.

Lemma from_u8_masked masks v : masked masks v -> from_u8_check_for_masked v masks = Masked.
Proof. intros H. unfold from_u8_check_for_masked. apply is_masked_u8_spec in H. now rewrite H. Qed.
Lemma from_u8_normal masks v : ~ masked masks v -> from_u8_check_for_masked v masks = Normal v.
Proof.
  intros H. unfold from_u8_check_for_masked. destruct (is_masked_u8 v masks) eqn:E; [|reflexivity].
  apply is_masked_u8_spec in E. contradiction.
Qed.

Lemma reported_iff masks v d : reported masks v d <-> d = from_u8_check_for_masked v masks.
Proof.
  unfold reported. destruct (masked_dec masks v) as [H|H].
  - rewrite from_u8_masked by assumption. tauto.
  - rewrite from_u8_normal by assumption. tauto.
Qed.

(** ** Trees *)

Scheme ber_tree_mind := Induction for ber_tree Sort Prop
  with ber_trees_mind := Induction for ber_trees Sort Prop.

Lemma ber_trees_det masks : forall os ns, ber_trees masks os ns -> forall ns', ber_trees masks os ns' -> ns = ns'.
Proof.
  apply (ber_trees_mind masks
    (fun o n _ => forall n', ber_tree masks o n' -> n = n')
    (fun os ns _ => forall ns', ber_trees masks os ns' -> ns = ns')).
  - intros t v d R H n' T'. inversion T' as [? ? d' R' H'|? ? objs cs Hc Hm Ho Ht]; subst.
    + apply reported_iff in R, R'. now subst.
    + exfalso. destruct H as [H|[H|H]]; [congruence|contradiction|apply H; eauto].
  - intros t v objs cs Hc Hm Ho Ht IH n' T'. inversion T' as [? ? d' R' H'|? ? objs' cs' Hc' Hm' Ho' Ht']; subst.
    + exfalso. destruct H' as [H|[H|H]]; [congruence|contradiction|apply H; eauto].
    + rewrite (ber_objects_det _ _ _ Ho' Ho) in Ht'. now rewrite (IH _ Ht').
  - intros ns' H. now inversion H.
  - intros o n os ns T IHT Ts IHTs ns' H. inversion H; subst. f_equal; auto.
Qed.

(** ** The parser and the grammar *)

Lemma length_ind (P : list N -> Prop) :
  (forall l, (forall l', (List.length l' < List.length l)%nat -> P l') -> P l) -> forall l, P l.
Proof.
  intros H l. remember (List.length l) as n eqn:E. revert l E.
  induction n as [n IH] using (well_founded_induction Wf_nat.lt_wf). intros l ->. apply H.
  intros l' Hl. now apply (IH (List.length l')).
Qed.

(* The children of a node. *)
Lemma ber_node_ok masks t v : bytes_ok v ->
  exists n, ber_node masks (parse_bytes masks) t v = Ok n.
Proof.
  intros Hv. unfold ber_node, from_u8_check_for_masked, get_child_block.
  destruct (is_masked_u8 v masks), (type_of (first_byte t)); cbn [bind]; eauto.
  pose proof (parse_bytes_settled masks v Hv) as S. destruct (parse_bytes masks v); cbn in *; eauto; contradiction.
Qed.

Lemma parse_bytes_accepts masks : forall bytes objs, bytes_ok bytes -> ber_objects bytes objs [] ->
  exists ns, parse_bytes masks bytes = Ok ns.
Proof.
  intros bytes objs Hb H. remember [] as r eqn:Er in H.
  induction H as [r|b t v mid objs r O Os IH]; subst; [exists []; apply parse_bytes_nil|].
  destruct (ber_object_bytes _ _ _ _ Hb O) as (_ & Hv & Hm).
  rewrite parse_bytes_eq; [|assumption|now apply ber_object_ne in O].
  apply next_iff in O. rewrite O.
  destruct (ber_node_ok masks t v Hv) as [n ->]. destruct (IH Hm eq_refl) as [ns ->]. cbn. eauto.
Qed.

Lemma parse_bytes_sound masks : forall bytes ns, bytes_ok bytes -> parse_bytes masks bytes = Ok ns ->
  exists objs, ber_objects bytes objs [] /\ ber_trees masks objs ns.
Proof.
  induction bytes as [bytes IH] using length_ind. intros ns Hb H.
  destruct bytes as [|b0 bs].
  { rewrite parse_bytes_nil in H. inversion H; subst. exists []. split; constructor. }
  rewrite parse_bytes_eq in H by (try assumption; discriminate).
  destruct (next (b0 :: bs)) as [[[t v] rest]| | |] eqn:En; try discriminate.
  apply next_iff in En. pose proof (ber_object_length _ _ _ _ En) as Hlen.
  destruct (ber_object_bytes _ _ _ _ Hb En) as (_ & Hv & Hr).
  destruct (ber_node masks (parse_bytes masks) t v) as [n| | |] eqn:Enode; try discriminate.
  cbn [bind] in H. destruct (parse_bytes masks rest) as [ns'| | |] eqn:Erest; try discriminate.
  cbn [bind] in H. inversion H; subst; clear H.
  destruct (IH rest ltac:(lia) ns' Hr Erest) as (objs & Ho & Ht).
  exists ((t, v) :: objs). split; [econstructor; eassumption|]. constructor; [|assumption].
  unfold ber_node in Enode.
  destruct (masked_dec masks v) as [M|M].
  - rewrite from_u8_masked in Enode by assumption. cbn [get_child_block] in Enode.
    destruct (type_of (first_byte t)) eqn:Ety; cbn [bind] in Enode; inversion Enode; subst;
      rewrite <- Ety; apply ber_tree_leaf; auto; now left.
  - rewrite from_u8_normal in Enode by assumption. cbn [get_child_block] in Enode.
    destruct (type_of (first_byte t)) eqn:Ety; cbn [bind] in Enode.
    + inversion Enode; subst. rewrite <- Ety. apply ber_tree_leaf; auto. now right.
    + cbn [get_child_block] in Enode.
      destruct (parse_bytes masks v) as [cs|e| |] eqn:Ev; cbn [bind] in Enode; try discriminate; inversion Enode; subst.
      * destruct (IH v ltac:(lia) cs Hv Ev) as (cobjs & Hco & Hct). econstructor; eassumption.
      * rewrite <- Ety. apply ber_tree_leaf; [now right|]. right; right.
        intros (objs' & Hobjs'). destruct (parse_bytes_accepts masks v objs' Hv Hobjs'). congruence.
Qed.

Lemma parse_bytes_grammar masks bytes ns : bytes_ok bytes ->
  (parse_bytes masks bytes = Ok ns <-> exists objs, ber_objects bytes objs [] /\ ber_trees masks objs ns).
Proof.
  intros Hb. split; [now apply parse_bytes_sound|]. intros (objs & Ho & Ht).
  destruct (parse_bytes_accepts masks bytes objs Hb Ho) as [ns' E].
  destruct (parse_bytes_sound masks bytes ns' Hb E) as (objs' & Ho' & Ht').
  rewrite (ber_objects_det _ _ _ Ho' Ho) in Ht'. now rewrite (ber_trees_det _ _ _ Ht _ Ht').
Qed.

(** ** Errors *)

Lemma parse_bytes_err masks : forall bytes e, bytes_ok bytes ->
  (parse_bytes masks bytes = Err e <-> exists objs rest, ber_objects bytes objs rest /\ rest <> [] /\ next rest = Err e).
Proof.
  induction bytes as [bytes IH] using length_ind. intros e Hb. destruct bytes as [|b0 bs].
  { rewrite parse_bytes_nil. split; [discriminate|]. intros (objs & rest & H & Hne & _).
    inversion H as [|? ? ? ? ? ? O _]; subst; [congruence|]. now apply ber_object_ne in O. }
  rewrite parse_bytes_eq by (try assumption; discriminate).
  destruct (next (b0 :: bs)) as [[[t v] rest]|e'| |] eqn:En.
  - pose proof En as O. apply next_iff in O. pose proof (ber_object_length _ _ _ _ O) as Hlen.
    destruct (ber_object_bytes _ _ _ _ Hb O) as (_ & Hv & Hr).
    destruct (ber_node_ok masks t v Hv) as [n ->]. cbn [bind].
    assert (E : (ns <- parse_bytes masks rest;; Ok (n :: ns)) = Err e <-> parse_bytes masks rest = Err e).
    { destruct (parse_bytes masks rest); cbn; split; intros H; inversion H; subst; reflexivity. }
    rewrite E, (IH rest) by (try assumption; lia). split.
    + intros (objs & r & Ho & Hne & Hn). exists ((t, v) :: objs), r. split; [econstructor; eassumption|auto].
    + intros (objs & r & Ho & Hne & Hn). inversion Ho as [|? t' v' mid objs' ? O' Os]; subst; [congruence|].
      destruct (ber_object_det _ _ _ _ _ _ _ O O') as (-> & -> & ->). eauto.
  - split.
    + intros H. inversion H; subst. exists [], (b0 :: bs). split; [constructor|split; [discriminate|assumption]].
    + intros (objs & r & Ho & Hne & Hn). inversion Ho as [|? t' v' mid objs' ? O' Os]; subst; [congruence|].
      apply next_iff in O'. congruence.
  - destruct (next_total (b0 :: bs)) as [[x E]|[x E]]; congruence.
  - destruct (next_total (b0 :: bs)) as [[x E]|[x E]]; congruence.
Qed.

(** ** Composition *)

Lemma ber_object_app b t v r c : ber_object b t v r -> ber_object (b ++ c) t v (r ++ c).
Proof.
  intros [t' l v' r' T L Hl]. rewrite <- !app_assoc. constructor; auto.
  intros F E. apply app_eq_nil in E. destruct E as [-> E]. apply app_eq_nil in E. destruct E as [-> _].
  now apply (Hl F).
Qed.

Lemma parse_bytes_app masks : forall a b na, bytes_ok a -> bytes_ok b -> parse_bytes masks a = Ok na ->
  parse_bytes masks (a ++ b) = rmap (fun nb => na ++ nb) (parse_bytes masks b).
Proof.
  induction a as [a IH] using length_ind. intros b na Ha Hb H.
  destruct a as [|a0 a].
  { rewrite parse_bytes_nil in H. inversion H; subst. cbn [app]. destruct (parse_bytes masks b); reflexivity. }
  rewrite parse_bytes_eq in H by (try assumption; discriminate).
  destruct (next (a0 :: a)) as [[[t v] rest]| | |] eqn:En; try discriminate.
  apply next_iff in En. pose proof (ber_object_length _ _ _ _ En) as Hlen.
  destruct (ber_object_bytes _ _ _ _ Ha En) as (_ & Hv & Hr).
  rewrite parse_bytes_eq; [|now apply bytes_ok_app|discriminate].
  rewrite (proj2 (next_iff _ t v (rest ++ b)) (ber_object_app _ _ _ _ _ En)).
  destruct (ber_node_ok masks t v Hv) as [n En']. rewrite En' in *. cbn [bind] in *.
  destruct (parse_bytes masks rest) as [ns| | |] eqn:Er; try discriminate. cbn [bind] in H. inversion H; subst.
  rewrite (IH rest ltac:(lia) b ns Hr Hb Er). destruct (parse_bytes masks b); reflexivity.
Qed.
