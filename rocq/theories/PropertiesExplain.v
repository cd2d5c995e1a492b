(** The property of the explanations by themselves. *)

From Coq Require Import ZArith NArith Ascii String List Bool Lia ZifyN ZifyBool ZifyNat Permutation Sorting.
From Verif Require Import Base ModelUtil ModelEnums ModelBitflag ModelSchemas ModelTags ModelTlv ModelValues ModelProcess ModelDisplay
  SpecUtil SpecCodes SpecValues SpecTlv SpecIngenico SpecTags SpecProcess SpecDisplay
  ProofsUtil ProofsGrammar ProofsBer ProofsIngenico ProofsValues PropertiesValues
  PropertiesBer PropertiesIngenico ProofsProcess PropertiesProcess ProofsDisplay ProofsDiagram ProofsScreens ProofsLayout PropertiesDisplay
  SpecPictures ProofsPictures ModelMain SpecMain ProofsMain PropertiesMain ModelCli SpecCli ProofsCli PropertiesCli PropertiesPictures
  SpecReading PropertiesReading ModelTerminal SpecTerminal ProofsTerminal PropertiesTerminal SpecTells ProofsTells PropertiesTells PropertiesScope PropertiesColumns SpecAlarms PropertiesAlarms
  PropertiesCut SpecReserved PropertiesReserved SpecMatch PropertiesMatch SpecExplain.
Import ListNotations.
Local Open Scope N_scope.

(** ** The words of any diagram *)

Lemma words_told n raw rs i show w : Forall (fun r => r_offset r < 8 * n /\ boxless (r_text r)) rs ->
  (tells (diagram n raw rs i show) w <-> exists r, In r rs /\ r_text r = w).
Proof.
  intros F. unfold diagram. rewrite tells_cons, tells_app. rewrite Forall_forall in F.
  assert (Silent : forall l, ~ In 0x2514 (flat_map snd (l_spans l)) -> ~ exists a, line_text l = a ++ 0x2514 :: 32 :: w).
  { intros l Nl (a & H). assert (I : In 0x2514 (line_text l)) by (rewrite H; apply in_app_iff; right; now left). unfold line_text in I. apply in_app_iff in I. destruct I as [I|I]; [apply repeat_spec in I; discriminate I|contradiction]. }
  assert (B : ~ exists a, line_text (bold_row i (draw n (8 * n) (bit_char raw))) = a ++ 0x2514 :: 32 :: w).
  { apply Silent. unfold bold_row. cbn [l_spans flat_map snd]. rewrite app_nil_r. apply draw_plain. intros o. unfold bit_char. destruct (N.testbit _ _); lia. }
  assert (A : ~ tells (if existsb (fun r => 1 <? r_len r) rs then [row i [(None, draw n (8 * n - last_low rs) (arm_char rs))]] else []) w).
  { destruct (existsb _ rs); [|intros (l & a & [] & _)]. rewrite tells_cons. intros [K|(l & a & [] & _)]. revert K. apply Silent. unfold row. cbn [l_spans flat_map snd]. rewrite app_nil_r.
    intros I. unfold draw in I. apply in_map_iff in I. destruct I as (c & E & _). cbv zeta in E. destruct (_ =? 8); [discriminate E|]. unfold arm_char in E. destruct (find _ rs) as [r|]; [|discriminate E].
    destruct (r_len r =? 1); [discriminate E|]. destruct (_ =? r_offset r); [discriminate E|]. destruct (_ =? low_bit r); discriminate E. }
  split.
  - intros [K|[K|(l & a & I & H)]]; [contradiction|contradiction|]. apply in_map_iff in I. destruct I as (r & <- & I). apply in_rev in I. exists r. split; [assumption|]. destruct (F r I) as (O & X).
    apply (elbow_tells n rs r i show w O X). now exists a.
  - intros (r & I & E). right. right. destruct (F r I) as (O & X). destruct (proj2 (elbow_tells n rs r i show w O X) E) as (a & H). exists (elbow_row n rs r i show), a. split; [|exact H].
    apply in_map_iff. exists r. split; [reflexivity|]. now apply -> in_rev.
Qed.

(** ** Fields *)

Definition width (e : bit_field) : N := e_hi e - e_lo e + 1.
Definition field_text (e : bit_field) (v : N) : option str :=
  match e_kind e with
  | Flag => if v =? 1 then Some (lit (e_label e)) else None
  | k => option_map (fun x => lit (e_label e) ++ snd x) (decode k v)
  end.
Definition sound (n : N) (e : bit_field) : bool :=
  (1 <=? e_lo e) && (e_lo e <=? e_hi e) && (e_hi e <=? 8) && (1 <=? e_byte e) && (e_byte e <=? n)
  && match e_kind e with Flag => e_hi e =? e_lo e | _ => true end.
Lemma boxless_decode k v x s : decode k v = Some (x, s) -> boxless s.
Proof.
  assert (C : forall A (tb : list (N * A * string)) f c, coded tb f c = Some (x, s) -> boxless s).
  { intros A tb f c. unfold coded. destruct (find_code tb c) as [[a y]|]; [|discriminate]. intros H. injection H as _ <-. apply boxless_lit. }
  assert (O : forall A (tb : list (N * A * string)) f u c, optional tb f u c = Some (x, s) -> boxless s).
  { intros A tb f u c. unfold optional. destruct (find_code tb c) as [[a y]|]; intros H; injection H as _ <-; apply boxless_lit. }
  destruct k; cbn [decode]; intros H; try exact (C _ _ _ _ H); try exact (O _ _ _ _ _ H); injection H as _ <-; [constructor|apply boxless_dec].
Qed.
Lemma shown_text n e d w : (exists r, In r (field_shown n e d) /\ r_text r = w) <-> field_text e (field_bits e d) = Some w.
Proof.
  unfold field_shown, field_text. destruct (e_kind e) eqn:K.
  1: { destruct (field_bits e d =? 1); split; [intros (r & [<-|[]] & <-); reflexivity|intros H; injection H as <-; eexists; split; [now left|reflexivity]|intros (r & [] & _)|discriminate]. }
  all: destruct (decode _ (field_bits e d)) as [[v s]|]; cbn [option_map snd]; split;
    [intros (r & [<-|[]] & <-); reflexivity|intros H; injection H as <-; eexists; split; [now left|reflexivity]|intros (r & [] & _)|discriminate].
Qed.
Lemma shown_fits n e d r : sound n e = true -> In r (field_shown n e d) -> r_offset r < 8 * n /\ boxless (r_text r).
Proof.
  intros S I. assert (O : 8 * (n - e_byte e) + (e_hi e - 1) < 8 * n) by (unfold sound in S; lia). unfold field_shown in I. destruct (e_kind e) eqn:K.
  1: { destruct (_ =? 1); [|destruct I]. destruct I as [<-|[]]. split; [exact O|apply boxless_lit]. }
  all: destruct (decode _ (field_bits e d)) as [[v s]|] eqn:D; [|destruct I]; destruct I as [<-|[]]; split; [exact O|apply boxless_app; [apply boxless_lit|exact (boxless_decode _ _ _ _ D)]].
Qed.
Lemma field_told n t raw d i show w : forallb (sound n) t = true ->
  (tells (diagram n raw (all_shown n t d) i show) w <-> exists e, In e t /\ field_text e (field_bits e d) = Some w).
Proof.
  intros S. rewrite forallb_forall in S. rewrite words_told.
  - unfold all_shown. split.
    + intros (r & I & E). apply in_flat_map in I. destruct I as (e & He & I). exists e. split; [assumption|]. apply (shown_text n). eauto.
    + intros (e & He & E). apply (shown_text n) in E. destruct E as (r & I & E). exists r. split; [|assumption]. apply in_flat_map. eauto.
  - apply Forall_forall. intros r I. unfold all_shown in I. apply in_flat_map in I. destruct I as (e & He & I). exact (shown_fits n e d r (S e He) I).
Qed.

(** ** Texts stand for one value of one field *)

Definition values (e : bit_field) : list N := map N.of_nat (seq 0 (N.to_nat (2 ^ width e))).
Definition texts (t : list bit_field) : list (bit_field * N * str) :=
  flat_map (fun e => flat_map (fun v => match field_text e v with Some w => [(e, v, w)] | None => [] end) (values e)) t.
Fixpoint apart (l : list str) : bool := match l with [] => true | x :: t => negb (existsb (same_bytes x) t) && apart t end.
Lemma same_bytes_refl l : same_bytes l l = true.
Proof. induction l as [|x l IH]; [reflexivity|]. cbn [same_bytes]. now rewrite N.eqb_refl. Qed.
Lemma apart_nodup l : apart l = true -> NoDup l.
Proof.
  induction l as [|x l IH]; [constructor|]. cbn [apart]. intros X. apply andb_prop in X. destruct X as [X Y]. constructor; [|auto].
  intros I. apply negb_true_iff in X. assert (existsb (same_bytes x) l = true) by (apply existsb_exists; exists x; split; [assumption|apply same_bytes_refl]). congruence.
Qed.
Lemma field_bits_bound e d : field_bits e d < 2 ^ width e.
Proof. unfold field_bits, bits_of, width. apply N.mod_lt. apply N.pow_nonzero. lia. Qed.
Lemma in_texts t e v w : In e t -> v < 2 ^ width e -> field_text e v = Some w -> In (e, v, w) (texts t).
Proof.
  intros I B E. unfold texts. apply in_flat_map. exists e. split; [assumption|]. apply in_flat_map. exists v. split; [|rewrite E; now left].
  unfold values. apply in_map_iff. exists (N.to_nat v). split; [apply N2Nat.id|]. apply in_seq. lia.
Qed.
Lemma text_unique t e e' d d' w : apart (map snd (texts t)) = true -> In e t -> In e' t ->
  field_text e (field_bits e d) = Some w -> field_text e' (field_bits e' d') = Some w -> e = e' /\ field_bits e d = field_bits e' d'.
Proof.
  intros A I I' E E'. apply apart_nodup in A. pose proof (in_texts t e _ w I (field_bits_bound e d) E) as J. pose proof (in_texts t e' _ w I' (field_bits_bound e' d') E') as J'.
  pose proof (nodup_map snd _ _ _ A J J' eq_refl) as X. now injection X.
Qed.

(** ** The bits of fields *)

Definition cells (e : bit_field) : list (nat * N) :=
  map (fun m => (N.to_nat (e_byte e - 1), e_lo e - 1 + N.of_nat m)) (seq 0 (N.to_nat (width e))).
Lemma field_bits_eq e d d' : field_bits e d = field_bits e d' <-> forall x, In x (cells e) -> is_set d x = is_set d' x.
Proof.
  unfold field_bits, bits_of. fold (width e). set (a := nth _ d 0). set (b := nth _ d' 0). rewrite <- !N.land_ones, <- !N.shiftr_div_pow2. split.
  - intros E [k j] I. unfold cells in I. apply in_map_iff in I. destruct I as (m & X & I). apply in_seq in I. injection X as <- <-. unfold is_set. cbn [fst snd]. fold a b.
    assert (Y : forall c, N.testbit (N.land (N.shiftr c (e_lo e - 1)) (N.ones (width e))) (N.of_nat m) = N.testbit c (e_lo e - 1 + N.of_nat m)).
    { intros c. rewrite N.land_spec, N.shiftr_spec', N.ones_spec_low by lia. rewrite andb_true_r. f_equal. lia. }
    rewrite <- (Y a), <- (Y b), E. reflexivity.
  - intros H. apply N.bits_inj. intros m. rewrite !N.land_spec. destruct (N.lt_ge_cases m (width e)) as [L|L]; [|now rewrite N.ones_spec_high, !andb_false_r by assumption].
    f_equal. rewrite !N.shiftr_spec'. specialize (H (N.to_nat (e_byte e - 1), e_lo e - 1 + m)). unfold is_set in H. cbn [fst snd] in H. fold a b in H. rewrite (N.add_comm m). apply H.
    unfold cells. apply in_map_iff. exists (N.to_nat m). split; [now rewrite N2Nat.id|]. apply in_seq. lia.
Qed.
Definition matches_mask (mask : list N) (t : list bit_field) : bool :=
  forallb (fun x => N.testbit (nth (fst x) mask 0) (snd x)) (flat_map cells t)
  && forallb (fun k => forallb (fun j => implb (N.testbit (nth k mask 0) (N.of_nat j)) (existsb (fun x => Nat.eqb (fst x) k && (snd x =? N.of_nat j)) (flat_map cells t))) (seq 0 8)) (seq 0 (List.length mask))
  && forallb (fun b => b <? 256) mask.
Lemma masked_cells mask t k j : matches_mask mask t = true -> (N.testbit (nth k mask 0) j = true <-> In (k, j) (flat_map cells t)).
Proof.
  unfold matches_mask. intros H. apply andb_prop in H. destruct H as [H H3]. apply andb_prop in H. destruct H as [H1 H2]. rewrite forallb_forall in H1, H2, H3. split.
  - intros B. assert (K : (k < List.length mask)%nat).
    { destruct (Nat.lt_ge_cases k (List.length mask)) as [K|K]; [assumption|]. rewrite nth_overflow in B by assumption. now rewrite N.bits_0 in B. }
    assert (J : j < 8).
    { destruct (N.lt_ge_cases j 8) as [J|J]; [assumption|]. exfalso. specialize (H3 (nth k mask 0) (nth_In mask 0 K)). apply N.ltb_lt in H3. rewrite N.bits_above_log2 in B; [discriminate B|].
      destruct (N.eq_dec (nth k mask 0) 0) as [Z|Z]; [rewrite Z in B; rewrite N.bits_0 in B; discriminate B|]. apply N.lt_le_trans with 8; [|assumption]. apply N.log2_lt_pow2; [lia|exact H3]. }
    assert (I : In k (seq 0 (List.length mask))) by (apply in_seq; lia). specialize (H2 k I). rewrite forallb_forall in H2. assert (I' : In (N.to_nat j) (seq 0 8)) by (apply in_seq; lia). specialize (H2 _ I').
    rewrite N2Nat.id, B in H2. cbn [implb] in H2. apply existsb_exists in H2. destruct H2 as ([k' j'] & X & Y). cbn [fst snd] in Y. apply andb_prop in Y. destruct Y as [Y1 Y2]. apply Nat.eqb_eq in Y1. apply N.eqb_eq in Y2. now subst.
  - intros I. exact (H1 (k, j) I).
Qed.
Lemma kept_bits mask d d' : List.length d = List.length mask -> List.length d' = List.length mask ->
  (keep_bits d mask = keep_bits d' mask <-> forall k j, N.testbit (nth k mask 0) j = true -> is_set d (k, j) = is_set d' (k, j)).
Proof.
  revert d d'. induction mask as [|m mask IH]; intros [|a d] [|b d'] L L'; cbn [List.length] in *; try discriminate.
  - split; [intros _ [|k] j H; cbn [nth] in H; rewrite N.bits_0 in H; discriminate H|reflexivity].
  - cbn [keep_bits]. specialize (IH d d' ltac:(lia) ltac:(lia)). split.
    + intros E. injection E as E1 E2. intros [|k] j H; unfold is_set; cbn [nth fst snd] in *; [|exact (proj1 IH E2 k j H)].
      assert (X : N.testbit (N.land a m) j = N.testbit (N.land b m) j) by now rewrite E1. rewrite !N.land_spec, H, !andb_true_r in X. exact X.
    + intros H. f_equal.
      * apply N.bits_inj. intros j. rewrite !N.land_spec. destruct (N.testbit m j) eqn:M; [|now rewrite !andb_false_r]. rewrite !andb_true_r. exact (H 0%nat j M).
      * apply IH. intros k j M. exact (H (Datatypes.S k) j M).
Qed.

(** ** Values *)

Definition tidy (n : N) (mask : list N) (t : list bit_field) : bool :=
  forallb (sound n) t && apart (map snd (texts t)) && matches_mask mask t && (N.of_nat (List.length mask) =? n)
  && (fix go (l : list (nat * N)) := match l with [] => true | x :: r => negb (existsb (fun y => Nat.eqb (fst x) (fst y) && (snd x =? snd y)) r) && go r end) (flat_map cells t).
Lemma tidy_parts n mask t : tidy n mask t = true -> forallb (sound n) t = true /\ apart (map snd (texts t)) = true /\ matches_mask mask t = true /\ N.of_nat (List.length mask) = n
  /\ NoDup (flat_map cells t).
Proof.
  unfold tidy. intros H. apply andb_prop in H. destruct H as [H H5]. apply andb_prop in H. destruct H as [H H4]. apply andb_prop in H. destruct H as [H H3]. apply andb_prop in H. destruct H as [H1 H2].
  apply N.eqb_eq in H4. repeat (split; [assumption|]). clear - H5. revert H5. induction (flat_map cells t) as [|x l IH]; [constructor|]. intros X. apply andb_prop in X. destruct X as [X Y]. constructor; [|auto].
  intros I. apply negb_true_iff in X. assert (E : existsb (fun y => Nat.eqb (fst x) (fst y) && (snd x =? snd y)) l = true) by (apply existsb_exists; exists x; split; [assumption|now rewrite Nat.eqb_refl, N.eqb_refl]). congruence.
Qed.
Lemma nodup_flat {A B} (f : A -> list B) l x a b : NoDup (flat_map f l) -> In a l -> In b l -> In x (f a) -> In x (f b) -> a = b.
Proof.
  induction l as [|c l IH]; [intros _ []|]. cbn [flat_map]. intros N. assert (N2 : NoDup (flat_map f l)) by (revert N; generalize (flat_map f l); induction (f c) as [|y m IHm]; [auto|cbn [app]; intros r Nr; inversion Nr; auto]).
  assert (D : forall z, In z (f c) -> ~ In z (flat_map f l)).
  { revert N. generalize (flat_map f l). induction (f c) as [|y m IHm]; [intros r _ z []|]. cbn [app]. intros r Nr. inversion Nr as [|y' r' N1 N3]; subst. intros z [<-|I]; [intros K; apply N1, in_app_iff; auto|exact (IHm r N3 z I)]. }
  intros [<-|Ia] [<-|Ib] Xa Xb; [reflexivity| | |auto].
  - exfalso. apply (D x Xa). apply in_flat_map. eauto.
  - exfalso. apply (D x Xb). apply in_flat_map. eauto.
Qed.
Lemma allowed_code t d e : allowed t d = true -> In e t -> exists v, decode (e_kind e) (field_bits e d) = Some v.
Proof.
  unfold allowed. intros H I. revert H. induction t as [|x t IH]; [destruct I|]. cbn [decode_all]. unfold field_value at 1. destruct (decode (e_kind x) (field_bits x d)) as [v|] eqn:D; cbn [option_map]; [|discriminate].
  destruct I as [->|I]; [eauto|]. intros H. apply IH; [assumption|]. destruct (decode_all t d); [reflexivity|discriminate].
Qed.
Lemma bits_shape n t used d q : bits_picture n t used d = Some q -> len d = n /\ allowed t d = true /\ q = diagram n (keep_bits d used) (all_shown n t d).
Proof.
  unfold bits_picture. intros H. destruct (_ && _) eqn:G; [|discriminate]. match type of H with Some ?x = _ => assert (Q : q = x) by congruence end. apply andb_prop in G. destruct G as [G1 G2]. apply N.eqb_eq in G1. auto.
Qed.
Lemma words_fields n mask t used d d' q q' i show i' show' : tidy n mask t = true -> bits_picture n t used d = Some q -> bits_picture n t used d' = Some q' ->
  (same_words (q i show) (q' i' show') <-> forall e, In e t -> field_bits e d = field_bits e d').
Proof.
  intros T Q Q'. destruct (tidy_parts n mask t T) as (S & A & _ & _ & _). apply bits_shape in Q, Q'. destruct Q as (L & C & ->), Q' as (L' & C' & ->). unfold same_words. split.
  - intros H e I. destruct (field_text e (field_bits e d)) as [w|] eqn:E.
    + assert (K : tells (diagram n (keep_bits d used) (all_shown n t d) i show) w) by (apply field_told; eauto). apply H in K. apply field_told in K; [|assumption]. destruct K as (e' & I' & E').
      destruct (text_unique t e e' d d' w A I I' E E') as [<- X]. exact X.
    + destruct (field_text e (field_bits e d')) as [w|] eqn:E'.
      * assert (K : tells (diagram n (keep_bits d' used) (all_shown n t d') i' show') w) by (apply field_told; eauto). apply H in K. apply field_told in K; [|assumption]. destruct K as (e' & I' & E2).
        destruct (text_unique t e' e d d' w A I' I E2 E') as [-> X]. exact X.
      * rewrite forallb_forall in S. specialize (S e I). destruct (allowed_code t d e C I) as (v & D). destruct (allowed_code t d' e C' I) as (v' & D').
        pose proof (field_bits_bound e d) as B. pose proof (field_bits_bound e d') as B'. unfold field_text in E, E'. destruct (e_kind e) eqn:K; try (rewrite D in E; discriminate E).
        assert (W : width e = 1) by (unfold sound in S; rewrite K in S; unfold width; lia). rewrite W in B, B'. change (2 ^ 1) with 2 in *.
        destruct (N.eqb_spec (field_bits e d) 1); [discriminate E|]. destruct (N.eqb_spec (field_bits e d') 1); [discriminate E'|]. lia.
  - intros H w. rewrite !field_told by assumption. split; intros (e & I & E); exists e; (split; [assumption|]); [rewrite <- (H e I)|rewrite (H e I)]; exact E.
Qed.
Lemma worded_tidy mask f : In (mask, f) worded -> exists n t used, f = bits_picture n t used /\ tidy n mask t = true.
Proof.
  unfold worded. cbn [In]. intros I. repeat (destruct I as [I|I]; [injection I as <- <-; do 3 eexists; split; [reflexivity|vm_compute; reflexivity]|]). destruct I.
Qed.

(** C117: the explanations by themselves. *)
(* They are the same exactly if the values agree in all bits that have a meaning. *)
Theorem C117_words : forall mask f d d' q q' i i' show show', In (mask, f) worded -> f d = Some q -> f d' = Some q' ->
  (same_words (q i show) (q' i' show') <-> keep_bits d mask = keep_bits d' mask).
Proof.
  intros mask f d d' q q' i i' show show' I Q Q'. destruct (worded_tidy mask f I) as (n & t & used & -> & T). rewrite (words_fields n mask t used d d' q q' i show i' show' T Q Q').
  destruct (tidy_parts n mask t T) as (_ & _ & M & Ln & _). apply bits_shape in Q, Q'. destruct Q as (L & _ & _), Q' as (L' & _ & _). unfold len in L, L'.
  rewrite kept_bits by lia. split.
  - intros H k j B. apply (masked_cells mask t k j M) in B. apply in_flat_map in B. destruct B as (e & He & B). exact (proj1 (field_bits_eq e d d') (H e He) (k, j) B).
  - intros H e He. apply field_bits_eq. intros [k j] X. apply H. apply (masked_cells mask t k j M). apply in_flat_map. eauto.
Qed.
Lemma flipped_other k j d x : (k < List.length d)%nat -> x <> (k, j) -> is_set (flipped k j d) x = is_set d x.
Proof.
  intros L N. destruct x as [k' j']. unfold is_set, flipped. cbn [fst snd]. assert (F : List.length (firstn k d) = k) by (rewrite firstn_length; lia).
  destruct (Nat.lt_trichotomy k' k) as [K|[->|K]].
  - rewrite app_nth1 by lia. rewrite <- (firstn_skipn k d) at 2. rewrite app_nth1 by lia. reflexivity.
  - rewrite app_nth2 by lia. rewrite F, Nat.sub_diag. cbn [nth]. rewrite N.lxor_spec, N.pow2_bits_false by congruence. apply xorb_false_r.
  - rewrite app_nth2 by lia. rewrite F. destruct (k' - k)%nat as [|m] eqn:E; [lia|]. cbn [nth]. rewrite <- (firstn_skipn (k + 1) d) at 2. rewrite app_nth2 by (rewrite firstn_length; lia). rewrite firstn_length.
    f_equal. f_equal. lia.
Qed.
Lemma flipped_here k j d : (k < List.length d)%nat -> is_set (flipped k j d) (k, j) = negb (is_set d (k, j)).
Proof.
  intros L. unfold is_set, flipped. cbn [fst snd]. assert (F : List.length (firstn k d) = k) by (rewrite firstn_length; lia).
  rewrite app_nth2 by lia. rewrite F, Nat.sub_diag. cbn [nth]. rewrite N.lxor_spec, N.pow2_bits_true. apply xorb_true_r.
Qed.
(* One bit changes nothing if it has no meaning. Otherwise one explanation goes or comes or is replaced by another one. *)
Theorem C117_bit : forall mask f d k j q q' i i' show show', In (mask, f) worded -> (k < List.length d)%nat -> f d = Some q -> f (flipped k j d) = Some q' ->
  at_most_one_more (q i show) (q' i' show') /\ at_most_one_more (q' i' show') (q i show)
  /\ (same_words (q i show) (q' i' show') <-> N.testbit (nth k mask 0) j = false).
Proof.
  intros mask f d k j q q' i i' show show' I Lk Q Q'. split; [|split].
  3: { rewrite (C117_words mask f d _ q q' i i' show show' I Q Q'). destruct (worded_tidy mask f I) as (n & t & used & -> & T). destruct (tidy_parts n mask t T) as (_ & _ & _ & Ln & _).
    apply bits_shape in Q, Q'. destruct Q as (L & _ & _), Q' as (L' & _ & _). unfold len in L, L'. rewrite kept_bits by lia. split.
    - intros H. destruct (N.testbit (nth k mask 0) j) eqn:B; [|reflexivity]. specialize (H k j B). rewrite (flipped_here k j d Lk) in H. destruct (is_set d (k, j)); discriminate H.
    - intros B k' j' B'. symmetry. apply flipped_other; [assumption|]. intros E. injection E as -> ->. congruence. }
  all: destruct (worded_tidy mask f I) as (n & t & used & -> & T); destruct (tidy_parts n mask t T) as (S & A & _ & _ & Nd); apply bits_shape in Q, Q'; destruct Q as (_ & _ & ->), Q' as (_ & _ & ->).
  all: assert (Other : forall e, In e t -> ~ In (k, j) (cells e) -> field_bits e d = field_bits e (flipped k j d)) by (intros e _ Ne; apply field_bits_eq; intros x X; symmetry; apply flipped_other; [assumption|congruence]).
  all: assert (Dec : forall e, In (k, j) (cells e) \/ ~ In (k, j) (cells e)) by (intros e; destruct (in_dec (fun a b : nat * N => ltac:(decide equality; [apply N.eq_dec|apply Nat.eq_dec])) (k, j) (cells e)); auto).
  all: intros w w' H Nh H' Nh'; rewrite field_told in H, Nh, H', Nh' by assumption; destruct H as (e & He & E), H' as (e' & He' & E').
  all: assert (X : In (k, j) (cells e)) by (destruct (Dec e) as [X|X]; [assumption|]; exfalso; apply Nh; exists e; split; [assumption|]; first [rewrite <- (Other e He X)|rewrite (Other e He X)]; exact E).
  all: assert (X' : In (k, j) (cells e')) by (destruct (Dec e') as [X'|X']; [assumption|]; exfalso; apply Nh'; exists e'; split; [assumption|]; first [rewrite <- (Other e' He' X')|rewrite (Other e' He' X')]; exact E').
  all: rewrite (nodup_flat cells t (k, j) e e' Nd He He' X X') in E; congruence.
Qed.

(** ** CVM results *)

Definition method_text (v : N) : str := match find_code cv_method_codes v with Some (_, s) => lit s | None => lit "Unknown (likely issuer or payment system-specific)" end.
Definition condition_text (v : N) : str := match find_code cvm_condition_codes v with Some (_, s) => lit s | None => lit "Unknown (likely payment system-specific)" end.
Definition listed {A : Type} (table : list (N * A * string)) (v : N) : bool := existsb (fun r => fst (fst r) =? v) table.
Lemma listed_in {A : Type} (table : list (N * A * string)) v : listed table v = false <-> ~ In v (map (fun r => fst (fst r)) table).
Proof.
  rewrite <- not_true_iff_false. unfold listed. rewrite existsb_exists, in_map_iff. split; intros H K; apply H; destruct K as (r & K1 & K2); exists r; [split; [assumption|now apply N.eqb_eq]|split; [now apply N.eqb_eq in K2|assumption]].
Qed.
Lemma unlisted_code {A : Type} (table : list (N * A * string)) v : listed table v = false -> find_code table v = None.
Proof. induction table as [|[[k a] s] l IH]; [reflexivity|]. cbn [listed existsb fst find_code]. destruct (k =? v); [discriminate|exact IH]. Qed.
Definition tells_code {A : Type} (table : list (N * A * string)) (text : N -> str) (m : nat) : bool :=
  forallb (fun v => forallb (fun v' => implb (same_bytes (text (N.of_nat v)) (text (N.of_nat v')))
    ((v =? v')%nat || negb (listed table (N.of_nat v)) && negb (listed table (N.of_nat v')))) (seq 0 m)) (seq 0 m).
Lemma code_told {A : Type} (table : list (N * A * string)) text unknown m v v' : tells_code table text m = true -> (N.to_nat v < m)%nat -> (N.to_nat v' < m)%nat ->
  (forall c, find_code table c = None -> text c = unknown) -> (text v = text v' <-> same_code table v v').
Proof.
  intros H L L' U. split.
  - intros E. unfold tells_code in H. rewrite forallb_forall in H. specialize (H (N.to_nat v) ltac:(apply in_seq; lia)). rewrite forallb_forall in H. specialize (H (N.to_nat v') ltac:(apply in_seq; lia)).
    rewrite !N2Nat.id, E, same_bytes_refl in H. cbn [implb] in H. apply orb_prop in H. destruct H as [H|H]; [left; apply Nat.eqb_eq in H; lia|right].
    apply andb_prop in H. destruct H as [H1 H2]. apply negb_true_iff in H1, H2. split; now apply listed_in.
  - intros [->|[X X']]; [reflexivity|]. apply listed_in in X, X'. rewrite (U v), (U v') by now apply unlisted_code. reflexivity.
Qed.
Lemma methods_told v v' : v < 64 -> v' < 64 -> (method_text v = method_text v' <-> same_code cv_method_codes v v').
Proof.
  intros L L'. apply (code_told _ _ (lit "Unknown (likely issuer or payment system-specific)") 64); [vm_compute; reflexivity|lia|lia|]. intros c E. unfold method_text. now rewrite E.
Qed.
Lemma conditions_told v v' : v < 256 -> v' < 256 -> (condition_text v = condition_text v' <-> same_code cvm_condition_codes v v').
Proof.
  intros L L'. apply (code_told _ _ (lit "Unknown (likely payment system-specific)") 256); [vm_compute; reflexivity|lia|lia|]. intros c E. unfold condition_text. now rewrite E.
Qed.
Definition rule_words (a b : N) : list str :=
  (if bits_of a 7 7 =? 1 then [lit "Apply succeeding CV Rule if this CVM is unsuccessful"] else [])
  ++ [lit "Method: " ++ method_text (bits_of a 6 1); lit "Condition: " ++ condition_text (bits_of b 8 1)].
Lemma rule_shown a b : map r_text (all_shown 2 cv_rule_bits [a; b]) = rule_words a b.
Proof.
  unfold all_shown, cv_rule_bits, rule_words, field_shown, field_bits, flag, group. cbn [flat_map e_kind e_byte e_hi e_lo e_label e_sev]. change (N.to_nat (1 - 1)) with 0%nat. change (N.to_nat (2 - 1)) with 1%nat. cbn [nth].
  cbn [decode]. unfold optional, method_text, condition_text. destruct (bits_of a 7 7 =? 1), (find_code cv_method_codes _) as [[? ?]|], (find_code cvm_condition_codes _) as [[? ?]|]; reflexivity.
Qed.
Lemma results_told a b c q i show w : cvm_results_picture [a; b; c] = Some q ->
  exists r, find_code cvm_result_codes c = Some r /\ (tells (q i show) w <-> In w (rule_words a b ++ [lit "Result: " ++ lit (snd r)])).
Proof.
  cbn [cvm_results_picture]. destruct (find_code cvm_result_codes c) as [r|]; cbn [option_map]; [|discriminate]. intros H. match type of H with Some ?x = _ => assert (Q : q = x) by congruence end. rewrite Q. clear H Q.
  exists r. split; [reflexivity|]. rewrite words_told.
  - rewrite <- rule_shown. rewrite in_app_iff. split.
    + intros (x & I & <-). apply in_app_iff in I. destruct I as [I|[<-|[]]]; [left|right; now left]. apply in_map_iff in I. destruct I as (y & <- & I). cbn [r_text]. now apply in_map.
    + intros [I|[<-|[]]].
      * apply in_map_iff in I. destruct I as (y & <- & I). eexists. split; [apply in_app_iff; left; apply in_map_iff; exists y; split; [reflexivity|assumption]|reflexivity].
      * eexists. split; [apply in_app_iff; right; now left|reflexivity].
  - apply Forall_app. split; [|constructor; [split; [reflexivity|apply boxless_app; apply boxless_lit]|constructor]]. apply Forall_forall. intros x I. apply in_map_iff in I. destruct I as (y & <- & I). cbn [r_offset r_text].
    unfold all_shown in I. apply in_flat_map in I. destruct I as (e & He & I). assert (S : sound 2 e = true) by (cbn [cv_rule_bits In] in He; repeat (destruct He as [<-|He]; [reflexivity|]); destruct He).
    destruct (shown_fits 2 e _ y S I) as [A B]. split; [lia|assumption].
Qed.
Lemma lit_inj a b : lit a = lit b -> a = b.
Proof.
  intros H. assert (X : forall l l' : list ascii, map N_of_ascii l = map N_of_ascii l' -> l = l').
  { induction l as [|x l IH]; intros [|y l'] E; cbn [map] in E; try discriminate; [reflexivity|]. injection E as E1 E2. f_equal; [|auto]. rewrite <- (ascii_N_embedding x), <- (ascii_N_embedding y). congruence. }
  unfold lit in H. apply X in H. rewrite <- (string_of_list_ascii_of_string a), <- (string_of_list_ascii_of_string b). congruence.
Qed.
Lemma bits_flag a : bits_of a 7 7 = 0 \/ bits_of a 7 7 = 1.
Proof. unfold bits_of. change (2 ^ (7 - 7 + 1)) with 2. assert (X : (a / 2 ^ (7 - 1)) mod 2 < 2) by (apply N.mod_lt; discriminate). revert X. generalize ((a / 2 ^ (7 - 1)) mod 2). intros. lia. Qed.
(* The method and condition of CVM results are told except which unknown code it is. *)
Theorem C117_results : forall a b c a' b' c' q q' i i' show show', b < 256 -> b' < 256 -> cvm_results_picture [a; b; c] = Some q -> cvm_results_picture [a'; b'; c'] = Some q' ->
  (same_words (q i show) (q' i' show')
   <-> bits_of a 7 7 = bits_of a' 7 7 /\ same_code cv_method_codes (bits_of a 6 1) (bits_of a' 6 1) /\ same_code cvm_condition_codes b b' /\ c = c').
Proof.
  intros a b c a' b' c' q q' i i' show show' Lb Lb' Q Q'.
  assert (W : exists r r', find_code cvm_result_codes c = Some r /\ find_code cvm_result_codes c' = Some r' /\ (same_words (q i show) (q' i' show')
    <-> forall w, In w (rule_words a b ++ [lit "Result: " ++ lit (snd r)]) <-> In w (rule_words a' b' ++ [lit "Result: " ++ lit (snd r')]))).
  { destruct (results_told a b c q i show [] Q) as (r & R & _), (results_told a' b' c' q' i' show' [] Q') as (r' & R' & _). exists r, r'. split; [assumption|]. split; [assumption|]. unfold same_words.
    split; intros H w; specialize (H w); destruct (results_told a b c q i show w Q) as (x & X & Y), (results_told a' b' c' q' i' show' w Q') as (x' & X' & Y'); rewrite R in X; rewrite R' in X'; injection X as <-; injection X' as <-; tauto. }
  destruct W as (r & r' & R & R' & ->).
  assert (M : forall x, bits_of x 6 1 < 64) by (intros x; unfold bits_of; apply N.mod_lt; discriminate).
  assert (K : forall x, x < 256 -> bits_of x 8 1 = x) by (intros x Lx; unfold bits_of; change (2 ^ (1 - 1)) with 1; rewrite N.div_1_r; apply N.mod_small; exact Lx).
  rewrite <- (methods_told _ _ (M a) (M a')), <- (conditions_told b b' Lb Lb'). unfold rule_words. rewrite (K b Lb), (K b' Lb').
  generalize (method_text (bits_of a 6 1)) (method_text (bits_of a' 6 1)) (condition_text b) (condition_text b'). intros m m' n n'.
  assert (Res : snd r = snd r' -> c = c').
  { assert (X : forall c r, find_code cvm_result_codes c = Some r -> nth (N.to_nat c) ["Unknown"; "Failed"; "Successful"]%string EmptyString = snd r /\ c < 3).
    { clear. intros c r. unfold cvm_result_codes. cbn [find_code]. repeat (match goal with |- context [N.eqb ?k c] => destruct (N.eqb_spec k c) as [<-|] end; [intros H; injection H as <-; split; reflexivity|]). discriminate. }
    intros E. destruct (X c r R) as [X1 X2], (X c' r' R') as [X3 X4]. rewrite E in X1. rewrite <- X3 in X1. clear - X1 X2 X4. 
    destruct c as [|[[?|?|]|[?|?|]|]], c' as [|[[?|?|]|[?|?|]|]]; try lia; try reflexivity; discriminate X1. }
  split.
  - intros H. split; [|split; [|split]].
    + pose proof (H (lit "Apply succeeding CV Rule if this CVM is unsuccessful")) as E. destruct (bits_flag a) as [F|F], (bits_flag a') as [F'|F']; rewrite F, F' in *; try reflexivity; exfalso; cbn [N.eqb Pos.eqb app In] in E.
      * destruct E as [_ E]. destruct (E (or_introl eq_refl)) as [X|[X|[X|[]]]]; discriminate X.
      * destruct E as [E _]. destruct (E (or_introl eq_refl)) as [X|[X|[X|[]]]]; discriminate X.
    + assert (E : In (lit "Method: " ++ m) ((if bits_of a 7 7 =? 1 then [lit "Apply succeeding CV Rule if this CVM is unsuccessful"] else []) ++ [lit "Method: " ++ m; lit "Condition: " ++ n] ++ [lit "Result: " ++ lit (snd r)])) by (apply in_app_iff; right; now left).
      rewrite app_assoc in E. apply H in E. rewrite <- app_assoc in E. apply in_app_iff in E. destruct E as [E|E]; [destruct (bits_of a' 7 7 =? 1); [destruct E as [E|[]]; discriminate E|destruct E]|]. destruct E as [E|[E|[E|[]]]]; try discriminate E. now apply app_inv_head in E.
    + assert (E : In (lit "Condition: " ++ n) ((if bits_of a 7 7 =? 1 then [lit "Apply succeeding CV Rule if this CVM is unsuccessful"] else []) ++ [lit "Method: " ++ m; lit "Condition: " ++ n] ++ [lit "Result: " ++ lit (snd r)])) by (apply in_app_iff; right; right; now left).
      rewrite app_assoc in E. apply H in E. rewrite <- app_assoc in E. apply in_app_iff in E. destruct E as [E|E]; [destruct (bits_of a' 7 7 =? 1); [destruct E as [E|[]]; discriminate E|destruct E]|]. destruct E as [E|[E|[E|[]]]]; try discriminate E. now apply app_inv_head in E.
    + assert (E : In (lit "Result: " ++ lit (snd r)) ((if bits_of a 7 7 =? 1 then [lit "Apply succeeding CV Rule if this CVM is unsuccessful"] else []) ++ [lit "Method: " ++ m; lit "Condition: " ++ n] ++ [lit "Result: " ++ lit (snd r)])) by (apply in_app_iff; right; right; right; now left).
      rewrite app_assoc in E. apply H in E. rewrite <- app_assoc in E. apply in_app_iff in E. destruct E as [E|E]; [destruct (bits_of a' 7 7 =? 1); [destruct E as [E|[]]; discriminate E|destruct E]|]. destruct E as [E|[E|[E|[]]]]; try discriminate E.
      apply app_inv_head in E. apply Res. symmetry. now apply lit_inj.
  - intros (-> & -> & -> & ->). rewrite R in R'. injection R' as <-. intros w. reflexivity.
Qed.

(** ** On the screen *)

Lemma flags_allowed n t d : forallb (sound n) t = true -> forallb (fun e => match e_kind e with Flag => true | _ => false end) t = true -> allowed t d = true.
Proof.
  intros _ H. unfold allowed. assert (X : exists vs, decode_all t d = Some vs); [|destruct X as (vs & ->); reflexivity].
  induction t as [|e t IH]; [eexists; reflexivity|]. cbn [forallb] in H. apply andb_prop in H. destruct H as [H1 H2]. destruct (IH H2) as (vs & E). cbn [decode_all]. unfold field_value. destruct (e_kind e); try discriminate H1. cbn [decode option_map]. rewrite E. eexists. reflexivity.
Qed.
Lemma worded_picture t mask d : In (t, mask) worded_tags -> exists f, In (mask, f) worded /\ SpecPictures.lookup pictures t = Some f /\ In (t, len mask) fixed_lengths /\ (len d = len mask -> exists q, f d = Some q).
Proof.
  intros I. assert (X : forall n fs used, forallb (sound n) fs = true -> forallb (fun e => match e_kind e with Flag => true | _ => false end) fs = true -> len d = n -> exists q, bits_picture n fs used d = Some q).
  { intros n fs used S F L. unfold bits_picture. rewrite L, N.eqb_refl, (flags_allowed n fs d S F). eexists. reflexivity. }
  unfold worded_tags in I. cbn [In] in I. repeat (destruct I as [I|I]; [injection I as <- <-; eexists; split; [|split; [reflexivity|split; [unfold fixed_lengths; cbn [In]; tauto|apply X; reflexivity]]]; unfold worded; cbn [In]; tauto|]). destruct I.
Qed.
Lemma object_told t d i show q w : rt_data t = Normal d -> picture_of (rt_tag t) d = Some q -> (tells (tag_lines t i show) w <-> tells (q (i + 1) show) w).
Proof.
  intros D Q. unfold tag_lines. rewrite plain_cons.
  2: { pose proof (boxless_title t). assert (boxless (length_text (rt_data t))) by (rewrite D; unfold length_text; apply boxless_app; [apply boxless_dec|destruct (len d =? 1); apply boxless_lit]). plain. }
  rewrite tells_app. assert (X : ~ tells (data_lines i t) w) by (apply plain_all; unfold data_lines; rewrite D; destruct d; [constructor|constructor; [plain|apply plain_wide_dump]]).
  unfold meaning_lines. rewrite D, Q, plain_cons by plain. tauto.
Qed.
(* For two objects with the same tag, in the same or different data: their lines are on the screen. *)
Lemma object_lines p masks sort op s ls f ns t mask d : text64 p s -> sheet masks sort op s ls -> tlv_block masks op s f ns ->
  In t (flat_map preorder ns) -> In (rt_tag t, mask) worded_tags -> rt_data t = Normal d ->
  exists i g q, incl (tag_lines t i true) ls /\ In (mask, g) worded /\ SpecPictures.lookup pictures (rt_tag t) = Some g /\ g d = Some q /\ forall w, tells (tag_lines t i true) w <-> tells (q (i + 1) true) w.
Proof.
  intros T H B I V D. inversion H as [f0 q J E|n O Dn N|f0 ms ns' B' N A]; subst.
  { exfalso. revert B. apply no_block. clear - J. unfold byte_operations in J. cbn [In] in J. cbn [In]. repeat (destruct J as [J|J]; [injection J as <- _; tauto|]). contradiction. }
  { exfalso. revert B. apply no_block. cbn [In]. tauto. }
  destruct (tlv_block_det p _ _ _ _ _ _ _ T B B') as [<- <-]. rewrite Forall_forall in N.
  destruct (worded_picture (rt_tag t) mask d V) as (g & Ig & Lg & Fg & Sg).
  assert (L : len d = len mask).
  { destruct (N.eq_dec (len d) (len mask)) as [E|E]; [exact E|]. exfalso. apply (N t I (ByteCountIncorrect Eq (len mask) (len d))). exists d. split; [assumption|]. now constructor. }
  destruct (Sg L) as (q & Q). assert (P : picture_of (rt_tag t) d = Some q) by (unfold picture_of; now rewrite Lg).
  assert (R : exists j, incl (tag_lines t j true) (format_lines f ++ forest_lines ns' 0 true)).
  { destruct (forest_holds true ns 0 t I) as (j & J). exists j. apply incl_appr. destruct sort; [|now subst]. intros l Hl. apply J in Hl. now apply (Permutation_in _ (in_order_lines ns ns' A 0 true)). }
  destruct R as (i & Hi). exists i, g, q. repeat (split; [assumption|]). intros w. now apply (object_told t d i true q w D).
Qed.
Theorem C117_objects : forall p p' masks masks' sort sort' op op' s s' ls ls' f f' ns ns' t t' mask d d', text64 p s -> text64 p' s' ->
  sheet masks sort op s ls -> sheet masks' sort' op' s' ls' -> tlv_block masks op s f ns -> tlv_block masks' op' s' f' ns' ->
  In t (flat_map preorder ns) -> In t' (flat_map preorder ns') -> rt_tag t' = rt_tag t -> In (rt_tag t, mask) worded_tags -> rt_data t = Normal d -> rt_data t' = Normal d' ->
  exists i i', incl (tag_lines t i true) ls /\ incl (tag_lines t' i' true) ls'
    /\ (same_words (tag_lines t i true) (tag_lines t' i' true) <-> keep_bits d mask = keep_bits d' mask).
Proof.
  intros p p' masks masks' sort sort' op op' s s' ls ls' f f' ns ns' t t' mask d d' T T' H H' B B' I I' E V D D'.
  destruct (object_lines p masks sort op s ls f ns t mask d T H B I V D) as (i & g & q & J & W & G & Q & X).
  assert (V' : In (rt_tag t', mask) worded_tags) by now rewrite E.
  destruct (object_lines p' masks' sort' op' s' ls' f' ns' t' mask d' T' H' B' I' V' D') as (i' & g' & q' & J' & W' & G' & Q' & X').
  rewrite E, G in G'. injection G' as <-. exists i, i'. split; [assumption|]. split; [assumption|].
  rewrite <- (C117_words mask g d d' q q' (i + 1) (i' + 1) true true W Q Q'). unfold same_words. split; intros K w; specialize (K w); specialize (X w); specialize (X' w); tauto.
Qed.
(* The same for two runs of the program. *)
Theorem C117_program : forall p e m st e' m' st' op mask s s' ls ls', load_settings e m = Ok st -> SpecMain.chosen m op s -> text64 p s ->
  load_settings e' m' = Ok st' -> SpecMain.chosen m' op s' -> text64 p s' -> In (op, mask) worded_options ->
  sheet (set_masking st) (set_sort st) op s ls -> sheet (set_masking st') (set_sort st') op s' ls' ->
  displays (run_main p e m) ls /\ displays (run_main p e' m') ls' /\ (same_words ls ls' <-> keep_bits (hex_bytes s) mask = keep_bits (hex_bytes s') mask).
Proof.
  assert (One : forall p e m st op mask s ls, load_settings e m = Ok st -> SpecMain.chosen m op s -> text64 p s -> In (op, mask) worded_options -> sheet (set_masking st) (set_sort st) op s ls ->
    displays (run_main p e m) ls /\ exists f q, In (mask, f) worded /\ In (op, f) byte_operations /\ f (hex_bytes s) = Some q /\ ls = q 0 true).
  { intros p e m st op mask s ls L C T I H.
    assert (F : exists f q, In (mask, f) worded /\ In (op, f) byte_operations /\ f (hex_bytes s) = Some q /\ ls = q 0 true).
    { unfold worded_options in I. cbn [In] in I. inversion H as [f q J E|n O Dn N|f ns ns' B N A]; subst.
      - exists f, q. split; [|auto]. unfold byte_operations in J. cbn [In] in J. destruct I as [I|[I|[I|[]]]]; injection I as <- <-; repeat (destruct J as [J|J]; [try discriminate J; injection J as <-; unfold worded; cbn [In]; tauto|]); destruct J.
      - exfalso. repeat (destruct I as [I|I]; [discriminate I|]). destruct I.
      - exfalso. inversion B; subst; repeat (destruct I as [I|I]; [discriminate I|]); destruct I. }
    split; [|exact F]. apply (C73_shown p e m st op s ls L C T H). destruct F as (f & q & W & _ & Q & ->). destruct (worded_tidy mask f W) as (n & t & used & -> & _). apply bits_shape in Q. destruct Q as (_ & _ & ->).
    intros _. match goal with |- ?x < _ => assert (Z : x = 0); [|rewrite Z; reflexivity] end. apply flat_deepest. apply Forall_forall. intros l K. unfold diagram in K. destruct K as [<-|K]; [reflexivity|]. apply in_app_iff in K. destruct K as [K|K].
    - destruct (existsb _ _); [|destruct K]. destruct K as [<-|[]]. reflexivity.
    - apply in_map_iff in K. destruct K as (r & <- & _). reflexivity. }
  intros p e m st e' m' st' op mask s s' ls ls' L C T L' C' T' I H H'. destruct (One p e m st op mask s ls L C T I H) as (D & f & q & W & J & Q & ->), (One p e' m' st' op mask s' ls' L' C' T' I H') as (D' & f' & q' & W' & J' & Q' & ->).
  split; [assumption|]. split; [assumption|]. assert (E : f' = f).
  { clear - J J'. unfold byte_operations in J, J'. cbn [In] in J, J'. repeat (destruct J as [J|J]; [injection J as <- <-; repeat (destruct J' as [J'|J']; [try discriminate J'; injection J' as <-; reflexivity|]); destruct J'|]). destruct J. }
  subst f'. exact (C117_words mask f _ _ q q' 0 0 true true W Q Q').
Qed.
(* Words alone do not tell unknown methods apart: both are shown with the same words. *)
Theorem C117_results_refuted : exists a a' b c q q', a <> a' /\ cvm_results_picture [a; b; c] = Some q /\ cvm_results_picture [a'; b; c] = Some q' /\ same_words (q 0 true) (q' 0 true).
Proof.
  exists 0x20, 0x2A, 3, 2. do 2 eexists. split; [discriminate|]. split; [reflexivity|]. split; [reflexivity|].
  eapply (C117_results 0x20 3 2 0x2A 3 2); [reflexivity|reflexivity|reflexivity|reflexivity|]. split; [reflexivity|]. split; [right; split; vm_compute; intros K; repeat (destruct K as [K|K]; [discriminate K|]); exact K|].
  split; [now left|reflexivity].
Qed.
Example C117_example : exists q q' r r', In ([0xFC; 0x00], bits_picture 2 tsi_bits tsi_used) worded /\ bits_picture 2 tsi_bits tsi_used [0xE8; 0] = Some q /\ bits_picture 2 tsi_bits tsi_used (flipped 0 3 [0xE8; 0]) = Some q'
  /\ flipped 0 3 [0xE8; 0] = [0xE0; 0] /\ keep_bits [0xE8; 0] [0xFC; 0] <> keep_bits [0xE0; 0] [0xFC; 0]
  /\ cvm_results_picture [0x42; 3; 2] = Some r /\ cvm_results_picture [2; 3; 2] = Some r' /\ In ([0x9B], [0xFC; 0x00]) worded_tags /\ In (OpTsi, [0xFC; 0x00]) worded_options.
Proof.
  do 4 eexists. split; [unfold worded; cbn [In]; tauto|]. split; [reflexivity|]. split; [reflexivity|]. split; [reflexivity|]. split; [intros K; discriminate K|]. split; [reflexivity|]. split; [reflexivity|]. split; cbn; tauto.
Qed.
