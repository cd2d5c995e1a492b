(** The property of CCD issuer application data. *)

From Coq Require Import ZArith NArith Ascii String List Bool Lia ZifyN ZifyBool ZifyNat Permutation Sorting.
From Verif Require Import Base ModelUtil ModelEnums ModelBitflag ModelSchemas ModelTags ModelTlv ModelValues ModelProcess ModelDisplay
  SpecUtil SpecCodes SpecValues SpecTlv SpecIngenico SpecTags SpecProcess SpecDisplay
  ProofsUtil ProofsGrammar ProofsBer ProofsIngenico ProofsValues PropertiesValues
  PropertiesBer PropertiesIngenico ProofsProcess PropertiesProcess ProofsDisplay ProofsDiagram ProofsScreens ProofsLayout PropertiesDisplay
  SpecPictures ProofsPictures ModelMain SpecMain ProofsMain PropertiesMain ModelCli SpecCli ProofsCli PropertiesCli PropertiesPictures
  SpecReading PropertiesReading SpecSame PropertiesSame SpecJoin PropertiesJoin PropertiesCut SpecCopied PropertiesCopied
  SpecReserved PropertiesReserved SpecMatch PropertiesMatch SpecExplain PropertiesExplain PropertiesRuns SpecIssuer.
Import ListNotations.
Local Open Scope N_scope.

(** ** Card verification results *)

Lemma flag_bit b j : bits_of b (j + 1) (j + 1) = 1 <-> N.land b (2 ^ j) = 2 ^ j.
Proof.
  unfold bits_of. replace (j + 1 - 1) with j by lia. replace (j + 1 - (j + 1) + 1) with 1 by lia. change (2 ^ 1) with 2.
  assert (T : N.testbit b j = true <-> (b / 2 ^ j) mod 2 = 1).
  { rewrite N.testbit_eqb. apply N.eqb_eq. }
  rewrite <- T. split.
  - intros H. apply N.bits_inj. intros k. rewrite N.land_spec. destruct (N.eq_dec k j) as [->|Nk]; [rewrite H; reflexivity|]. rewrite N.pow2_bits_false by congruence. now rewrite andb_false_r.
  - intros H. assert (K : N.testbit (N.land b (2 ^ j)) j = true) by (rewrite H; apply N.pow2_bits_true). rewrite N.land_spec in K. now apply andb_prop in K.
Qed.
Lemma byte_at d k : bytes_ok d -> nth k d 0 < 256.
Proof.
  intros B. destruct (Nat.lt_ge_cases k (List.length d)) as [H|H]; [|rewrite nth_overflow by assumption; reflexivity]. unfold bytes_ok in B. rewrite Forall_forall in B. apply B. now apply nth_In.
Qed.
Definition is_flag (e : bit_field) : bool := match e_kind e with Flag => true | _ => false end.
Definition flag_of (e : bit_field) : nat * N * string := (N.to_nat (e_byte e - 1), 2 ^ (e_hi e - 1), e_label e).
Lemma flags_listed : map flag_of (filter is_flag cvr_bits) = results_flags.
Proof. vm_compute. reflexivity. Qed.
Lemma single_bits : forallb (fun e => (1 <=? e_hi e) && (e_lo e =? e_hi e)) (filter is_flag cvr_bits) = true.
Proof. vm_compute. reflexivity. Qed.
Lemma others_listed : filter (fun e => negb (is_flag e)) cvr_bits = [
  group 1 8 7 GenAc2 "gen_ac_2_application_cryptogram_type" SevNormal "Application cryptogram type returned in 2nd GENERATE AC: ";
  group 1 6 5 GenAc1 "gen_ac_1_application_cryptogram_type" SevNormal "Application cryptogram type returned in 1st GENERATE AC: ";
  group 2 8 5 Number "pin_try_count" SevNormal "PIN try count: ";
  group 4 8 5 Number "successful_issuer_script_commands_with_secure_messaging" SevNormal "Number of successfully processed issuer script commands containing secure messaging: "].
Proof. vm_compute. reflexivity. Qed.
Lemma flags_told d w : (exists e, In e (filter is_flag cvr_bits) /\ field_text e (field_bits e d) = Some w) <-> exists k v x, In (k, v, x) results_flags /\ N.land (nth k d 0) v = v /\ w = lit x.
Proof.
  assert (A : forall e, In e (filter is_flag cvr_bits) -> (field_text e (field_bits e d) = Some w <-> N.land (nth (N.to_nat (e_byte e - 1)) d 0) (2 ^ (e_hi e - 1)) = 2 ^ (e_hi e - 1) /\ w = lit (e_label e))).
  { intros e I. pose proof single_bits as S. rewrite forallb_forall in S. specialize (S e I). apply andb_prop in S. destruct S as [S1 S2]. apply filter_In in I. destruct I as [_ F]. unfold is_flag in F. unfold field_text, field_bits. destruct (e_kind e); try discriminate F.
    rewrite <- flag_bit. replace (e_hi e - 1 + 1) with (e_hi e) by lia. apply N.eqb_eq in S2. rewrite S2. destruct (N.eqb_spec (bits_of (nth (N.to_nat (e_byte e - 1)) d 0) (e_hi e) (e_hi e)) 1) as [K|K].
    - split; [intros E; injection E as <-; auto|intros [_ ->]; reflexivity].
    - split; [discriminate|intros [X _]; contradiction]. }
  rewrite <- flags_listed. split.
  - intros (e & I & E). apply (A e I) in E. destruct E as [E ->]. do 3 eexists. split; [apply in_map_iff; exists e; split; [reflexivity|exact I]|]. auto.
  - intros (k & v & x & I & K & ->). apply in_map_iff in I. destruct I as (e & F & I). unfold flag_of in F. injection F as <- <- <-. exists e. split; [exact I|]. apply (A e I). auto.
Qed.
Lemma results_fields d w : bytes_ok d -> ((exists e, In e cvr_bits /\ field_text e (field_bits e d) = Some w) <-> results_say d w).
Proof.
  intros B. assert (B0 := byte_at d 0 B). assert (B1 := byte_at d 1 B). assert (B3 := byte_at d 3 B).
  assert (Hi : forall b, b < 256 -> bits_of b 8 5 = b / 16) by (intros b Hb; unfold bits_of; change (2 ^ (5 - 1)) with 16; change (2 ^ (8 - 5 + 1)) with 16; apply N.mod_small, N.div_lt_upper_bound; lia).
  assert (G2 : bits_of (nth 0 d 0) 8 7 = nth 0 d 0 / 64) by (unfold bits_of; change (2 ^ (7 - 1)) with 64; change (2 ^ (8 - 7 + 1)) with 4; apply N.mod_small, N.div_lt_upper_bound; lia).
  assert (G1 : bits_of (nth 0 d 0) 6 5 = nth 0 d 0 / 16 mod 4) by (unfold bits_of; reflexivity).
  assert (L2 : nth 0 d 0 / 64 < 4) by (apply N.div_lt_upper_bound; lia).
  assert (L1 : nth 0 d 0 / 16 mod 4 < 4) by (apply N.mod_lt; lia).
  assert (T2 : forall c, c < 4 -> option_map snd (coded gen_ac2_codes VGenAc2 c) = option_map lit (nth_error second_cryptograms (N.to_nat c))).
  { intros c Lc. assert (C : c = 0 \/ c = 1 \/ c = 2 \/ c = 3) by lia. destruct C as [->|[->|[->| ->]]]; vm_compute; reflexivity. }
  assert (T1 : forall c, c < 4 -> option_map snd (coded gen_ac1_codes VGenAc1 c) = option_map lit (nth_error first_cryptograms (N.to_nat c))).
  { intros c Lc. assert (C : c = 0 \/ c = 1 \/ c = 2 \/ c = 3) by lia. destruct C as [->|[->|[->| ->]]]; vm_compute; reflexivity. }
  assert (O : (exists e, In e (filter (fun e => negb (is_flag e)) cvr_bits) /\ field_text e (field_bits e d) = Some w) <->
    (exists x, nth_error second_cryptograms (N.to_nat (nth 0 d 0 / 64)) = Some x /\ w = lit "Application cryptogram type returned in 2nd GENERATE AC: " ++ lit x)
    \/ (exists x, nth_error first_cryptograms (N.to_nat (nth 0 d 0 / 16 mod 4)) = Some x /\ w = lit "Application cryptogram type returned in 1st GENERATE AC: " ++ lit x)
    \/ (exists k x, In (k, x) results_counts /\ w = lit x ++ dec (nth k d 0 / 16))).
  { assert (M : forall (l : string) (a : option (fval * str)) (b : option string), option_map snd a = option_map lit b -> (option_map (fun x => lit l ++ snd x) a = Some w <-> exists x, b = Some x /\ w = lit l ++ lit x)).
    { intros l a b E. destruct a as [[a0 a]|], b as [b|]; cbn [option_map snd] in *; try discriminate E.
      - injection E as ->. split; [intros X; injection X as <-; eauto|intros (x & X & ->); now injection X as <-].
      - split; [discriminate|intros (x & X & _); discriminate X]. }
    rewrite others_listed. unfold results_counts. split.
    - intros (e & I & E). cbn [In] in I. destruct I as [I|[I|[I|[I|[]]]]]; subst e; unfold group, field_bits, field_text in E; cbn [e_byte e_hi e_lo e_kind e_label decode] in E.
      + change (N.to_nat (1 - 1)) with 0%nat in E. rewrite G2 in E. left. now apply (M _ _ _ (T2 _ L2)).
      + change (N.to_nat (1 - 1)) with 0%nat in E. rewrite G1 in E. right. left. now apply (M _ _ _ (T1 _ L1)).
      + change (N.to_nat (2 - 1)) with 1%nat in E. rewrite Hi in E by assumption. right. right. cbn [option_map snd] in E. exists 1%nat, "PIN try count: "%string. split; [now left|]. congruence.
      + change (N.to_nat (4 - 1)) with 3%nat in E. rewrite Hi in E by assumption. right. right. cbn [option_map snd] in E. do 2 eexists. split; [right; now left|]. congruence.
    - intros [X|[X|(k & x & I & ->)]].
      + apply (M _ _ _ (T2 _ L2)) in X. eexists. split; [now left|]. unfold group, field_bits, field_text. cbn [e_byte e_hi e_lo e_kind e_label decode]. change (N.to_nat (1 - 1)) with 0%nat. now rewrite G2.
      + apply (M _ _ _ (T1 _ L1)) in X. eexists. split; [right; now left|]. unfold group, field_bits, field_text. cbn [e_byte e_hi e_lo e_kind e_label decode]. change (N.to_nat (1 - 1)) with 0%nat. now rewrite G1.
      + cbn [In] in I. destruct I as [I|[I|[]]]; injection I as <- <-.
        * eexists. split; [right; right; now left|]. unfold group, field_bits, field_text. cbn [e_byte e_hi e_lo e_kind e_label decode]. change (N.to_nat (2 - 1)) with 1%nat. now rewrite Hi.
        * eexists. split; [right; right; right; now left|]. unfold group, field_bits, field_text. cbn [e_byte e_hi e_lo e_kind e_label decode]. change (N.to_nat (4 - 1)) with 3%nat. now rewrite Hi. }
  split.
  - intros (e & I & E). destruct (is_flag e) eqn:F.
    + assert (X : exists k v x, In (k, v, x) results_flags /\ N.land (nth k d 0) v = v /\ w = lit x) by (apply flags_told; exists e; split; [apply filter_In; auto|exact E]).
      destruct X as (k & v & x & J & K & ->). now apply (say_flag d k v x).
    + assert (X : exists e, In e (filter (fun e => negb (is_flag e)) cvr_bits) /\ field_text e (field_bits e d) = Some w) by (exists e; split; [apply filter_In; rewrite F; auto|exact E]).
      apply O in X. destruct X as [(x & X & ->)|[(x & X & ->)|(k & x & J & ->)]]; [now apply say_second|now apply say_first|now apply say_count].
  - intros H. assert (X : (exists e, In e (filter is_flag cvr_bits) /\ field_text e (field_bits e d) = Some w) \/ (exists e, In e (filter (fun e => negb (is_flag e)) cvr_bits) /\ field_text e (field_bits e d) = Some w)).
    { rewrite flags_told, O. destruct H as [k v x I K|k x I|x X|x X]; eauto 10. }
    destruct X as [(e & I & E)|(e & I & E)]; exists e; apply filter_In in I; tauto.
Qed.
Lemma results_told d q i show w : bytes_ok d -> bits_picture 5 cvr_bits cvr_used d = Some q -> (tells (q i show) w <-> results_say d w).
Proof.
  intros B Q. apply bits_shape in Q. destruct Q as (_ & _ & ->). rewrite field_told by (vm_compute; reflexivity). now apply results_fields.
Qed.
Lemma results_allowed d : allowed cvr_bits d = true.
Proof.
  assert (G : forall b hi lo, hi - lo = 1 -> bits_of b hi lo < 4) by (intros b hi lo E; unfold bits_of; rewrite E; apply N.mod_lt; discriminate).
  assert (D2 : forall c, c < 4 -> exists v, decode GenAc2 c = Some v) by (intros c Lc; assert (C : c = 0 \/ c = 1 \/ c = 2 \/ c = 3) by lia; destruct C as [->|[->|[->| ->]]]; eexists; reflexivity).
  assert (D1 : forall c, c < 4 -> exists v, decode GenAc1 c = Some v) by (intros c Lc; assert (C : c = 0 \/ c = 1 \/ c = 2 \/ c = 3) by lia; destruct C as [->|[->|[->| ->]]]; eexists; reflexivity).
  assert (A : forall e, In e cvr_bits -> exists v, decode (e_kind e) (field_bits e d) = Some v).
  { intros e I. destruct (is_flag e) eqn:F.
    - unfold is_flag in F. destruct (e_kind e); try discriminate F. eexists. reflexivity.
    - assert (J : In e (filter (fun e => negb (is_flag e)) cvr_bits)) by (apply filter_In; rewrite F; auto). rewrite others_listed in J. cbn [In] in J. destruct J as [J|[J|[J|[J|[]]]]]; subst e; unfold group; cbn [e_kind].
      + apply D2. unfold field_bits. cbn [e_byte e_hi e_lo]. now apply G.
      + apply D1. unfold field_bits. cbn [e_byte e_hi e_lo]. now apply G.
      + eexists. reflexivity.
      + eexists. reflexivity. }
  unfold allowed. assert (X : exists vs, decode_all cvr_bits d = Some vs); [|destruct X as (vs & ->); reflexivity]. revert A. generalize cvr_bits as t. induction t as [|e t IH]; intros A; [eexists; reflexivity|].
  destruct (A e (or_introl eq_refl)) as (v & V), (IH (fun x I => A x (or_intror I))) as (vs & W). cbn [decode_all]. unfold field_value. rewrite V, W. eexists. reflexivity.
Qed.
Lemma results_pictured d : len d = 5 -> bits_picture 5 cvr_bits cvr_used d = Some (diagram 5 (keep_bits d cvr_used) (all_shown 5 cvr_bits d)).
Proof. intros L. unfold bits_picture. now rewrite L, results_allowed. Qed.

(** ** The parts *)

Lemma identifier_told cci raw i show w : cci = 0xA5 \/ cci = 0xA6 -> (tells (diagram 1 raw (all_shown 1 cci_bits [cci]) i show) w <-> identifier_says cci w).
Proof.
  intros C. rewrite field_told by (vm_compute; reflexivity).
  assert (F : forall e, In e cci_bits <-> e = group 1 8 5 Format "iad_format_code" SevNormal "IAD Format Code: " \/ e = group 1 4 1 Version "cryptogram_version" SevNormal "Cryptogram Version: ") by (intros e; unfold cci_bits; cbn [In]; intuition congruence).
  split.
  - intros (e & I & E). apply F in I. destruct C as [->| ->], I as [->| ->]; vm_compute in E; injection E as <-.
    + apply say_format.
    + now apply say_triple_des.
    + apply say_format.
    + now apply say_aes.
  - intros [| ->| ->].
    + eexists. split; [apply F; now left|]. destruct C as [->| ->]; vm_compute; reflexivity.
    + eexists. split; [apply F; now right|]. vm_compute. reflexivity.
    + eexists. split; [apply F; now right|]. vm_compute. reflexivity.
Qed.
Lemma one_chunk i d k : len d = k -> 0 < k <= 16 -> hex_dump i d = [bytes_row i d].
Proof.
  intros L K. unfold hex_dump, bytes_row. assert (C : chunks 16 d = [d]).
  { assert (N : (List.length d <= 16)%nat) by (unfold len in L; lia). destruct d as [|x d]; [unfold len in L; cbn in L; lia|]. unfold chunks. change (List.length (x :: d)) with (Datatypes.S (List.length d)). cbn [chunks_fuel].
    rewrite firstn_all2, skipn_all2 by exact N. now destruct (List.length d). }
  rewrite C. reflexivity.
Qed.
Lemma split_at {A} n (l x : list A) : List.length l = n -> firstn n (l ++ x) = l /\ skipn n (l ++ x) = x.
Proof. intros <-. rewrite firstn_app, skipn_app, Nat.sub_diag, firstn_all, skipn_all, app_nil_r. auto. Qed.
Lemma issuer_shape cci dki cvr counters rest : ccd_parts cci cvr counters rest ->
  exists q, iad_picture (issuer_data cci dki cvr counters rest) = Some q /\ forall i show, q i show
    = issuer_lines i dki (diagram 1 [cci] (all_shown 1 cci_bits [cci]) (i + 1) show) (diagram 5 (keep_bits cvr cvr_used) (all_shown 5 cvr_bits cvr) (i + 1) show) counters rest.
Proof.
  intros (C & L1 & L2 & L3). unfold iad_picture. set (d := issuer_data cci dki cvr counters rest).
  assert (N5 : List.length cvr = 5%nat) by (unfold len in L1; lia). assert (N8 : List.length counters = 8%nat) by (unfold len in L2; lia).
  assert (E0 : nth 0 d 0 = 0x0F) by reflexivity. assert (E1 : nth 1 d 0 = cci) by reflexivity. assert (E2 : nth 2 d 0 = dki) by reflexivity.
  assert (E16 : nth 16 d 0 = 0x0F).
  { unfold d, issuer_data. change (nth 16 (0x0F :: cci :: dki :: ?x) 0) with (nth 13 x 0). rewrite app_nth2 by lia. rewrite N5. rewrite app_nth2 by lia. rewrite N8. reflexivity. }
  assert (Ld : len d = 32) by (unfold d, issuer_data; rewrite !len_cons, !len_app, !len_cons, L1, L2, L3; reflexivity).
  assert (F1 : firstn 5 (skipn 3 d) = cvr) by (change (skipn 3 d) with (cvr ++ counters ++ 0x0F :: rest); now apply split_at).
  assert (S8 : skipn 8 d = counters ++ 0x0F :: rest) by (change (skipn 8 d) with (skipn 5 (cvr ++ counters ++ 0x0F :: rest)); now apply split_at).
  assert (F2 : firstn 8 (skipn 8 d) = counters) by (rewrite S8; now apply split_at).
  assert (F3 : skipn 17 d = rest).
  { change (skipn 17 d) with (skipn 14 (cvr ++ counters ++ 0x0F :: rest)). change (counters ++ 0x0F :: rest) with (counters ++ [0x0F] ++ rest). rewrite !app_assoc. apply split_at. rewrite !app_length, N5, N8. reflexivity. }
  rewrite E0, E1, E2, E16, Ld, F1, F2, F3. assert (G : (cci =? 0xA5) || (cci =? 0xA6) = true) by (destruct C as [->| ->]; reflexivity). rewrite G. cbn [N.eqb Pos.eqb andb].
  eexists. split; [reflexivity|]. intros i show. unfold issuer_lines, issuer_rest, key_line. cbv beta. rewrite (one_chunk _ counters 8 L2) by lia. rewrite (one_chunk _ rest 15 L3) by lia. reflexivity.
Qed.

(** C126: issuer application data. *)
(* The explanations of card verification results are exactly these. *)
Theorem C126_words : forall masks sort s ls w, sheet masks sort OpCvr s ls -> (tells ls w <-> results_say (hex_bytes s) w).
Proof.
  intros masks sort s ls w H. inversion H as [f q J E|n O Dn N|f ns ns' B N A]; subst.
  - apply results_told; [apply hex_bytes_ok|]. unfold byte_operations in J. cbn [In] in J. repeat (destruct J as [J|J]; [try discriminate J|]); [|contradiction]. injection J as <-. exact E.
  - discriminate O.
  - inversion B.
Qed.
(* Any five bytes are card verification results. *)
Theorem C126_results : forall masks sort s, len (hex_bytes s) = 5 -> exists ls, sheet masks sort OpCvr s ls.
Proof.
  intros masks sort s L. eexists. apply (sheet_value _ _ _ _ (bits_picture 5 cvr_bits cvr_used)); [unfold byte_operations; cbn [In]; tauto|]. now apply results_pictured.
Qed.
(* The parts stand below each other; the card verification results are shown as they are by themselves. *)
Definition issuer_shown (i cci dki : N) (cvr counters rest : list N) (ls : list line) : Prop :=
  exists top results, ls = issuer_lines i dki top results counters rest /\ (forall w, tells top w <-> identifier_says cci w) /\ (forall w, tells results w <-> results_say cvr w)
    /\ (forall w, tells ls w <-> identifier_says cci w \/ results_say cvr w)
    /\ forall masks sort s ls', hex_bytes s = cvr -> sheet masks sort OpCvr s ls' -> results = map (moved (i + 1)) ls'.
Lemma issuer_picture cci dki cvr counters rest i q : ccd_parts cci cvr counters rest -> bytes_ok cvr -> iad_picture (issuer_data cci dki cvr counters rest) = Some q -> issuer_shown i cci dki cvr counters rest (q i true).
Proof.
  intros P B Q. destruct (issuer_shape cci dki cvr counters rest P) as (q' & Q' & S). rewrite Q in Q'. injection Q' as <-. rewrite S.
  pose proof (results_pictured cvr (proj1 (proj2 P))) as R. eexists. eexists. split; [reflexivity|].
  assert (A : forall w, tells (diagram 1 [cci] (all_shown 1 cci_bits [cci]) (i + 1) true) w <-> identifier_says cci w) by (intros w; apply identifier_told; apply P).
  assert (D : forall w, tells (diagram 5 (keep_bits cvr cvr_used) (all_shown 5 cvr_bits cvr) (i + 1) true) w <-> results_say cvr w) by (intros w; exact (results_told cvr _ (i + 1) true w B R)).
  split; [exact A|]. split; [exact D|]. split.
  - intros w. rewrite <- A, <- D. unfold issuer_lines, issuer_rest, key_line, bytes_row. rewrite plain_cons by plain. rewrite tells_app. rewrite plain_cons by plain. rewrite plain_cons by plain. rewrite tells_app.
    assert (X : ~ tells [heading_row i (lit "Counters: (Payment System-Specific)"); row (i + 1) [(None, spaced (map byte_text counters))]; heading_row i (lit "Issuer-Discretionary Data"); row (i + 1) [(None, spaced (map byte_text rest))]] w) by (apply plain_all; repeat constructor; plain).
    tauto.
  - intros masks sort s ls' E H. inversion H as [f q' J Eq|n O Dn N|f ns ns' B' N A']; subst.
    + unfold byte_operations in J. cbn [In] in J. repeat (destruct J as [J|J]; [try discriminate J|]); [|contradiction]. injection J as <-. rewrite R in Eq. injection Eq as <-. rewrite <- (diagram_moved 5 _ _ 0 (i + 1) true). now rewrite N.add_0_l.
    + discriminate O.
    + inversion B'.
Qed.
Lemma parts_ok cci dki cvr counters rest : bytes_ok (issuer_data cci dki cvr counters rest) -> bytes_ok cvr.
Proof. unfold bytes_ok, issuer_data. intros B. inversion B as [|? ? _ B1]. inversion B1 as [|? ? _ B2]. inversion B2 as [|? ? _ B3]. apply Forall_app in B3. apply B3. Qed.
Theorem C126_shown : forall masks sort s ls cci dki cvr counters rest, sheet masks sort OpIad s ls -> hex_bytes s = issuer_data cci dki cvr counters rest -> ccd_parts cci cvr counters rest ->
  issuer_shown 0 cci dki cvr counters rest ls.
Proof.
  intros masks sort s ls cci dki cvr counters rest H E P. pose proof (hex_bytes_ok s) as B. rewrite E in B. apply parts_ok in B. inversion H as [f q J Q|n O Dn N|f ns ns' B' N A']; subst.
  - unfold byte_operations in J. cbn [In] in J. repeat (destruct J as [J|J]; [try discriminate J|]); [|contradiction]. injection J as <-. rewrite E in Q. now apply issuer_picture.
  - discriminate O.
  - inversion B'.
Qed.
(* The same for the object 9F10 in TLV data. *)
Theorem C126_objects : forall p masks sort op s f ns nd ls cci dki cvr counters rest, text64 p s -> tlv_block masks op s f ns -> occurs nd ns -> sheet masks sort op s ls ->
  rt_tag (node_tag nd) = [0x9F; 0x10] -> rt_data (node_tag nd) = Normal (issuer_data cci dki cvr counters rest) -> ccd_parts cci cvr counters rest -> bytes_ok cvr ->
  exists i before block after, ls = before ++ heading_row i (lit "Parsed:") :: block ++ after /\ issuer_shown (i + 1) cci dki cvr counters rest block.
Proof.
  intros p masks sort op s f ns nd ls cci dki cvr counters rest T B O H Et Ed P Bc. destruct (object_between p masks sort op s f ns nd ls _ T B O H Ed ltac:(discriminate)) as (i & before & after & E).
  destruct (issuer_shape cci dki cvr counters rest P) as (q & Q & _). assert (M : meaning_lines (node_tag nd) i true = heading_row i (lit "Parsed:") :: q (i + 1) true).
  { unfold meaning_lines. rewrite Et, Ed. assert (X : picture_of [0x9F; 0x10] (issuer_data cci dki cvr counters rest) = Some q) by (rewrite <- Q; reflexivity). now rewrite X. }
  rewrite M in E. exists i, (before ++ tag_row i (node_tag nd) (tag_title (node_tag nd)) :: heading_row i (lit "Raw:") :: wide_dump (i + 1) (issuer_data cci dki cvr counters rest)), (q (i + 1) true), after.
  split; [rewrite E; now rewrite <- app_assoc|]. now apply issuer_picture.
Qed.
(* Runs of the program: --ccd-iad, --ccd-cvr and TLV data. *)
Theorem C126_program : forall p e m st s ls cci dki cvr counters rest, shows p e m st OpIad s ls -> hex_bytes s = issuer_data cci dki cvr counters rest -> ccd_parts cci cvr counters rest ->
  displays (run_main p e m) ls /\ issuer_shown 0 cci dki cvr counters rest ls.
Proof.
  intros p e m st s ls cci dki cvr counters rest A E P. split; [now apply (shows_displays p e m st OpIad s)|]. destruct A as (_ & _ & _ & H & _). now apply (C126_shown (set_masking st) (set_sort st) s).
Qed.
Theorem C126_program_words : forall p e m st s, load_settings e m = Ok st -> SpecMain.chosen m OpCvr s -> text64 p s -> len (hex_bytes s) = 5 ->
  exists ls, displays (run_main p e m) ls /\ forall w, tells ls w <-> results_say (hex_bytes s) w.
Proof.
  intros p e m st s L C T N. destruct (C126_results (set_masking st) (set_sort st) s N) as (ls & H). exists ls. split; [|intros w; now apply (C126_words (set_masking st) (set_sort st))].
  apply (C73_shown p e m st OpCvr s ls L C T H). inversion H as [f q J Q|n O Dn N'|f ns ns' B' N' A']; subst; [|discriminate O|inversion B'].
  unfold byte_operations in J. cbn [In] in J. repeat (destruct J as [J|J]; [try discriminate J|]); [|contradiction]. injection J as <-. apply bits_shape in Q. destruct Q as (_ & _ & ->). intros _. rewrite deepest_diagram. lia.
Qed.
Theorem C126_program_objects : forall p e m st op s f ns nd ls cci dki cvr counters rest, shows p e m st op s ls -> tlv_block (set_masking st) op s f ns -> occurs nd ns ->
  rt_tag (node_tag nd) = [0x9F; 0x10] -> rt_data (node_tag nd) = Normal (issuer_data cci dki cvr counters rest) -> ccd_parts cci cvr counters rest -> bytes_ok cvr ->
  displays (run_main p e m) ls /\ exists i before block after, ls = before ++ heading_row i (lit "Parsed:") :: block ++ after /\ issuer_shown (i + 1) cci dki cvr counters rest block.
Proof.
  intros p e m st op s f ns nd ls cci dki cvr counters rest A B O Et Ed P Bc. split; [now apply (shows_displays p e m st op s)|]. destruct A as (_ & _ & T & H & _). now apply (C126_objects p (set_masking st) (set_sort st) op s f ns nd).
Qed.
(* The last byte of the results has no meaning: it changes nothing. *)
Theorem C126_reserved : forall masks masks' sort sort' s s' ls ls', sheet masks sort OpCvr s ls -> sheet masks' sort' OpCvr s' ls' -> firstn 4 (hex_bytes s) = firstn 4 (hex_bytes s') -> ls = ls'.
Proof.
  assert (One : forall masks sort s ls, sheet masks sort OpCvr s ls -> len (hex_bytes s) = 5 /\ ls = diagram 5 (keep_bits (hex_bytes s) cvr_used) (all_shown 5 cvr_bits (hex_bytes s)) 0 true).
  { intros masks sort s ls H. inversion H as [f q J Q|n O Dn N'|f ns ns' B' N' A']; subst; [|discriminate O|inversion B'].
    unfold byte_operations in J. cbn [In] in J. repeat (destruct J as [J|J]; [try discriminate J|]); [|contradiction]. injection J as <-. apply bits_shape in Q. destruct Q as (L & _ & ->). auto. }
  intros masks masks' sort sort' s s' ls ls' H H' E. apply One in H, H'. destruct H as (L & ->), H' as (L' & ->). revert E L L'. generalize (hex_bytes s) as d, (hex_bytes s') as d'. intros d d' E L L'.
  assert (X : forall k, (k < 4)%nat -> nth k d 0 = nth k d' 0).
  { intros k K. rewrite <- (firstn_skipn 4 d), <- (firstn_skipn 4 d'), E. unfold len in L'. rewrite !app_nth1 by (rewrite firstn_length; lia). reflexivity. }
  assert (A : all_shown 5 cvr_bits d = all_shown 5 cvr_bits d').
  { assert (S : forallb (fun e => (1 <=? e_byte e) && (e_byte e <=? 4)) cvr_bits = true) by (vm_compute; reflexivity). rewrite forallb_forall in S. unfold all_shown. rewrite !flat_map_concat_map. apply f_equal. apply map_ext_in. intros e I. specialize (S e I).
    assert (F : field_bits e d = field_bits e d') by (unfold field_bits; rewrite X by lia; reflexivity). unfold field_shown. now rewrite F. }
  assert (K : keep_bits d cvr_used = keep_bits d' cvr_used).
  { unfold len in L, L'. unfold cvr_used. destruct d as [|a [|b [|c [|x [|y [|z d]]]]]]; cbn [List.length] in L; try lia. destruct d' as [|a' [|b' [|c' [|x' [|y' [|z' d']]]]]]; cbn [List.length] in L'; try lia.
    cbn [firstn] in E. injection E as <- <- <- <-. cbn [keep_bits]. now rewrite !N.land_0_r. }
  now rewrite A, K.
Qed.

(* Issuer application data with an ARQC, a PIN try count of 3 and one script command, and its card verification results. *)
Definition sample_issuer : str := lit "0FA501A23030100000000000000000000F010000000000000000000000000000".
Definition with_iad (s : str) : matches :=
  mkMatches None (Some s) None None None None None None None None None (Some (lit "auto", SrcDefault)) (Some ([42], SrcDefault)) (Some (true, SrcDefault)) (Some (false, SrcDefault)).
Example C126_example : exists ls, shows p64r plain_env (with_iad sample_issuer) (mkSettings TAuto [42] true) OpIad sample_issuer ls
  /\ hex_bytes sample_issuer = issuer_data 0xA5 1 [0xA2; 0x30; 0x30; 0x10; 0] (repeat 0 8) (1 :: repeat 0 14) /\ ccd_parts 0xA5 [0xA2; 0x30; 0x30; 0x10; 0] (repeat 0 8) (1 :: repeat 0 14)
  /\ results_say [0xA2; 0x30; 0x30; 0x10; 0] (lit "PIN try count: 3") /\ results_say [0xA2; 0x30; 0x30; 0x10; 0] (lit "Application cryptogram type returned in 1st GENERATE AC: ARQC (Authorization Request Cryptogram)").
Proof.
  assert (E : hex_bytes sample_issuer = issuer_data 0xA5 1 [0xA2; 0x30; 0x30; 0x10; 0] (repeat 0 8) (1 :: repeat 0 14)) by (vm_compute; reflexivity).
  assert (P : ccd_parts 0xA5 [0xA2; 0x30; 0x30; 0x10; 0] (repeat 0 8) (1 :: repeat 0 14)) by (split; [now left|repeat split; reflexivity]).
  destruct (issuer_shape 0xA5 1 [0xA2; 0x30; 0x30; 0x10; 0] (repeat 0 8) (1 :: repeat 0 14) P) as (q & Q & _). exists (q 0 true). split.
  - split; [now apply plain_settings|]. split; [|split; [split; vm_compute; reflexivity|split; [|intros K; discriminate K]]].
    + split; [reflexivity|]. exists [OpTvr], [OpCvr; OpTsi; OpCvmResults; OpCvmList; OpIdentify; OpAuto; OpBer; OpIngenico; OpServiceCode]. split; [reflexivity|]. repeat constructor.
    + apply (sheet_value _ _ _ _ iad_picture); [unfold byte_operations; cbn [In]; tauto|]. now rewrite E.
  - split; [exact E|]. split; [exact P|]. split.
    + apply (say_count [0xA2; 0x30; 0x30; 0x10; 0] 1%nat "PIN try count: "%string). unfold results_counts. cbn [In]. tauto.
    + apply (say_first [0xA2; 0x30; 0x30; 0x10; 0] "ARQC (Authorization Request Cryptogram)"%string). vm_compute. reflexivity.
Qed.
(* Issuer application data as an object in TLV data, and two results that differ in the last byte. *)
Example C126_objects_example : exists ls, shows p64r plain_env (with_ber (lit "9F1020" ++ sample_issuer)) (mkSettings TAuto [42] true) OpBer (lit "9F1020" ++ sample_issuer) ls
  /\ exists ns nd, tlv_block [42] OpBer (lit "9F1020" ++ sample_issuer) None ns /\ occurs nd ns /\ rt_tag (node_tag nd) = [0x9F; 0x10] /\ rt_data (node_tag nd) = Normal (issuer_data 0xA5 1 [0xA2; 0x30; 0x30; 0x10; 0] (repeat 0 8) (1 :: repeat 0 14)).
Proof.
  destruct (shown_ber (lit "9F1020" ++ sample_issuer)) as (ls & S); [split; vm_compute; reflexivity|vm_compute; reflexivity|]. exists ls. split; [exact S|].
  eexists. eexists. split; [constructor; apply (ber_block_iff p64r); [split; vm_compute; reflexivity|vm_compute; reflexivity]|]. split; [apply occurs_here; now left|]. split; reflexivity.
Qed.
Example C126_reserved_example : exists ls ls', sheet [] true OpCvr (lit "A230301000") ls /\ sheet [] false OpCvr (lit "A2303010FF") ls' /\ firstn 4 (hex_bytes (lit "A230301000")) = firstn 4 (hex_bytes (lit "A2303010FF")) /\ hex_bytes (lit "A230301000") <> hex_bytes (lit "A2303010FF").
Proof.
  destruct (C126_results [] true (lit "A230301000") eq_refl) as (ls & H), (C126_results [] false (lit "A2303010FF") eq_refl) as (ls' & H'). exists ls, ls'. repeat (split; [assumption|]). split; [reflexivity|discriminate].
Qed.
