(** The property of data reported as reserved for use. *)

From Coq Require Import ZArith NArith Ascii String List Bool Lia ZifyN ZifyBool ZifyNat Permutation Sorting.
From Verif Require Import Base ModelUtil ModelEnums ModelBitflag ModelSchemas ModelTags ModelTlv ModelValues ModelProcess ModelDisplay
  SpecUtil SpecCodes SpecValues SpecTlv SpecIngenico SpecTags SpecProcess SpecDisplay
  ProofsUtil ProofsGrammar ProofsBer ProofsIngenico ProofsValues PropertiesValues
  PropertiesBer PropertiesIngenico ProofsProcess PropertiesProcess ProofsDisplay ProofsDiagram ProofsScreens ProofsLayout PropertiesDisplay
  SpecPictures ProofsPictures ModelMain SpecMain ProofsMain PropertiesMain ModelCli SpecCli ProofsCli PropertiesCli PropertiesPictures
  SpecReading PropertiesReading ModelTerminal SpecTerminal ProofsTerminal PropertiesTerminal SpecTells ProofsTells PropertiesTells PropertiesScope PropertiesColumns SpecAlarms PropertiesAlarms
  PropertiesCut SpecReserved.
Import ListNotations.
Local Open Scope N_scope.

(** ** The word *)

Fixpoint rfu (s : str) : bool :=
  match s with [] => false | _ :: t => same_bytes (firstn 3 s) (lit "RFU") || rfu t end.
Lemma same_bytes_iff a : forall b, same_bytes a b = true <-> a = b.
Proof.
  induction a as [|x a IH]; intros [|y b]; cbn [same_bytes]; try (split; [discriminate|discriminate]); [tauto|].
  rewrite andb_true_iff, N.eqb_eq, IH. split; [intros [-> ->]; reflexivity|]. intros E. injection E as -> ->. auto.
Qed.
Lemma rfu_iff s : rfu s = true <-> mentions (lit "RFU") s.
Proof.
  unfold mentions. induction s as [|c t IH].
  - split; [discriminate|]. intros (a & b & E). destruct a; discriminate E.
  - cbn [rfu]. rewrite orb_true_iff, same_bytes_iff, IH. split.
    + intros [E|(a & b & ->)].
      * exists [], (skipn 3 (c :: t)). cbn [app]. change (c :: t = lit "RFU" ++ skipn 3 (c :: t)). rewrite <- E. now rewrite firstn_skipn.
      * exists (c :: a), b. reflexivity.
    + intros ([|x a] & b & E).
      * left. rewrite E. reflexivity.
      * right. injection E as -> E. exists a, b. exact E.
Qed.
Lemma no_rfu s : rfu s = false -> ~ mentions (lit "RFU") s.
Proof. intros H K. apply rfu_iff in K. congruence. Qed.
Definition apart (c : N) : bool := negb (c =? 82) && negb (c =? 70) && negb (c =? 85).
Lemma rfu_split a c b : apart c = true -> rfu (a ++ c :: b) = rfu a || rfu b.
Proof.
  intros A. unfold apart in A. induction a as [|x a IH].
  - cbn [app rfu]. replace (same_bytes (firstn 3 (c :: b)) (lit "RFU")) with false; [reflexivity|]. symmetry. cbn [firstn]. change (lit "RFU") with [82; 70; 85]. cbn [same_bytes]. lia.
  - cbn [app rfu]. rewrite IH, orb_assoc. f_equal. f_equal. change (lit "RFU") with [82; 70; 85].
    destruct a as [|y [|z a]]; cbn [app firstn same_bytes]; [lia|destruct b; cbn [firstn same_bytes]; lia|reflexivity].
Qed.
Lemma rfu_cons c b : apart c = true -> rfu (c :: b) = rfu b.
Proof. exact (rfu_split [] c b). Qed.
Definition low (s : str) : bool := forallb (fun c => negb (c =? 85)) s.
Lemma low_rfu s : low s = true -> rfu s = false.
Proof.
  unfold low. induction s as [|c t IH]; [reflexivity|]. cbn [forallb]. rewrite andb_true_iff. intros [C L]. cbn [rfu]. rewrite (IH L), orb_false_r.
  change (lit "RFU") with [82; 70; 85]. destruct t as [|y [|z t]]; cbn [firstn same_bytes]; [lia|lia|]. cbn [forallb] in L. lia.
Qed.
Lemma low_app a b : low (a ++ b) = low a && low b.
Proof. apply forallb_app. Qed.
Lemma low_repeat c n : c <> 85 -> low (repeat c n) = true.
Proof. intros C. induction n as [|n IH]; [reflexivity|]. cbn [repeat]. unfold low in *. cbn [forallb]. rewrite IH. lia. Qed.
Lemma low_dec n : low (dec n) = true.
Proof. destruct (dec_spec n) as [F _]. unfold low. apply forallb_forall. rewrite Forall_forall in F. intros c I. specialize (F c I). unfold is_dec_digit in F. lia. Qed.

(** ** Lines without arms *)

Definition boxless (s : str) : Prop := Forall (fun c => c < 0x2500) s.
Lemma boxless_lit s : boxless (lit s).
Proof.
  unfold boxless, lit. apply Forall_map, Forall_forall. intros c _. pose proof (N_ascii_bounded c). lia.
Qed.
Lemma boxless_app a b : boxless a -> boxless b -> boxless (a ++ b).
Proof. intros A B. apply Forall_app. auto. Qed.
Lemma boxless_cons c a : c < 0x2500 -> boxless a -> boxless (c :: a).
Proof. now constructor. Qed.
Lemma boxless_repeat c n : c < 0x2500 -> boxless (repeat c n).
Proof. intros H. apply Forall_forall. intros x I. apply repeat_spec in I. now subst. Qed.
Lemma boxless_dec n : boxless (dec n).
Proof. destruct (dec_spec n) as [F _]. eapply Forall_impl; [|exact F]. unfold is_dec_digit. intros; cbn beta in *; lia. Qed.
Lemma boxless_hex v : hex_char v < 0x2500.
Proof.
  unfold hex_char. destruct (nth_in_or_default (N.to_nat v) digit_chars 0) as [I| ->]; [|reflexivity].
  assert (X : forallb (fun c => c <? 0x2500) digit_chars = true) by reflexivity. rewrite forallb_forall in X. apply X in I. lia.
Qed.
Lemma boxless_bytes l : boxless (flat_map byte_text l).
Proof. induction l as [|b l IH]; [constructor|]. cbn [flat_map byte_text app]. repeat apply boxless_cons; try apply boxless_hex. exact IH. Qed.
Lemma boxless_byte b : boxless (byte_text b).
Proof. pose proof (boxless_bytes [b]) as H. exact H. Qed.
Lemma boxless_spaced l : boxless (spaced (map byte_text l)).
Proof.
  induction l as [|b l IH]; [constructor|]. cbn [map]. destruct l as [|b' l]; [apply boxless_byte|]. cbn [map spaced] in *.
  apply boxless_app; [apply boxless_byte|]. apply boxless_cons; [reflexivity|exact IH].
Qed.
Lemma boxless_padded w n : boxless (padded w n).
Proof. apply boxless_app; [now apply boxless_repeat|apply boxless_dec]. Qed.
Lemma boxless_readable l : boxless (map readable l).
Proof. unfold boxless. apply Forall_map, Forall_forall. intros c _. unfold readable. destruct ((32 <=? c) && (c <=? 126)) eqn:E; lia. Qed.
Definition plain_line (l : line) : Prop := Forall (fun sp => boxless (snd sp)) (l_spans l).
Lemma plain_quiet l : plain_line l -> ~ explains l.
Proof.
  intros P (c & I & H). unfold line_text in I. apply in_app_iff in I. destruct I as [I|I]; [apply repeat_spec in I; lia|].
  apply in_flat_map in I. destruct I as (sp & Hs & I). unfold plain_line in P. rewrite Forall_forall in P. specialize (P sp Hs). unfold boxless in P. rewrite Forall_forall in P. specialize (P c I). lia.
Qed.
Lemma plain_none ls : Forall plain_line ls -> ~ reports_rfu ls.
Proof. intros F (l & I & E & _). rewrite Forall_forall in F. exact (plain_quiet l (F l I) E). Qed.
Lemma reports_cons l ls : reports_rfu (l :: ls) <-> (explains l /\ mentions (lit "RFU") (line_text l)) \/ reports_rfu ls.
Proof.
  unfold reports_rfu. split.
  - intros (x & [<-|I] & H); [now left|right; eauto].
  - intros [H|(x & I & H)]; [exists l|exists x]; (split; [cbn [In]; auto|exact H]).
Qed.
Lemma reports_app a b : reports_rfu (a ++ b) <-> reports_rfu a \/ reports_rfu b.
Proof.
  unfold reports_rfu. split.
  - intros (x & I & H). apply in_app_iff in I. destruct I; [left|right]; eauto.
  - intros [(x & I & H)|(x & I & H)]; exists x; (split; [apply in_app_iff; auto|exact H]).
Qed.
Lemma reports_nil : ~ reports_rfu [].
Proof. intros (l & [] & _). Qed.
Ltac plain := repeat first
  [ apply Forall_nil | apply boxless_lit | apply boxless_dec | apply boxless_padded | apply boxless_byte | apply boxless_bytes | apply boxless_spaced | apply boxless_readable
  | apply boxless_repeat; reflexivity | assumption | apply boxless_app | apply boxless_cons; [reflexivity|] | apply Forall_cons
  | progress unfold plain_line, titled, row, heading_row, bold_row, tag_row; cbn [l_spans snd] ].
Lemma plain_rows {A} (f : A -> line) l : (forall x, plain_line (f x)) -> Forall plain_line (map f l).
Proof. intros H. apply Forall_map. apply Forall_forall. auto. Qed.
Lemma plain_hex_dump i l : Forall plain_line (hex_dump i l).
Proof. unfold hex_dump. apply plain_rows. intros x. plain. Qed.
Lemma plain_wide_dump i l : Forall plain_line (wide_dump i l).
Proof. unfold wide_dump. apply plain_rows. intros x. unfold pad_right. plain. Qed.

(** ** Diagrams *)

Lemma low_draw n k f : (forall o, f o <> 85) -> low (draw n k f) = true.
Proof. intros H. unfold low, draw. apply forallb_forall. intros c I. apply in_map_iff in I. destruct I as (x & <- & _). cbv zeta. destruct (_ =? 8); [reflexivity|]. specialize (H (8 * n - 1 - (N.of_nat x - N.of_nat x / 9))). lia. Qed.
Lemma row_low i s : low s = true -> ~ mentions (lit "RFU") (line_text (row i [(None, s)])).
Proof. intros L. apply no_rfu, low_rfu. unfold line_text, row. cbn [l_tabs l_spans flat_map snd]. rewrite low_app, low_repeat, app_nil_r by discriminate. exact L. Qed.
Definition elbow_row n rs r i show : line :=
  mkLine i [(None, draw n (8 * n - r_offset r) (elbow_char rs r) ++ [32]); (severity_style show (r_sev r), r_text r)] (severity_style show (r_sev r)).
Lemma elbow_text n rs r i show : rfu (line_text (elbow_row n rs r i show)) = rfu (r_text r).
Proof.
  unfold line_text, elbow_row. cbn [l_tabs l_spans flat_map snd]. rewrite app_nil_r, <- app_assoc. cbn [app]. rewrite app_assoc, rfu_split by reflexivity.
  rewrite low_rfu; [reflexivity|]. rewrite low_app, low_repeat by discriminate. apply low_draw. intros o. unfold elbow_char. destruct (_ =? _); [discriminate|]. destruct (existsb _ _); discriminate.
Qed.
Lemma diagram_reports n raw rs i show : reports_rfu (diagram n raw rs i show) -> exists r, In r rs /\ rfu (r_text r) = true.
Proof.
  unfold diagram. intros H. apply reports_cons in H. destruct H as [[_ H]|H].
  { exfalso. revert H. apply no_rfu, low_rfu. unfold line_text, bold_row. cbn [l_tabs l_spans flat_map snd]. rewrite low_app, low_repeat, app_nil_r by discriminate. apply low_draw. intros o. unfold bit_char. destruct (N.testbit _ _); discriminate. }
  apply reports_app in H. destruct H as [H|H].
  { exfalso. destruct (existsb _ rs); [|now apply reports_nil in H]. apply reports_cons in H. destruct H as [[_ H]|H]; [|now apply reports_nil in H]. revert H. apply row_low, low_draw.
    intros o. unfold arm_char. destruct (find _ _) as [r|]; [|discriminate]. destruct (_ =? 1); [discriminate|]. destruct (_ =? _); [discriminate|]. destruct (_ =? _); discriminate. }
  destruct H as (l & I & _ & M). apply in_map_iff in I. destruct I as (r & <- & I). exists r. split; [now apply in_rev|]. apply rfu_iff in M. now rewrite <- (elbow_text n rs r i show).
Qed.
Lemma diagram_told n raw rs i show r : In r rs -> rfu (r_text r) = true -> In 0x2514 (draw n (8 * n - r_offset r) (elbow_char rs r)) -> reports_rfu (diagram n raw rs i show).
Proof.
  intros I R D. exists (elbow_row n rs r i show). split; [|split].
  - unfold diagram. right. apply in_app_iff. right. apply in_map_iff. exists r. split; [reflexivity|]. now apply -> in_rev.
  - exists 0x2514. split; [|lia]. unfold line_text, elbow_row. cbn [l_tabs l_spans flat_map snd]. apply in_app_iff. right. apply in_app_iff. left. apply in_app_iff. now left.
  - apply rfu_iff. now rewrite elbow_text.
Qed.

(** ** Bit fields *)

Definition kind_texts (k : kind) : option (list string) :=
  match k with
  | Flag | Number => None
  | GenAc1 => Some (map snd gen_ac1_codes)
  | GenAc2 => Some (map snd gen_ac2_codes)
  | Format => Some (map snd format_code_codes)
  | Version => Some (map snd cryptogram_version_codes)
  | Method => Some ("Unknown (likely issuer or payment system-specific)"%string :: map snd cv_method_codes)
  | Condition => Some ("Unknown (likely payment system-specific)"%string :: map snd cvm_condition_codes)
  end.
Definition hushed (t : list bit_field) : bool :=
  forallb (fun e => negb (rfu (lit (e_label e)))
                    && match kind_texts (e_kind e) with Some l => forallb (fun s => negb (rfu (lit (e_label e) ++ lit s))) l | None => low (lit (e_label e)) || match e_kind e with Flag => true | _ => false end end) t.
Lemma find_code_in {A} (table : list (N * A * string)) c a s : find_code table c = Some (a, s) -> In (c, a, s) table.
Proof.
  induction table as [|[[c' a'] s'] table IH]; [discriminate|]. cbn [find_code]. destruct (N.eqb_spec c' c) as [->|]; [intros H; injection H as <- <-; now left|]. intros H. right. auto.
Qed.
Definition table_texts {A} (table : list (N * A * string)) : list string := map snd table.
Lemma find_code_text {A} (table : list (N * A * string)) c a s : find_code table c = Some (a, s) -> In s (map snd table).
Proof. intros H. apply find_code_in in H. now apply (in_map snd) in H. Qed.
Lemma decode_text k l c v s : kind_texts k = Some l -> decode k c = Some (v, s) -> exists x, In x l /\ s = lit x.
Proof.
  destruct k; cbn [kind_texts decode]; intros K; try discriminate K; injection K as <-; unfold coded, optional.
  all: match goal with |- context [find_code ?t ?c] => destruct (find_code t c) as [[a x]|] eqn:F end; intros H; try discriminate H; injection H as <- <-.
  all: try (apply find_code_text in F; eexists; split; [first [exact F|right; exact F]|reflexivity]).
  all: eexists; split; [left; reflexivity|reflexivity].
Qed.
Lemma shown_hush t : hushed t = true -> forall w d r, In r (all_shown w t d) -> rfu (r_text r) = false.
Proof.
  unfold hushed. intros Q w d r I. rewrite forallb_forall in Q. unfold all_shown in I. apply in_flat_map in I. destruct I as (e & He & I). specialize (Q e He). apply andb_prop in Q. destruct Q as [Q1 Q2]. apply negb_true_iff in Q1.
  unfold field_shown in I. destruct (kind_texts (e_kind e)) as [l|] eqn:K.
  - assert (G : exists v s, decode (e_kind e) (field_bits e d) = Some (v, s) /\ r_text r = lit (e_label e) ++ s).
    { destruct (e_kind e); try discriminate K; (destruct (decode _ (field_bits e d)) as [[v s]|] eqn:D; [|destruct I]; destruct I as [<-|[]]; exists v, s; auto). }
    destruct G as (v & s & D & ->). destruct (decode_text _ _ _ _ _ K D) as (x & Hx & ->). rewrite forallb_forall in Q2. specialize (Q2 x Hx). now apply negb_true_iff in Q2.
  - destruct (e_kind e) eqn:Ke; try discriminate K.
    + destruct (field_bits e d =? 1); [|destruct I]. destruct I as [<-|[]]. exact Q1.
    + cbn [decode] in I. destruct I as [<-|[]]. cbn [r_text]. rewrite orb_false_r in Q2. apply low_rfu. now rewrite low_app, Q2, low_dec.
Qed.
Lemma hush_diagram t : hushed t = true -> forall w n raw d i show, ~ reports_rfu (diagram n raw (all_shown w t d) i show).
Proof. intros Q w n raw d i show H. apply diagram_reports in H. destruct H as (r & I & R). rewrite (shown_hush t Q w d r I) in R. discriminate R. Qed.
(* Card verification results. *)
Definition cvr_first : list bit_field := firstn 2 cvr_bits.
Definition cvr_rest : list bit_field := skipn 2 cvr_bits.
Definition ac2 (d : list N) : list bit_range := field_shown 5 (group 1 8 7 GenAc2 "gen_ac_2_application_cryptogram_type" SevNormal "Application cryptogram type returned in 2nd GENERATE AC: ") d.
Definition ac1 (d : list N) : list bit_range := field_shown 5 (group 1 6 5 GenAc1 "gen_ac_1_application_cryptogram_type" SevNormal "Application cryptogram type returned in 1st GENERATE AC: ") d.
Lemma cvr_split d : all_shown 5 cvr_bits d = ac2 d ++ ac1 d ++ all_shown 5 cvr_rest d.
Proof. reflexivity. Qed.
Lemma four n : n < 4 -> n = 0 \/ n = 1 \/ n = 2 \/ n = 3.
Proof. lia. Qed.
Lemma cvr_codes d : nth 0 d 0 < 256 ->
  (exists r, ac2 d = [r] /\ r_offset r = 39 /\ rfu (r_text r) = (nth 0 d 0 / 64 =? 3)) /\ exists r, ac1 d = [r] /\ r_offset r = 37 /\ rfu (r_text r) = (nth 0 d 0 / 16 mod 4 =? 3).
Proof.
  intros B. unfold ac1, ac2, field_shown, group, field_bits, bits_of. cbn [e_kind e_byte e_hi e_lo e_label e_sev]. change (N.to_nat (1 - 1)) with 0%nat. change (2 ^ (8 - 7 + 1)) with 4. change (2 ^ (6 - 5 + 1)) with 4. change (2 ^ (7 - 1)) with 64. change (2 ^ (5 - 1)) with 16.
  rewrite (N.mod_small (nth 0 d 0 / 64) 4) by (apply N.div_lt_upper_bound; lia).
  assert (H1 : nth 0 d 0 / 64 < 4) by (apply N.div_lt_upper_bound; lia). assert (H2 : nth 0 d 0 / 16 mod 4 < 4) by (apply N.mod_lt; discriminate).
  revert H1 H2. generalize (nth 0 d 0 / 64), (nth 0 d 0 / 16 mod 4). intros u v H1 H2. split.
  - destruct (four u H1) as [-> | [-> | [-> | ->]]]; (eexists; split; [cbn [decode]; unfold coded; cbn [find_code gen_ac2_codes N.eqb Pos.eqb]; reflexivity|split; [reflexivity|vm_compute; reflexivity]]).
  - destruct (four v H2) as [-> | [-> | [-> | ->]]]; (eexists; split; [cbn [decode]; unfold coded; cbn [find_code gen_ac1_codes N.eqb Pos.eqb]; reflexivity|split; [reflexivity|vm_compute; reflexivity]]).
Qed.
Lemma elbow_here rs r : elbow_char rs r (r_offset r) = 0x2514.
Proof. unfold elbow_char. now rewrite N.eqb_refl. Qed.
Lemma cvr_reports raw d i show : nth 0 d 0 < 256 -> (reports_rfu (diagram 5 raw (all_shown 5 cvr_bits d) i show) <-> reserved_cvr d).
Proof.
  intros B. destruct (cvr_codes d B) as [(r2 & E2 & O2 & R2) (r1 & E1 & O1 & R1)]. unfold reserved_cvr. split.
  - intros H. apply diagram_reports in H. destruct H as (r & I & R). rewrite cvr_split, E1, E2 in I. cbn [app In] in I. destruct I as [<-|[<-|I]].
    + left. rewrite R2 in R. now apply N.eqb_eq in R.
    + right. rewrite R1 in R. now apply N.eqb_eq in R.
    + exfalso. assert (Q : hushed cvr_rest = true) by (vm_compute; reflexivity). rewrite (shown_hush _ Q _ _ _ I) in R. discriminate R.
  - intros [H|H].
    + apply diagram_told with r2; [rewrite cvr_split, E2; apply in_app_iff; left; now left|rewrite R2, H; reflexivity|]. rewrite O2. unfold draw. change (N.to_nat (8 * 5 - 39 + (8 * 5 - 39 - 1) / 8)) with 1%nat. cbn [seq map]. left. change (elbow_char (all_shown 5 cvr_bits d) r2 39 = 0x2514). rewrite <- O2. apply elbow_here.
    + apply diagram_told with r1; [rewrite cvr_split, E1; apply in_app_iff; right; apply in_app_iff; left; now left|rewrite R1, H; reflexivity|]. rewrite O1. unfold draw. change (N.to_nat (8 * 5 - 37 + (8 * 5 - 37 - 1) / 8)) with 3%nat. cbn [seq map]. right. right. left.
      change (elbow_char (all_shown 5 cvr_bits d) r1 37 = 0x2514). rewrite <- O1. apply elbow_here.
Qed.

(** ** Values *)

Lemma quiet_cons l ls : plain_line l -> (reports_rfu (l :: ls) <-> reports_rfu ls).
Proof. intros P. rewrite reports_cons. split; [intros [[H _]|H]; [now apply plain_quiet in H|assumption]|auto]. Qed.
Lemma quiet_app a b : ~ reports_rfu a -> (reports_rfu (a ++ b) <-> reports_rfu b).
Proof. intros P. rewrite reports_app. tauto. Qed.
Lemma bits_hush n t used d q i show : hushed t = true -> bits_picture n t used d = Some q -> ~ reports_rfu (q i show).
Proof. unfold bits_picture. intros Q H. destruct (_ && _); [|discriminate]. assert (E : q = diagram n (keep_bits d used) (all_shown n t d)) by congruence. rewrite E. now apply hush_diagram. Qed.
Lemma tvr_hush : hushed tvr_bits = true.
Proof. vm_compute. reflexivity. Qed.
Lemma action_hush sentence d q i show : action_picture sentence d = Some q -> ~ reports_rfu (q i show).
Proof.
  unfold action_picture. destruct (bits_picture 5 tvr_bits tvr_used d) as [r|] eqn:E; [|discriminate]. cbn [option_map]. intros H.
  assert (Q : q = fun i _ => heading_row i (lit sentence) :: r i false) by congruence. rewrite Q, quiet_cons by plain. exact (bits_hush _ _ _ _ _ _ _ tvr_hush E).
Qed.
Lemma code_hush {A} (table : list (N * A * string)) d q i show : code_picture table d = Some q -> ~ reports_rfu (q i show).
Proof. unfold code_picture. destruct d as [|b [|]]; try discriminate. destruct (find_code table b) as [[a s]|]; [|discriminate]. cbn [option_map]. intros H. injection H as <-. apply plain_none. plain. Qed.
Lemma response_hush d q i show : response_picture d = Some q -> ~ reports_rfu (q i show).
Proof. unfold response_picture. destruct (find _ arc_codes) as [r|]; [|discriminate]. cbn [option_map]. intros H. match type of H with Some ?x = _ => assert (Q : q = x) by congruence end. rewrite Q. apply plain_none. plain. Qed.
Lemma boxless_code k b hi lo : boxless (code_text k b hi lo).
Proof.
  unfold code_text. generalize (bits_of b hi lo). intros c. destruct k; cbn [decode]; unfold coded, optional; try (match goal with |- context [find_code ?t c] => destruct (find_code t c) as [[a x]|] end); try apply boxless_lit; try apply boxless_dec; constructor.
Qed.
Lemma cvm_list_hush d q i show : cvm_list_picture d = Some q -> ~ reports_rfu (q i show).
Proof.
  unfold cvm_list_picture. destruct (_ && _); [|discriminate]. cbv zeta. intros H. match type of H with Some ?x = _ => assert (Q : q = x) by congruence end. rewrite Q. clear Q H.
  apply plain_none. apply Forall_app. split.
  - match goal with |- context [if ?b then _ else _] => destruct b end; [constructor|]. unfold amounts_picture. cbv zeta. plain.
  - constructor; [plain|]. generalize (skipn 8 d), 1. clear. intros d. induction d as [d IH] using length_ind. intros k. destruct d as [|a [|b d]]; cbn [rules_picture]; [constructor|constructor|].
    pose proof (boxless_code Method a 6 1). pose proof (boxless_code Condition b 8 1).
    do 3 (constructor; [plain|]). constructor; [destruct (bits_of a 7 7 =? 1); plain|]. apply IH. cbn [List.length]. lia.
Qed.
Lemma cvm_results_hush d q i show : cvm_results_picture d = Some q -> ~ reports_rfu (q i show).
Proof.
  unfold cvm_results_picture. destruct d as [|a [|b [|x [|]]]]; try discriminate. destruct (find_code cvm_result_codes x) as [[r s]|] eqn:F; [|discriminate]. cbn [option_map]. intros H.
  match type of H with Some ?x = _ => assert (E : q = x) by congruence end. rewrite E. clear E H. intros H. apply diagram_reports in H. destruct H as (y & I & R). apply in_app_iff in I. destruct I as [I|[<-|[]]].
  - apply in_map_iff in I. destruct I as (z & <- & I). cbn [r_text] in R. assert (Q : hushed cv_rule_bits = true) by (vm_compute; reflexivity). rewrite (shown_hush _ Q _ _ _ I) in R. discriminate R.
  - cbn [r_text snd] in R. apply find_code_text in F. assert (Q : forallb (fun s => negb (rfu (lit "Result: " ++ lit s))) (map snd cvm_result_codes) = true) by (vm_compute; reflexivity). rewrite forallb_forall in Q. specialize (Q s F). rewrite R in Q. discriminate Q.
Qed.
Lemma iad_reports d q i show : bytes_ok d -> iad_picture d = Some q -> (reports_rfu (q i show) <-> reserved_cvr (firstn 5 (skipn 3 d))).
Proof.
  intros B. unfold iad_picture. cbv zeta. destruct (_ && _); [|discriminate]. intros H. match type of H with Some ?x = _ => assert (Q : q = x) by congruence end. rewrite Q. clear Q H.
  rewrite quiet_cons by plain. rewrite quiet_app by (apply hush_diagram; vm_compute; reflexivity). rewrite quiet_cons by plain. rewrite quiet_cons by plain. rewrite reports_app, quiet_cons by plain.
  rewrite quiet_app by (apply plain_none, plain_hex_dump). rewrite quiet_cons by plain.
  assert (Hd : ~ reports_rfu (hex_dump (i + 1) (skipn 17 d))) by (apply plain_none, plain_hex_dump). rewrite cvr_reports; [tauto|]. apply nth_ok.
  assert (Bs := skipn_ok 3 d B). rewrite <- (firstn_skipn 5 (skipn 3 d)) in Bs. now apply bytes_ok_app in Bs.
Qed.
(* Service codes. *)
Definition entry_row i (arms : str) (title : string) (text : str) : line := row i [(None, arms ++ [32]); (bold, lit title); (None, text)].
Lemma entry_rfu i a b c title gap word : apart a = true -> apart b = true -> apart c = true -> 0x2500 <= a -> rfu (lit title ++ gap) = false ->
  ((explains (entry_row i [a; b; c] title (gap ++ 32 :: word)) /\ mentions (lit "RFU") (line_text (entry_row i [a; b; c] title (gap ++ 32 :: word)))) <-> rfu word = true).
Proof.
  intros Aa Ab Ac Ha Ht. rewrite <- rfu_iff.
  assert (E : rfu (line_text (entry_row i [a; b; c] title (gap ++ 32 :: word))) = rfu word).
  { unfold line_text, entry_row, row. cbn [l_tabs l_spans flat_map snd app]. rewrite app_nil_r, rfu_split by assumption. rewrite (low_rfu (repeat _ _)) by (apply low_repeat; discriminate). cbn [orb].
    rewrite (rfu_cons b), (rfu_cons c), (rfu_cons 32) by (assumption || reflexivity). rewrite app_assoc, rfu_split by reflexivity. now rewrite Ht. }
  rewrite E. split; [intros [_ H]; exact H|]. intros H. split; [|exact H]. exists a. split; [|exact Ha]. unfold line_text, entry_row, row. cbn [l_tabs l_spans flat_map snd app]. apply in_app_iff. right. now left.
Qed.
Definition words_rfu (l : list string) (k : N) : bool := rfu (of_digit l k).
Lemma ten (P : N -> bool) : forallb P [0; 1; 2; 3; 4; 5; 6; 7; 8; 9] = true -> forall k, k < 10 -> P k = true.
Proof.
  intros H k K. rewrite forallb_forall in H. apply H. cbn [In]. lia.
Qed.
Lemma word_in l ds : forallb (fun k => Bool.eqb (words_rfu l k) (existsb (N.eqb k) ds)) [0; 1; 2; 3; 4; 5; 6; 7; 8; 9] = true -> forall k, k < 10 -> (rfu (of_digit l k) = true <-> In k ds).
Proof.
  intros H k K. pose proof (ten _ H k K) as E. cbn beta in E. apply eqb_prop in E. unfold words_rfu in E. rewrite E, existsb_exists. split; [intros (x & I & Q); apply N.eqb_eq in Q; now subst|]. intros I. exists k. split; [assumption|apply N.eqb_refl].
Qed.
Lemma service_reports n i show : n <= 999 -> (reports_rfu (service_picture n i show) <-> reserved_code n).
Proof.
  intros N9. assert (H1 : n / 100 < 10) by (apply N.div_lt_upper_bound; lia). assert (H2 : n / 10 mod 10 < 10) by (apply N.mod_lt; discriminate). assert (H3 : n mod 10 < 10) by (apply N.mod_lt; discriminate).
  unfold service_picture. cbv zeta. rewrite quiet_cons by plain.
  rewrite (reports_cons (row i _)), (reports_cons (row i _)), (reports_cons (row i _)), (reports_cons (row i _)), (reports_cons (row i _)).
  pose proof (entry_rfu i 0x2502 0x2502 0x251C "Allowed Services:" (lit "        ") (of_digit services_words (n mod 10)) eq_refl eq_refl eq_refl ltac:(lia) eq_refl) as E1.
  pose proof (entry_rfu i 0x2502 0x2502 0x2514 "PIN Requirements:" (lit "        ") (of_digit pin_words (n mod 10)) eq_refl eq_refl eq_refl ltac:(lia) eq_refl) as E2.
  pose proof (entry_rfu i 0x2502 0x2514 0x2500 "Authorisation Processing:" [] (of_digit authorisation_words (n / 10 mod 10)) eq_refl eq_refl eq_refl ltac:(lia) eq_refl) as E3.
  pose proof (entry_rfu i 0x251C 0x2500 0x2500 "Interchange:" (lit "             ") (of_digit interchange_words (n / 100)) eq_refl eq_refl eq_refl ltac:(lia) eq_refl) as E4.
  pose proof (entry_rfu i 0x2514 0x2500 0x2500 "Technology:" (lit "              ") (of_digit technology_words (n / 100)) eq_refl eq_refl eq_refl ltac:(lia) eq_refl) as E5.
  assert (W1 := word_in services_words [8; 9] ltac:(vm_compute; reflexivity) _ H3). assert (W2 := word_in pin_words [] ltac:(vm_compute; reflexivity) _ H3).
  assert (W3 := word_in authorisation_words [1; 3; 5; 6; 7; 8; 9] ltac:(vm_compute; reflexivity) _ H2). assert (W4 := word_in interchange_words [0; 3; 4; 8] ltac:(vm_compute; reflexivity) _ H1).
  assert (W5 := word_in technology_words [] ltac:(vm_compute; reflexivity) _ H1).
  rewrite W1 in E1. rewrite W2 in E2. rewrite W3 in E3. rewrite W4 in E4. rewrite W5 in E5. clear W1 W2 W3 W4 W5. unfold entry_row in *. unfold reserved_code.
  assert (Nil : reports_rfu [] <-> False) by (split; [apply reports_nil|tauto]). rewrite Nil. clear Nil.
  change (lit "         " ++ of_digit services_words (n mod 10)) with (lit "        " ++ 32 :: of_digit services_words (n mod 10)). rewrite E1.
  change (lit "         " ++ of_digit pin_words (n mod 10)) with (lit "        " ++ 32 :: of_digit pin_words (n mod 10)). rewrite E2.
  change (lit " " ++ of_digit authorisation_words (n / 10 mod 10)) with ([] ++ 32 :: of_digit authorisation_words (n / 10 mod 10)). rewrite E3.
  change (lit "              " ++ of_digit interchange_words (n / 100)) with (lit "             " ++ 32 :: of_digit interchange_words (n / 100)). rewrite E4.
  change (lit "               " ++ of_digit technology_words (n / 100)) with (lit "              " ++ 32 :: of_digit technology_words (n / 100)). rewrite E5.
  change (In (n mod 10) []) with False. change (In (n / 100) []) with False. tauto.
Qed.
Lemma reserved_digits t d : reserved t d -> t = [0x5F; 0x30] -> exists a x y, d = [a; 16 * x + y] /\ x < 10 /\ y < 10 /\ reserved_code (100 * a + 10 * x + y).
Proof. intros [a x y A X Y R|]; [exists a, x, y; auto|discriminate]. Qed.
Lemma reserved_service_iff n a b : a < 10 -> b / 16 < 10 -> b mod 16 < 10 -> n = 100 * a + 10 * (b / 16) + b mod 16 -> (reserved [0x5F; 0x30] [a; b] <-> reserved_code n).
Proof.
  intros A X Y ->. assert (E : b = 16 * (b / 16) + b mod 16) by (apply N.div_mod; discriminate). split.
  - intros H. apply reserved_digits in H; [|reflexivity]. destruct H as (a' & x & y & H & X' & Y' & R). assert (Ha : a' = a) by congruence. assert (Hb : b = 16 * x + y) by congruence. rewrite Ha in R. rewrite Hb. clear - R X' Y'. assert (Q1 : (16 * x + y) / 16 = x) by (symmetry; apply N.div_unique with y; lia). assert (Q2 : (16 * x + y) mod 16 = y) by (symmetry; apply N.mod_unique with x; lia). now rewrite Q1, Q2.
  - intros R. rewrite E. now constructor.
Qed.
Lemma reserved_tags t d : reserved t d -> In t [[0x5F; 0x30]; [0x9F; 0x10]].
Proof. intros H. inversion H; cbn [In]; tauto. Qed.
Lemma reserved_pictured t d : reserved t d -> exists q, picture_of t d = Some q.
Proof.
  intros H. inversion H as [a x y A X Y _ E1 E2|cci dki cvr counters rest Hc L1 L2 L3 _]; subst.
  - change (picture_of [0x5F; 0x30] [a; 16 * x + y]) with (service_data_picture [a; 16 * x + y]). unfold service_data_picture.
    assert (Q1 : (16 * x + y) / 16 = x) by (symmetry; apply N.div_unique with y; lia). assert (Q2 : (16 * x + y) mod 16 = y) by (symmetry; apply N.mod_unique with x; lia). rewrite Q1, Q2.
    apply N.ltb_lt in A, X, Y. rewrite A, X, Y. cbn [andb]. eexists. reflexivity.
  - match goal with |- exists q, picture_of _ ?d = _ => change (picture_of [0x9F; 0x10] d) with (iad_picture d) end. destruct (iad_parts cci dki cvr counters rest L1 L2) as [_ P]. unfold iad_picture. cbv zeta. rewrite P. rewrite !len_cons, !len_app, len_cons, L1, L2, L3.
    cbn [nth]. destruct Hc as [-> | ->]; eexists; reflexivity.
Qed.
Lemma iad_reserved d q : iad_picture d = Some q -> (reserved [0x9F; 0x10] d <-> reserved_cvr (firstn 5 (skipn 3 d))).
Proof.
  intros Q. destruct (iad_shape d q Q) as (cci & dki & cvr & counters & rest & E & Hc & L1 & L2 & L3 & F). rewrite F. split.
  - intros H. inversion H as [|cci' dki' cvr' counters' rest' Hc' L1' L2' L3' Hh Et E']. clear E. rewrite <- E' in F. rewrite (proj1 (iad_parts cci' dki' cvr' counters' rest' L1' L2')) in F. now subst.
  - intros H. rewrite E. now constructor.
Qed.
Lemma hush_tag t d ls : ~ reports_rfu ls -> ~ In t [[0x5F; 0x30]; [0x9F; 0x10]] -> (reports_rfu ls <-> reserved t d).
Proof. intros H N. split; [contradiction|]. intros A. apply reserved_tags in A. contradiction. Qed.
Lemma picture_reports t d q i show : bytes_ok d -> picture_of t d = Some q -> (reports_rfu (q i show) <-> reserved t d).
Proof.
  intros B. unfold picture_of. destruct (SpecPictures.lookup pictures t) as [f|] eqn:F; [|discriminate]. intros H. apply ProofsPictures.lookup_in in F. rename F into I.
  unfold pictures in I. cbn [In] in I.
  repeat (destruct I as [I|I]; [assert (E : f = snd (t, f)) by reflexivity; assert (E' : t = fst (t, f)) by reflexivity; rewrite <- I in E, E'; cbn [fst snd] in E, E'; subst f t; clear I|]); [..|destruct I].
  all: try (apply hush_tag; [|cbn [In]; intros [K|[K|[]]]; discriminate K]).
  - unfold service_data_picture in H. destruct d as [|a [|b [|]]]; try discriminate. destruct ((a <? 10) && (b / 16 <? 10) && (b mod 16 <? 10)) eqn:G; [|discriminate]. apply andb_prop in G. destruct G as [G G3]. apply andb_prop in G. destruct G as [G1 G2]. apply N.ltb_lt in G1, G2, G3.
    match type of H with Some ?x = _ => assert (E : q = x) by congruence end. rewrite E. rewrite service_reports by lia. symmetry. now apply reserved_service_iff.
  - now apply (response_hush d).
  - now apply (cvm_list_hush d).
  - exact (bits_hush _ _ _ _ q i show tvr_hush H).
  - refine (bits_hush _ _ _ _ q i show _ H). vm_compute. reflexivity.
  - now apply (code_hush transaction_type_codes d).
  - exact (action_hush _ d q i show H).
  - exact (action_hush _ d q i show H).
  - exact (action_hush _ d q i show H).
  - rewrite (iad_reports d q i show B H), (iad_reserved d q H). tauto.
  - refine (bits_hush _ _ _ _ q i show _ H). vm_compute. reflexivity.
  - now apply (cvm_results_hush d).
  - now apply (code_hush terminal_type_codes d).
  - now apply (code_hush pos_entry_mode_codes d).
  - refine (bits_hush _ _ _ _ q i show _ H). vm_compute. reflexivity.
Qed.

(** ** Blocks *)

Definition tag_reserved (t : raw_tag) : Prop := exists d, rt_data t = Normal d /\ reserved (rt_tag t) d.
Lemma boxless_name t : boxless (name_of t).
Proof. unfold name_of. destruct (find _ _) as [[k x]|]; apply boxless_lit. Qed.
Lemma boxless_title t : boxless (tag_title t).
Proof. unfold tag_title. destruct (rt_data t) as [d|]; [|apply boxless_name]. destruct (picture_of _ d); [apply boxless_name|]. destruct (SpecPictures.lookup _ _); [apply boxless_lit|apply boxless_name]. Qed.
Lemma tag_reports t i show : data_ok t -> (reports_rfu (tag_lines t i show) <-> tag_reserved t).
Proof.
  intros B. unfold tag_lines, data_ok in *. rewrite quiet_cons.
  2: { pose proof (boxless_title t). assert (boxless (length_text (rt_data t))) by (unfold length_text; destruct (rt_data t) as [d|]; [apply boxless_app; [apply boxless_dec|destruct (len d =? 1); apply boxless_lit]|apply boxless_lit]). plain. }
  rewrite quiet_app.
  2: { apply plain_none. unfold data_lines. destruct (rt_data t) as [[|b d]|]; [constructor| |plain]. constructor; [plain|apply plain_wide_dump]. }
  unfold meaning_lines, tag_reserved. destruct (rt_data t) as [d|]; [|split; [intros K; now apply reports_nil in K|intros (d & K & _); discriminate K]].
  destruct (picture_of (rt_tag t) d) as [q|] eqn:Q.
  - rewrite quiet_cons by plain. rewrite (picture_reports _ d q (i + 1) show B Q). split; [eauto|]. intros (d' & E & A). injection E as <-. exact A.
  - split; [intros K; now apply reports_nil in K|]. intros (d' & E & A). injection E as <-. apply reserved_pictured in A. destruct A as (q & A). congruence.
Qed.
Lemma separated_reports (l : list (list line)) : reports_rfu (separated l) <-> exists y, In y l /\ reports_rfu y.
Proof.
  split.
  - intros (x & I & K). apply in_separated in I. destruct I as [->|(y & Hy & Hx)].
    + exfalso. destruct K as [K _]. revert K. apply plain_quiet. unfold blank. plain.
    + exists y. split; [assumption|]. exists x. auto.
  - intros (y & I & K). induction l as [|a l IH]; [destruct I|]. rewrite separated_cons. apply reports_app. destruct I as [->|I]; [now left|]. right.
    destruct l as [|b l]; [destruct I|]. apply reports_cons. right. now apply IH.
Qed.
Lemma tree_reports show : forall n i, Forall data_ok (preorder n) -> (reports_rfu (tree_lines show n i) <-> exists t, In t (preorder n) /\ tag_reserved t).
Proof.
  fix IH 1. intros [t ch] i S. cbn [tree_lines preorder] in *. pose proof (Forall_inv S) as St. pose proof (Forall_inv_tail S) as Sc. clear S.
  assert (G : forall ch, Forall data_ok (flat_map preorder ch) -> ((exists y, In y (map (fun n => tree_lines show n (i + 1)) ch) /\ reports_rfu y) <-> exists t, In t (flat_map preorder ch) /\ tag_reserved t)).
  { clear - IH. induction ch as [|n ch IHc]; [intros _; split; [intros (y & [] & _)|intros (t & [] & _)]|]. cbn [flat_map map]. intros S. apply Forall_app in S. destruct S as [S1 S2]. specialize (IH n (i + 1) S1). specialize (IHc S2). split.
    - intros (y & [<-|Hy] & K).
      + apply IH in K. destruct K as (t & Ht & K). exists t. split; [apply in_app_iff; now left|assumption].
      + destruct (proj1 IHc (ex_intro _ y (conj Hy K))) as (t & Ht & Kt). exists t. split; [apply in_app_iff; now right|assumption].
    - intros (t & Ht & K). apply in_app_iff in Ht. destruct Ht as [Ht|Ht].
      + eexists. split; [now left|]. apply IH. eauto.
      + destruct (proj2 IHc (ex_intro _ t (conj Ht K))) as (y & Hy & Ky). exists y. split; [now right|assumption]. }
  specialize (G ch Sc). rewrite reports_app, (tag_reports t i show St).
  assert (A : reports_rfu match ch with [] => [] | _ :: _ => heading_row i (lit "Constructed Data Object's Child Tags:") :: separated (map (fun n => tree_lines show n (i + 1)) ch) end <-> exists t, In t (flat_map preorder ch) /\ tag_reserved t).
  { rewrite <- G. clear G Sc IH. destruct ch as [|n ch]; [split; [intros K; now apply reports_nil in K|intros (y & [] & _)]|]. rewrite quiet_cons by plain. apply separated_reports. }
  rewrite A. clear G A. split.
  - intros [K|(u & Hu & K)]; [exists t|exists u]; (split; [cbn [In]; auto|exact K]).
  - intros (u & [<-|Hu] & K); [now left|right; eauto].
Qed.
Lemma forest_reports show ns i : Forall data_ok (flat_map preorder ns) -> (reports_rfu (forest_lines ns i show) <-> exists t, In t (flat_map preorder ns) /\ tag_reserved t).
Proof.
  intros S. unfold forest_lines. rewrite separated_reports. split.
  - intros (y & Hy & K). apply in_map_iff in Hy. destruct Hy as (n & <- & Hn). assert (Sn : Forall data_ok (preorder n)) by (apply Forall_forall; intros t Ht; rewrite Forall_forall in S; apply S, in_flat_map; eauto).
    apply (tree_reports show n i Sn) in K. destruct K as (t & Ht & K). exists t. split; [apply in_flat_map; eauto|assumption].
  - intros (t & Ht & K). apply in_flat_map in Ht. destruct Ht as (n & Hn & Ht). assert (Sn : Forall data_ok (preorder n)) by (apply Forall_forall; intros u Hu; rewrite Forall_forall in S; apply S, in_flat_map; eauto).
    eexists. split; [apply in_map_iff; exists n; split; [reflexivity|assumption]|]. apply (tree_reports show n i Sn). eauto.
Qed.
Lemma reports_perm ls ls' : Permutation ls ls' -> (reports_rfu ls <-> reports_rfu ls').
Proof. intros P. split; intros (l & I & K); exists l; (split; [|assumption]); [now apply (Permutation_in _ P)|now apply (Permutation_in _ (Permutation_sym P))]. Qed.
Lemma reserved_never masks op s : In op [OpTvr; OpTsi; OpCvmResults; OpCvmList; OpIdentify] -> ~ has_reserved masks op s.
Proof.
  intros I H. cbn [In] in I. inversion H as [s' A|s' A|s' n A B|op' s' f ns t d B _ _ _]; subst; try (repeat (destruct I as [I|I]; [discriminate I|]); contradiction). revert B. apply no_block. cbn [In]. tauto.
Qed.
Lemma hush_iff ls (P : Prop) : ~ reports_rfu ls -> ~ P -> (reports_rfu ls <-> P).
Proof. tauto. Qed.

(** C112: what is reported as RFU. *)
(* An explanation says RFU exactly for the reserved codes. *)
Theorem C112_exact : forall p masks sort op s ls, text64 p s -> sheet masks sort op s ls -> (reports_rfu ls <-> has_reserved masks op s).
Proof.
  intros p masks sort op s ls T H. pose proof (hex_input64 p s T) as (_ & Bs & _). rewrite <- hex_bytes_eq in Bs.
  inversion H as [f q I E|n O D N|f ns ns' B N A]; subst.
  - unfold byte_operations in I. cbn [In] in I.
    repeat (destruct I as [I|I]; [assert (F : f = snd (op, f)) by reflexivity; assert (O : op = fst (op, f)) by reflexivity; rewrite <- I in F, O; cbn [fst snd] in F, O; subst f op; clear I|]); [..|destruct I].
    + apply hush_iff; [exact (bits_hush _ _ _ _ q 0 true tvr_hush E)|apply reserved_never; cbn [In]; tauto].
    + change (picture_of [0x9F; 0x10] (hex_bytes s) = Some q) in E. rewrite (picture_reports _ _ q 0 true Bs E). split; [now constructor|]. intros K. inversion K as [s' K'| | |op' s' f ns t d B _ _ _]; subst; [assumption|]. exfalso. revert B. apply no_block. cbn [In]. tauto.
    + unfold bits_picture in E. destruct (_ && _); [|discriminate]. assert (Q : q = diagram 5 (keep_bits (hex_bytes s) cvr_used) (all_shown 5 cvr_bits (hex_bytes s))) by congruence. rewrite Q.
      rewrite cvr_reports by now apply nth_ok. split; [now constructor|]. intros K. inversion K as [|s' K'| |op' s' f ns t d B _ _ _]; subst; [assumption|]. exfalso. revert B. apply no_block. cbn [In]. tauto.
    + apply hush_iff; [refine (bits_hush _ _ _ _ q 0 true _ E); vm_compute; reflexivity|apply reserved_never; cbn [In]; tauto].
    + apply hush_iff; [exact (cvm_results_hush _ q 0 true E)|apply reserved_never; cbn [In]; tauto].
    + apply hush_iff; [exact (cvm_list_hush _ q 0 true E)|apply reserved_never; cbn [In]; tauto].
    + apply hush_iff; [|apply reserved_never; cbn [In]; tauto]. unfold identify_picture in E. destruct (hex_bytes s) as [|b t]; [discriminate|]. match type of E with Some ?y = _ => assert (Q : q = y) by congruence end. rewrite Q. apply plain_none.
      pose proof (boxless_name (b :: t)). destruct (N.testbit b 5); plain.
  - rewrite service_reports by assumption. split; [intros K; now apply reserved_number with n|]. intros K. inversion K as [| |s' n' D' K'|op' s' f ns t d B _ _ _]; subst; [|exfalso; revert B; apply no_block; cbn [In]; tauto].
    now rewrite (denotes_det s n n' D D').
  - pose proof (tlv_data_ok p masks op s f ns T B) as Do. unfold forest_data_ok in Do.
    rewrite quiet_app by (apply plain_none; destruct f as [[]|]; cbn [format_lines]; unfold blank; plain).
    assert (P : reports_rfu (forest_lines ns' 0 true) <-> reports_rfu (forest_lines ns 0 true)) by (destruct sort; [symmetry; apply reports_perm; now apply in_order_lines|now subst]).
    rewrite P, (forest_reports true ns 0 Do). split.
    + intros (t & I & d & D & K). now apply reserved_block with f ns t d.
    + intros K. inversion K as [s' K' Eo|s' K' Eo|s' n D' K' Eo|op' s' f' ms t d B' I D K']; subst; try (exfalso; revert B; apply no_block; cbn [In]; tauto).
      destruct (tlv_block_det p _ _ _ _ _ _ _ T B B') as [_ <-]. exists t. split; [assumption|]. exists d. auto.
Qed.
(* Nothing does for the other values. *)
Theorem C112_never : forall p masks sort op s ls, text64 p s -> sheet masks sort op s ls -> In op [OpTvr; OpTsi; OpCvmResults; OpCvmList; OpIdentify] -> ~ reports_rfu ls.
Proof. intros p masks sort op s ls T H I K. apply (C112_exact p masks sort op s ls T H) in K. now apply reserved_never in K. Qed.
(* Nor in TLV data without a service code and a CCD issuer application data. *)
Theorem C112_silent : forall p masks sort op s ls f ns, text64 p s -> sheet masks sort op s ls -> tlv_block masks op s f ns ->
  Forall (fun t => rt_data t = Masked \/ ~ In (rt_tag t) [[0x5F; 0x30]; [0x9F; 0x10]]) (flat_map preorder ns) -> ~ reports_rfu ls.
Proof.
  intros p masks sort op s ls f ns T H B F K. apply (C112_exact p masks sort op s ls T H) in K.
  inversion K as [s' K' Eo|s' K' Eo|s' n D' K' Eo|op' s' f' ms t d B' I D K']; subst; try (revert B; apply no_block; cbn [In]; tauto).
  destruct (tlv_block_det p _ _ _ _ _ _ _ T B B') as [_ <-]. rewrite Forall_forall in F. destruct (F t I) as [M|M]; [congruence|]. now apply reserved_tags in K'.
Qed.
(* The same for the program: on a run that shows its lines, they report exactly the reserved codes. *)
Theorem C112_program : forall p e m st op s, load_settings e m = Ok st -> chosen m op s -> text64 p s ->
  o_panic (run_main p e m) = false -> o_stderr (run_main p e m) = [] ->
  exists ls, displays (run_main p e m) ls /\ (reports_rfu ls <-> has_reserved (set_masking st) op s).
Proof.
  intros p e m st op s L C T Hp He. rewrite (main_chosen p e m st op s L C) in *.
  destruct (run_one_exact p st op s T) as [(ls & k & B & Sh & N)|(er & Rf & K)].
  - exists ls. apply (C73_sheet p _ _ _ _ ls k T) in B. destruct B as [B Ek]. split; [|exact (C112_exact p _ _ op s ls T B)]. rewrite Ek in Sh, N.
    assert (D : fits p (deepest ls) \/ ~ fits p (deepest ls)).
    { unfold fits. destruct (overflow_checks p); [|left; discriminate]. destruct (N.lt_ge_cases (deepest ls) 256) as [H|H]; [left; intros _; exact H|right; intros Y; specialize (Y eq_refl); lia]. }
    destruct D as [D|D]; [exact (Sh D)|]. exfalso. destruct (N D) as [N1 _]. congruence.
  - exfalso. destruct K as (_ & _ & _ & K). rewrite He in K. destruct (error_text er); discriminate K.
Qed.
(* Reserved bits of a bit field are not reported. *)
Theorem C112_bits_refuted : exists s ls, text64 p64 s /\ sheet [42] true OpTvr s ls /\ keep_bits (hex_bytes s) tvr_used <> hex_bytes s /\ ~ reports_rfu ls.
Proof.
  exists (lit "0300000000"). eexists. assert (T : text64 p64 (lit "0300000000")) by (split; vm_compute; reflexivity).
  assert (H : sheet [42] true OpTvr (lit "0300000000") (diagram 5 (keep_bits (hex_bytes (lit "0300000000")) tvr_used) (all_shown 5 tvr_bits (hex_bytes (lit "0300000000"))) 0 true)).
  { apply (sheet_value [42] true OpTvr _ (bits_picture 5 tvr_bits tvr_used)); [cbn [byte_operations In]; tauto|]. unfold bits_picture. replace ((len (hex_bytes (lit "0300000000")) =? 5) && allowed tvr_bits (hex_bytes (lit "0300000000"))) with true by (vm_compute; reflexivity). reflexivity. }
  split; [exact T|]. split; [exact H|]. split; [vm_compute; intros K; discriminate K|]. apply (C112_never p64 _ _ _ _ _ T H). cbn [In]. tauto.
Qed.
(* The letters alone mean nothing: data may contain them. *)
Theorem C112_letters_refuted : exists s ls, text64 p64 s /\ sheet [42] false OpBer s ls /\ ~ has_reserved [42] OpBer s /\ exists l, In l ls /\ mentions (lit "RFU") (line_text l).
Proof.
  set (n := RawNode (mkRawTag [0x50] TagClass_Application Primitive (Normal (lit "RFU"))) []). exists (lit "5003524655"), (forest_lines [n] 0 true).
  assert (T : text64 p64 (lit "5003524655")) by (split; vm_compute; reflexivity).
  assert (B : tlv_block [42] OpBer (lit "5003524655") None [n]) by (apply (tlv_settles p64 [42] OpBer (lit "5003524655") _ T eq_refl); vm_compute; reflexivity).
  assert (H : sheet [42] false OpBer (lit "5003524655") (forest_lines [n] 0 true)).
  { apply (sheet_block [42] false OpBer _ None [n]); [exact B| |reflexivity].
    repeat constructor; intros e (d & D & R); cbn in D; injection D as <-; inversion R as [t k d I L| | | | | | | ]; subst; cbn [fixed_lengths In] in I;
        repeat (destruct I as [I|I]; [first [discriminate I|injection I as <-; now apply L]|]); destruct I. }
  split; [exact T|]. split; [exact H|]. split.
  - intros K. apply (C112_exact p64 _ _ _ _ _ T H) in K. revert K. apply (C112_silent p64 _ _ _ _ _ _ _ T H B). cbn [flat_map preorder app n]. constructor; [|constructor]. right. cbn [In rt_tag]. intros [K|[K|[]]]; discriminate K.
  - eexists. split; [right; right; left; reflexivity|]. apply rfu_iff. vm_compute. reflexivity.
Qed.
Example C112_example : exists ls, text64 p64 (lit "5F30020301 9F360101") /\ sheet [42] false OpBer (lit "5F30020301 9F360101") ls /\ reports_rfu ls
  /\ has_reserved [42] OpServiceCode (lit "988") /\ ~ has_reserved [42] OpServiceCode (lit "201") /\ has_reserved [42] OpCvr (lit "C000000000") /\ ~ has_reserved [42] OpCvr (lit "A000000000").
Proof.
  set (n := RawNode (mkRawTag [0x5F; 0x30] TagClass_Application Primitive (Normal [3; 1])) []). set (n' := RawNode (mkRawTag [0x9F; 0x36] TagClass_ContextSpecific Primitive (Normal [1])) []). exists (forest_lines [n; n'] 0 true).
  set (s := lit "5F30020301 9F360101"). assert (T : text64 p64 s) by (split; vm_compute; reflexivity).

  assert (B : tlv_block [42] OpBer s None [n; n']) by (apply (tlv_settles p64 [42] OpBer s _ T eq_refl); vm_compute; reflexivity).
  assert (H : sheet [42] false OpBer s (forest_lines [n; n'] 0 true)).
  { apply (sheet_block [42] false OpBer _ None [n; n']); [exact B| |reflexivity].
    cbn [flat_map preorder app n n']. constructor; [|constructor; [|constructor]].
    - intros e (d & D & R). injection D as <-. cbn [rt_tag] in R. inversion R as [t k d I L|d L W| | | | | | ]; subst.
      + cbn [fixed_lengths In] in I. repeat (destruct I as [I|I]; [first [discriminate I|injection I as <-; now apply L]|]). destruct I.
      + apply (W 3 0 1). unfold three_digits. repeat split; reflexivity.
    - apply no_failure. vm_compute. reflexivity. }
  split; [exact T|]. split; [exact H|]. split; [|split; [|split; [|split]]].
  - apply (C112_exact p64 _ _ _ _ _ T H). apply (reserved_block [42] OpBer s None [n; n'] (mkRawTag [0x5F; 0x30] TagClass_Application Primitive (Normal [3; 1])) [3; 1]); [exact B|cbn; tauto|reflexivity|].
    apply (reserved_service 3 0 1); [reflexivity|reflexivity|reflexivity|]. left. vm_compute. tauto.
  - apply reserved_number with 988; [|right; left; vm_compute; tauto]. exists [], [], (lit "988"), []. repeat split; try (constructor; fail); [now left|discriminate|]. repeat constructor; discriminate.
  - assert (D : denotes_number (lit "201") 201) by (exists [], [], (lit "201"), []; repeat split; try (constructor; fail); [now left|discriminate|repeat constructor; discriminate]).
    intros K. inversion K as [| |s' k D' K'|op' s' f ns t d B' _ _ _]; subst; [|revert B'; apply no_block; cbn [In]; tauto]. rewrite (denotes_det _ _ _ D' D) in K'.
    vm_compute in K'. destruct K' as [K'|[K'|K']]; repeat (destruct K' as [K'|K']; [discriminate K'|]); destruct K'.
  - constructor. left. vm_compute. reflexivity.
  - intros K. inversion K as [|s' K'| |op' s' f ns t d B' _ _ _]; subst; [|revert B'; apply no_block; cbn [In]; tauto]. destruct K' as [K'|K']; vm_compute in K'; discriminate K'.
Qed.
