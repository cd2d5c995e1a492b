(** From decoded values to the pictures of SpecPictures. *)

From Coq Require Import NArith PeanoNat List String Bool Lia ZifyN ZifyBool ZifyNat Permutation Sorting.
From Verif Require Import Base ModelUtil ModelEnums ModelBitflag ModelSchemas ModelTags ModelTlv ModelValues ModelProcess ModelDisplay
  SpecUtil ProofsUtil SpecCodes SpecValues ProofsValues PropertiesValues SpecTlv SpecTags SpecProcess ProofsProcess PropertiesProcess
  SpecDisplay SpecPictures ModelMain SpecMain ProofsMain.
Import ListNotations.
Local Open Scope N_scope.

Lemma same_bytes_eq a : forall b, same_bytes a b = true <-> a = b.
Proof.
  induction a as [|x a IH]; intros [|y b]; cbn [same_bytes]; try (split; [discriminate|discriminate]); [tauto|].
  rewrite andb_true_iff, N.eqb_eq, IH. split; [intros [-> ->]; reflexivity|intros E; injection E as -> ->; auto].
Qed.
Lemma same_bytes_refl a : same_bytes a a = true.
Proof. now apply same_bytes_eq. Qed.

(* The picture [q] is the display of [v]. *)
Definition draws (q : picture) (v : value) : Prop := forall i show, value_lines v i show = q i show.
(* [f] draws exactly the values of tag [t]. *)
Definition pictured (t : list N) (f : list N -> option picture) : Prop :=
  forall d, bytes_ok d ->
    (forall v, value_of t d v -> exists q, f d = Some q /\ draws q v) /\ (forall q, f d = Some q -> exists v, value_of t d v).

(** ** Bit fields *)

Lemma bits_diagram_eq parse sch n t m d v : In (parse, sch, n, t, m) bit_values -> bits_value n t d v ->
  bits_diagram n sch v = diagram n (keep_bits d m) (all_shown n t d).
Proof.
  intros H [L D]. destruct (all_bit_values_ok _ _ _ _ _ (bit_values_all _ H)) as (E & En & M).
  assert (P : parse d = Ok v) by (rewrite E; apply (bf_parse_ok sch t m M); split; [congruence|assumption]).
  unfold bits_diagram. rewrite (C41_serialise_masks _ _ _ _ _ d v H P). now rewrite (C44_ranges _ _ _ _ _ d v (bit_values_all _ H) P).
Qed.
Lemma bits_picture_some n t m d q : bits_picture n t m d = Some q <-> (exists v, bits_value n t d v) /\ q = diagram n (keep_bits d m) (all_shown n t d).
Proof.
  unfold bits_picture, allowed, bits_value. destruct (N.eqb_spec (len d) n) as [L|L]; cbn [andb].
  - destruct (decode_all t d) as [v|]; split.
    + intros E. injection E as <-. split; [exists v; auto|reflexivity].
    + now intros [_ ->].
    + discriminate.
    + intros [(v & _ & K) _]. discriminate.
  - split; [discriminate|]. intros [(v & K & _) _]. contradiction.
Qed.
Ltac in_bit_values := unfold bit_values; cbn [In]; tauto.

Lemma pictured_95 : pictured [0x95] (bits_picture 5 tvr_bits tvr_used).
Proof.
  intros d Hb. split.
  - intros v H. inversion H; subst. eexists. split; [apply bits_picture_some; eauto|]. intros i show. cbn [value_lines].
    now rewrite (bits_diagram_eq tvr_try_from tvr_schema 5 tvr_bits tvr_used d v0) by (in_bit_values || assumption).
  - intros q H. apply bits_picture_some in H. destruct H as [[v V] _]. exists (ValTvr v). now constructor.
Qed.
Lemma pictured_9B : pictured [0x9B] (bits_picture 2 tsi_bits tsi_used).
Proof.
  intros d Hb. split.
  - intros v H. inversion H; subst. eexists. split; [apply bits_picture_some; eauto|]. intros i show. cbn [value_lines].
    now rewrite (bits_diagram_eq tsi_try_from tsi_schema 2 tsi_bits tsi_used d v0) by (in_bit_values || assumption).
  - intros q H. apply bits_picture_some in H. destruct H as [[v V] _]. exists (ValTsi v). now constructor.
Qed.
Lemma pictured_9F33 : pictured [0x9F; 0x33] (bits_picture 3 termcap_bits termcap_used).
Proof.
  intros d Hb. split.
  - intros v H. inversion H; subst. eexists. split; [apply bits_picture_some; eauto|]. intros i show. cbn [value_lines].
    now rewrite (bits_diagram_eq termcap_try_from termcap_schema 3 termcap_bits termcap_used d v0) by (in_bit_values || assumption).
  - intros q H. apply bits_picture_some in H. destruct H as [[v V] _]. exists (ValTermCap v). now constructor.
Qed.
Lemma pictured_9F40 : pictured [0x9F; 0x40] (bits_picture 5 addtermcap_bits addtermcap_used).
Proof.
  intros d Hb. split.
  - intros v H. inversion H; subst. eexists. split; [apply bits_picture_some; eauto|]. intros i show. cbn [value_lines].
    now rewrite (bits_diagram_eq addtermcap_try_from addtermcap_schema 5 addtermcap_bits addtermcap_used d v0) by (in_bit_values || assumption).
  - intros q H. apply bits_picture_some in H. destruct H as [[v V] _]. exists (ValAddTermCap v). now constructor.
Qed.
Lemma action_some sentence d q : action_picture sentence d = Some q <->
  (exists v, bits_value 5 tvr_bits d v) /\ q = (fun i _ => heading_row i (lit sentence) :: diagram 5 (keep_bits d tvr_used) (all_shown 5 tvr_bits d) i false).
Proof.
  unfold action_picture. destruct (bits_picture 5 tvr_bits tvr_used d) as [r|] eqn:E; cbn [option_map]; split.
  - intros K. injection K as <-. apply bits_picture_some in E. destruct E as [V ->]. auto.
  - intros [_ ->]. apply bits_picture_some in E. destruct E as [V ->]. reflexivity.
  - discriminate.
  - intros [V _]. exfalso. assert (X : bits_picture 5 tvr_bits tvr_used d = Some (diagram 5 (keep_bits d tvr_used) (all_shown 5 tvr_bits d))) by (apply bits_picture_some; auto). congruence.
Qed.
Ltac action c := intros d Hb; split;
  [intros v H; inversion H; subst; eexists; split; [apply action_some; split; [eauto|reflexivity]|]; intros i show; cbn [value_lines]; unfold iac_lines;
   match goal with V : bits_value 5 tvr_bits _ ?w |- _ => now rewrite (bits_diagram_eq tvr_try_from tvr_schema 5 tvr_bits tvr_used d w) by (in_bit_values || assumption) end
  |intros q H; apply action_some in H; destruct H as [[v V] _]; exists (c v); now constructor].
Lemma pictured_9F0D : pictured [0x9F; 0x0D] (action_picture "If not an online transaction and any of the following match the TVR, reject the transaction:").
Proof. action ValIacDefault. Qed.
Lemma pictured_9F0E : pictured [0x9F; 0x0E] (action_picture "If any of the following match the TVR, deny the transaction without even going online:").
Proof. action ValIacDenial. Qed.
Lemma pictured_9F0F : pictured [0x9F; 0x0F] (action_picture "If any of the following match the TVR, complete the transaction online:").
Proof. action ValIacOnline. Qed.

(** ** Codes *)

Lemma shown_text {A} (table : list (N * A * string)) (text : A -> str) : distinct_codes table = true -> PropertiesValues.shows table text ->
  forall b x, listed table b x -> code_picture table [b] = Some (fun i _ => [row i [(None, text x)]]).
Proof.
  intros D S b x [s H]. unfold code_picture. rewrite (find_code_complete table b x s D H). cbn [option_map snd]. now rewrite (S b x s H).
Qed.
Lemma code_picture_some {A} (table : list (N * A * string)) d q : code_picture table d = Some q -> exists b x, d = [b] /\ listed table b x.
Proof.
  unfold code_picture. destruct d as [|b [|]]; try discriminate. destruct (find_code table b) as [[x s]|] eqn:F; [|discriminate]. intros _.
  exists b, x. split; [reflexivity|]. exists s. now apply find_code_in.
Qed.
Ltac coded c text := intros d Hb; split;
  [intros v H; inversion H; subst; eexists; split; [eapply (shown_text _ text); [vm_compute; reflexivity|apply c|eassumption]|]; intros i show; reflexivity
  |intros q H; apply code_picture_some in H; destruct H as (b & x & -> & L); eexists; constructor; exact L].
Lemma pictured_9C : pictured [0x9C] (code_picture transaction_type_codes).
Proof. coded C52_transaction_type transaction_type_text. Qed.
Lemma pictured_9F35 : pictured [0x9F; 0x35] (code_picture terminal_type_codes).
Proof. coded C52_terminal_type terminal_type_text. Qed.
Lemma pictured_9F39 : pictured [0x9F; 0x39] (code_picture pos_entry_mode_codes).
Proof. coded C52_pos_entry_mode pos_entry_mode_text. Qed.

Lemma arc_shows c x l : In (c, x, l) arc_codes -> authorisation_response_code_text x = lit l.
Proof. intros H. cbn in H. repeat (destruct H as [H|H]; [injection H as <- <- <-; reflexivity|]). destruct H. Qed.
Lemma pictured_8A : pictured [0x8A] response_picture.
Proof.
  intros d Hb. unfold response_picture. split.
  - intros v H. inversion H as [|d' x (c & l & I & E)| | | | | | | | | | | | |]; subst. exists (fun i _ => [row i [(None, authorisation_response_code_text x)]]).
    split; [|intros i show; reflexivity].
    destruct (find (fun r => same_bytes (lit (fst (fst r))) (lit c)) arc_codes) as [[[c' x'] l']|] eqn:F.
    + apply find_some in F. destruct F as [I' F]. cbn [fst] in F. apply same_bytes_eq in F. cbn [option_map snd].
      rewrite <- (arc_shows c' x' l' I'). assert (x' = x); [|now subst].
      pose proof (find_arc_complete c' x' l' I') as K1. pose proof (find_arc_complete c x l I) as K2. rewrite F in K1. congruence.
    + exfalso. pose proof (find_none _ _ F _ I) as K. cbn [fst] in K. rewrite same_bytes_refl in K. discriminate.
  - intros q H. destruct (find _ arc_codes) as [[[c' x'] l']|] eqn:F; [|discriminate]. apply find_some in F. destruct F as [I' F]. cbn [fst] in F.
    apply same_bytes_eq in F. exists (ValArc x'). constructor. exists c', l'. auto.
Qed.

(** ** CVM rules *)

Lemma rule_of_bytes a b v : bits_value 2 cv_rule_bits [a; b] v ->
  v = [VBool (bits_of a 7 7 =? 1); VCvMethod (option_map fst (find_code cv_method_codes (bits_of a 6 1)));
       VCvmCondition (option_map fst (find_code cvm_condition_codes (bits_of b 8 1)))].
Proof.
  intros [_ D]. unfold cv_rule_bits in D. cbn [decode_all] in D. unfold field_value, flag, group, field_bits in D. cbn [e_kind e_byte e_hi e_lo decode option_map fst] in D.
  change (N.to_nat (1 - 1)) with 0%nat in D. change (N.to_nat (2 - 1)) with 1%nat in D. cbn [nth] in D. unfold optional in D.
  destruct (find_code cv_method_codes (bits_of a 6 1)) as [[x s]|], (find_code cvm_condition_codes (bits_of b 8 1)) as [[y r]|]; cbn in D |- *; now injection D as <-.
Qed.
Lemma bits_8 b : is_byte b -> bits_of b 8 1 = b.
Proof. unfold is_byte, bits_of. intros H. change (2 ^ (1 - 1)) with 1. change (2 ^ (8 - 1 + 1)) with 256. rewrite N.div_1_r. apply N.mod_small. lia. Qed.
Lemma rule_method a b v : bits_value 2 cv_rule_bits [a; b] v -> rule_field_text v "method" = code_text Method a 6 1.
Proof.
  intros H. rewrite (rule_of_bytes a b v H). unfold rule_field_text. cbn [get_field]. unfold code_text. cbn [decode]. unfold optional.
  match goal with |- context [get_field ?s ?l ?n] => change (get_field s l n) with (Some (VCvMethod (option_map fst (find_code cv_method_codes (bits_of a 6 1))))) end.
  destruct (find_code cv_method_codes (bits_of a 6 1)) as [[x s]|] eqn:F; cbn [option_map fst fval_text]; [|reflexivity].
  apply find_code_in in F. exact (proj2 (proj2 C52_cv_method) _ _ _ F).
Qed.
Lemma rule_condition a b v : bits_value 2 cv_rule_bits [a; b] v -> rule_field_text v "condition" = code_text Condition b 8 1.
Proof.
  intros H. rewrite (rule_of_bytes a b v H). unfold rule_field_text. cbn [get_field]. unfold code_text. cbn [decode]. unfold optional.
  match goal with |- context [get_field ?s ?l ?n] => change (get_field s l n) with (Some (VCvmCondition (option_map fst (find_code cvm_condition_codes (bits_of b 8 1))))) end.
  destruct (find_code cvm_condition_codes (bits_of b 8 1)) as [[x s]|] eqn:F; cbn [option_map fst fval_text]; [|reflexivity].
  apply find_code_in in F. exact (proj2 (proj2 C52_cvm_condition) _ _ _ F).
Qed.
Lemma rule_continue a b v : bits_value 2 cv_rule_bits [a; b] v -> get_field cv_rule_schema v "continue_if_unsuccessful" = Some (VBool (bits_of a 7 7 =? 1)).
Proof. intros H. rewrite (rule_of_bytes a b v H). reflexivity. Qed.
Lemma rule_amount a b v : is_byte b -> bits_value 2 cv_rule_bits [a; b] v -> compares_amount v = (6 <=? b) && (b <=? 9).
Proof.
  intros B H. rewrite (rule_of_bytes a b v H). rewrite (bits_8 b B). unfold compares_amount.
  match goal with |- context [get_field ?s ?l ?n] => change (get_field s l n) with (Some (VCvmCondition (option_map fst (find_code cvm_condition_codes b)))) end.
  assert (E : forallb (fun b => Bool.eqb match option_map fst (find_code cvm_condition_codes b) with Some c => match c with CvmCondition_InApplicationCurrencyUnderX | CvmCondition_InApplicationCurrencyOverX | CvmCondition_InApplicationCurrencyUnderY | CvmCondition_InApplicationCurrencyOverY => true | _ => false end | None => false end ((6 <=? b) && (b <=? 9))) all_bytes = true) by (vm_compute; reflexivity).
  pose proof (check_all_bytes _ E b B) as K. cbn beta in K. apply eqb_prop in K. rewrite <- K. now destruct (option_map fst (find_code cvm_condition_codes b)).
Qed.
Lemma rules_drawn d vs : rules_of d vs -> bytes_ok d ->
  (forall i k, numbered_rules i k vs = rules_picture i k d) /\ existsb compares_amount vs = mentions_amount d.
Proof.
  intros R. induction R as [|a b v rest vs P R IH]; intros Hb; [split; reflexivity|].
  apply bytes_ok_cons in Hb. destruct Hb as [Ba Hb]. apply bytes_ok_cons in Hb. destruct Hb as [Bb Hb]. destruct (IH Hb) as [I1 I2].
  assert (V : bits_value 2 cv_rule_bits [a; b] v) by now split.
  split.
  - intros i k. cbn [numbered_rules rules_picture]. unfold rule_lines. rewrite (rule_method a b v V), (rule_condition a b v V), (rule_continue a b v V), I1. cbn [app].
    now destruct (bits_of a 7 7 =? 1).
  - cbn [existsb mentions_amount]. now rewrite (rule_amount a b v Bb V), I2.
Qed.
Lemma skip_4_4 {A} (x y r : list A) : List.length x = 4%nat -> List.length y = 4%nat ->
  firstn 4 (x ++ y ++ r) = x /\ firstn 4 (skipn 4 (x ++ y ++ r)) = y /\ skipn 8 (x ++ y ++ r) = r.
Proof.
  intros Lx Ly. destruct x as [|x1 [|x2 [|x3 [|x4 [|]]]]]; try discriminate Lx. destruct y as [|y1 [|y2 [|y3 [|y4 [|]]]]]; try discriminate Ly. repeat split.
Qed.
Lemma pictured_8E : pictured [0x8E] cvm_list_picture.
Proof.
  intros d Hb. split.
  - intros v H. inversion H as [| |x y rules vs Lx Ly R| | | | | | | | | | | |]; subst. unfold cvm_list_picture.
    assert (Ev : Nat.even (List.length rules) = true) by (clear -R; induction R; [reflexivity|cbn; assumption]).
    apply Nat.even_spec in Ev. destruct Ev as [k Ek].
    assert (L : len (x ++ y ++ rules) = 8 + 2 * N.of_nat k) by (unfold len; rewrite !app_length; lia). rewrite L.
    assert (C : (8 <=? 8 + 2 * N.of_nat k) && ((8 + 2 * N.of_nat k) mod 2 =? 0) = true) by lia. rewrite C.
    destruct (skip_4_4 x y rules Lx Ly) as (-> & -> & ->). eexists. split; [reflexivity|].
    unfold bytes_ok in Hb. rewrite !Forall_app in Hb. destruct Hb as (_ & _ & Hr). destruct (rules_drawn rules vs R Hr) as [D1 D2].
    intros i show. cbn [value_lines]. unfold cvm_list_lines. cbn [cl_x cl_y cl_rules]. rewrite D1, D2. unfold amounts_picture.
    destruct (be_value x =? 0), (be_value y =? 0), (mentions_amount rules); reflexivity.
  - intros q H. unfold cvm_list_picture in H. destruct ((8 <=? len d) && (len d mod 2 =? 0)) eqn:C; [|discriminate].
    apply andb_true_iff in C. destruct C as [C1 C2]. assert (X : exists k, len d = 8 + 2 * k) by (exists ((len d - 8) / 2); lia).
    apply C48_accepted_iff in X. destruct X as [l X]. apply C48_cvm_list in X. destruct X as (x & y & rest & -> & Lx & Ly & Ex & Ey & R).
    destruct l as [lx ly lr]. cbn [cl_x cl_y cl_rules] in *. subst. eexists. now constructor; [| |eassumption].
Qed.
Lemma bits_7 a : (if N.testbit a 6 then 64 else 0) = 64 * bits_of a 7 7.
Proof. unfold bits_of. change (2 ^ (7 - 7 + 1)) with 2. change (7 - 1) with 6. rewrite N.testbit_eqb. destruct (N.eqb_spec ((a / 2 ^ 6) mod 2) 1); [|assert ((a / 2 ^ 6) mod 2 < 2) by (apply N.mod_lt; discriminate)]; lia. Qed.
Lemma pictured_9F34 : pictured [0x9F; 0x34] cvm_results_picture.
Proof.
  intros d Hb. split.
  - intros v H. inversion H as [| | | | | | | | | | |a b c rule x V [s L]| | |]; subst. unfold cvm_results_picture.
    rewrite (find_code_complete cvm_result_codes c x s ltac:(vm_compute; reflexivity) L). cbn [option_map snd]. eexists. split; [reflexivity|].
    pose proof Hb as Hb'. apply bytes_ok_cons in Hb'. destruct Hb' as [Ba Hb']. apply bytes_ok_cons in Hb'. destruct Hb' as [Bb _].
    assert (P : cv_rule_try_from [a; b] = Ok rule) by (apply (bf_parse_ok cv_rule_schema cv_rule_bits cv_rule_used cv_rule_matches); exact V).
    intros i show. cbn [value_lines]. f_equal.
    + unfold cvm_results_repr. cbn [cr_rule cr_result]. f_equal.
      * destruct (C46_rule_representation a b rule Ba Bb P) as (m & k & -> & M1 & M2 & C1 & C2). unfold rule_bits, known_bits.
        rewrite bits_7. assert (B6 : bits_of a 6 1 = a mod 64) by (unfold bits_of; change (2 ^ (1 - 1)) with 1; change (2 ^ (6 - 1 + 1)) with 64; now rewrite N.div_1_r). rewrite B6.
        assert (Km : known_method (a mod 64) <-> exists y, find_code cv_method_codes (a mod 64) = Some y) by (apply find_known; reflexivity).
        assert (Kc : known_condition b <-> exists y, find_code cvm_condition_codes b = Some y) by (apply find_known; reflexivity).
        f_equal; [f_equal|f_equal].
        -- destruct (find_code cv_method_codes (a mod 64)) as [y|]; [apply M1, Km; eauto|apply M2; rewrite Km; intros [y Y]; discriminate].
        -- destruct (find_code cvm_condition_codes b) as [y|]; [apply C1, Kc; eauto|apply C2; rewrite Kc; intros [y Y]; discriminate].
      * f_equal. cbn in L. repeat (destruct L as [L|L]; [injection L as <- <- <-; reflexivity|]). destruct L.
    + unfold cvm_result_ranges. cbn [cr_rule cr_result].
      rewrite (C44_ranges cv_rule_try_from cv_rule_schema 2 cv_rule_bits cv_rule_used [a; b] rule) by (exact P || (apply in_or_app; right; left; reflexivity)). f_equal.
      cbn in L. repeat (destruct L as [L|L]; [injection L as <- <- <-; reflexivity|]). destruct L.
  - intros q H. unfold cvm_results_picture in H. destruct d as [|a [|b [|c [|]]]]; try discriminate. destruct (find_code cvm_result_codes c) as [[x s]|] eqn:F; [|discriminate].
    destruct (C46_rule_accepts_every_pair a b) as [rule P]. apply (bf_parse_ok cv_rule_schema cv_rule_bits cv_rule_used cv_rule_matches) in P.
    eexists. apply value_9F34; [exact P|]. exists s. apply find_code_in. exact F.
Qed.

(** ** Issuer application data *)

Lemma iad_cut cci dki cvr counters dd d : iad_layout d cci dki cvr counters dd ->
  len d = 32 /\ nth 0 d 0 = 0x0F /\ nth 16 d 0 = 0x0F /\ nth 1 d 0 = cci /\ nth 2 d 0 = dki
  /\ firstn 5 (skipn 3 d) = cvr /\ firstn 8 (skipn 8 d) = counters /\ skipn 17 d = dd.
Proof.
  intros (-> & L1 & L2 & L3). destruct cvr as [|v1 [|v2 [|v3 [|v4 [|v5 [|]]]]]]; try discriminate L1.
  destruct counters as [|c1 [|c2 [|c3 [|c4 [|c5 [|c6 [|c7 [|c8 [|]]]]]]]]]; try discriminate L2.
  split; [unfold len; cbn [List.length app]; lia|]. repeat split.
Qed.
Lemma iad_glue d : len d = 32 -> nth 0 d 0 = 0x0F -> nth 16 d 0 = 0x0F ->
  iad_layout d (nth 1 d 0) (nth 2 d 0) (firstn 5 (skipn 3 d)) (firstn 8 (skipn 8 d)) (skipn 17 d).
Proof.
  intros L H0 H16. do 32 (destruct d as [|? d]; [unfold len in L; cbn in L; discriminate L|]). destruct d; [|unfold len in L; cbn [List.length] in L; lia].
  cbn in H0, H16. subst. repeat split.
Qed.
Lemma cci_code b v : is_byte b -> bits_value 1 cci_bits [b] v -> b = 0xA5 \/ b = 0xA6.
Proof. intros B V. apply (C40_cci b B). exists v. apply (bf_parse_ok cci_schema cci_bits cci_used cci_matches). exact V. Qed.
Lemma pictured_9F10 : pictured [0x9F; 0x10] iad_picture.
Proof.
  intros d Hb. split.
  - intros v H. inversion H as [| | | | | | | | |d' cci dki cvr counters rest vcci vcvr Lay V1 V2| | | | |]; subst.
    assert (Bc : is_byte cci). { destruct Lay as [-> _]. apply bytes_ok_cons in Hb. destruct Hb as [_ Hb]. now apply bytes_ok_cons in Hb. }
    assert (Bd : is_byte dki). { destruct Lay as [-> _]. apply bytes_ok_cons in Hb. destruct Hb as [_ Hb]. apply bytes_ok_cons in Hb. destruct Hb as [_ Hb]. now apply bytes_ok_cons in Hb. }
    destruct (iad_cut _ _ _ _ _ _ Lay) as (L & E0 & E16 & E1 & E2 & E3 & E4 & E5). unfold iad_picture. rewrite L, E0, E16, E1, E2, E3, E4, E5.
    assert (C : (cci =? 0xA5) || (cci =? 0xA6) = true) by (destruct (cci_code cci vcci Bc V1) as [-> | ->]; reflexivity). rewrite C.
    change ((32 =? 32) && (0x0F =? 0x0F) && (0x0F =? 0x0F) && true) with true. eexists. split; [reflexivity|]. intros i show. cbn [value_lines]. unfold iad_lines.
    cbn [iad_cci iad_dki iad_cvr iad_counters iad_discretionary].
    rewrite (bits_diagram_eq cci_try_from cci_schema 1 cci_bits cci_used [cci] vcci) by (in_bit_values || assumption).
    rewrite (bits_diagram_eq cvr_try_from cvr_schema 5 cvr_bits cvr_used cvr vcvr) by (in_bit_values || assumption).
    assert (K : keep_bits [cci] cci_used = [cci]).
    { unfold cci_used. cbn [keep_bits]. f_equal. change 0xFF with (N.ones 8). rewrite N.land_ones. apply N.mod_small. exact Bc. }
    now rewrite K.
  - intros q H. unfold iad_picture in H. destruct ((len d =? 32) && _ && _ && _) eqn:C; [|discriminate]. clear H. rewrite !andb_true_iff, orb_true_iff, !N.eqb_eq in C.
    destruct C as (((L & C0) & C16) & C1). pose proof (iad_glue d L C0 C16) as Lay.
    destruct (C49_iad_accepted_iff d Hb) as [_ X]. destruct X as [v X]; [do 5 eexists; split; [exact Lay|exact C1]|].
    destruct (exact_9F10 d Hb) as (X1 & _). exists (ValIad v). apply X1. now rewrite X.
Qed.

(** ** Service codes *)

Lemma service_drawn n sc : n <= 999 -> service_code_of n (n / 100) (n / 10 mod 10) (n mod 10) sc -> draws (service_picture n) (ValServiceCode sc).
Proof.
  intros Hn (E & I1 & I2 & I3) i show. cbn [value_lines]. unfold service_code_lines, service_picture. rewrite E.
  assert (T1 : forall k x, In (k, x) service_digit_1 -> interchange_text (fst x) = of_digit interchange_words k /\ technology_text (snd x) = of_digit technology_words k).
  { intros k x H. cbn in H. repeat (destruct H as [H|H]; [injection H as <- <-; split; reflexivity|]). destruct H. }
  assert (T2 : forall k x, In (k, x) service_digit_2 -> authorisation_processing_text x = of_digit authorisation_words k).
  { intros k x H. cbn in H. repeat (destruct H as [H|H]; [injection H as <- <-; reflexivity|]). destruct H. }
  assert (T3 : forall k x, In (k, x) service_digit_3 -> allowed_services_text (fst x) = of_digit services_words k /\ pin_requirements_text (snd x) = of_digit pin_words k).
  { intros k x H. cbn in H. repeat (destruct H as [H|H]; [injection H as <- <-; split; reflexivity|]). destruct H. }
  destruct (T1 _ _ I1) as [A1 A2]. pose proof (T2 _ _ I2) as A3. destruct (T3 _ _ I3) as [A4 A5]. cbn [fst snd] in *. now rewrite A1, A2, A3, A4, A5.
Qed.
Lemma pictured_5F30 : pictured [0x5F; 0x30] service_data_picture.
Proof.
  intros d Hb. split.
  - intros v H. inversion H as [d' d1 d2 d3 sc (-> & H1 & H2 & H3) S| | | | | | | | | | | | | |]; subst. unfold service_data_picture.
    assert (E2 : (16 * d2 + d3) / 16 = d2) by lia. assert (E3 : (16 * d2 + d3) mod 16 = d3) by lia. rewrite E2, E3.
    assert (C : (d1 <? 10) && (d2 <? 10) && (d3 <? 10) = true) by lia. rewrite C. eexists. split; [reflexivity|].
    apply service_drawn; [lia|]. assert (F1 : (100 * d1 + 10 * d2 + d3) / 100 = d1) by lia. assert (F2 : (100 * d1 + 10 * d2 + d3) / 10 mod 10 = d2) by lia.
    assert (F3 : (100 * d1 + 10 * d2 + d3) mod 10 = d3) by lia. now rewrite F1, F2, F3.
  - intros q H. unfold service_data_picture in H. destruct d as [|a [|b [|]]]; try discriminate. destruct ((a <? 10) && (b / 16 <? 10) && (b mod 16 <? 10)) eqn:C; [|discriminate].
    destruct (all_service_codes (100 * a + 10 * (b / 16) + b mod 16)) as [sc S]; [lia|]. exists (ValServiceCode sc). apply (value_5F30 _ a (b / 16) (b mod 16)).
    + split; [f_equal; f_equal; lia|lia].
    + apply (service_code_of_iff _ a (b / 16) (b mod 16)); [reflexivity|lia|lia|lia|exact S].
Qed.

(** ** Tags *)

Lemma lookup_in {A} (table : list (list N * A)) t x : lookup table t = Some x -> In (t, x) table.
Proof.
  unfold lookup. destruct (find _ table) as [[t' y]|] eqn:F; [|discriminate]. intros E. injection E as <-. apply find_some in F. destruct F as [I S].
  cbn [fst] in S. apply same_bytes_eq in S. now subst.
Qed.
Lemma pictures_ok t f : In (t, f) pictures -> pictured t f.
Proof.
  unfold pictures. cbn [In]. intros H. repeat (destruct H as [H|H]; [injection H as <- <-|]); [..|destruct H].
  - exact pictured_5F30. - exact pictured_8A. - exact pictured_8E. - exact pictured_95. - exact pictured_9B. - exact pictured_9C.
  - exact pictured_9F0D. - exact pictured_9F0E. - exact pictured_9F0F. - exact pictured_9F10. - exact pictured_9F33. - exact pictured_9F34.
  - exact pictured_9F35. - exact pictured_9F39. - exact pictured_9F40.
Qed.
Lemma picture_value t d v : bytes_ok d -> value_of t d v -> exists q, picture_of t d = Some q /\ draws q v.
Proof.
  intros Hb V. assert (L : exists f, lookup pictures t = Some f) by (destruct V; eexists; reflexivity). destruct L as [f L].
  unfold picture_of. rewrite L. apply lookup_in, pictures_ok in L. now apply (proj1 (L d Hb)).
Qed.
Lemma picture_has t d q : bytes_ok d -> picture_of t d = Some q -> exists v, value_of t d v.
Proof.
  unfold picture_of. destruct (lookup pictures t) as [f|] eqn:L; [|discriminate]. intros Hb H. apply lookup_in, pictures_ok in L. now apply (proj2 (L d Hb) q).
Qed.
Lemma picture_interpreted t d q : picture_of t d = Some q -> In t interpreted_tags.
Proof.
  unfold picture_of. destruct (lookup pictures t) as [f|] eqn:L; [|discriminate]. intros _. apply lookup_in in L. unfold pictures in L. cbn [In] in L.
  unfold interpreted_tags. cbn [In]. repeat (destruct L as [L|L]; [injection L as <- _; tauto|]). destruct L.
Qed.
Lemma unrecognised_interpreted t x : lookup unrecognised_names t = Some x -> In t interpreted_tags.
Proof.
  intros L. apply lookup_in in L. unfold unrecognised_names in L. cbn [In] in L. unfold interpreted_tags. cbn [In].
  repeat (destruct L as [L|L]; [injection L as <- _; tauto|]). destruct L.
Qed.
Lemma interpreted_known t : In t interpreted_tags -> ~ unknown_tag t.
Proof.
  intros H U. apply identify_none in U. revert U. unfold interpreted_tags in H. cbn [In] in H.
  repeat (destruct H as [H|H]; [subst t; vm_compute; discriminate|]). destruct H.
Qed.
Lemma name_known t s : known_name t s -> name_of t = s.
Proof.
  intros K. unfold name_of. pose proof K as K0. destruct K as (n & x & I & -> & ->).
  destruct (find (fun r => same_bytes (number_tag (fst r)) (number_tag n)) emv_tag_names) as [[n' x']|] eqn:F.
  - apply find_some in F. destruct F as [I' F]. cbn [fst] in F. apply same_bytes_eq in F.
    assert (K' : known_name (number_tag n) (lit x')) by (exists n', x'; rewrite F; auto).
    apply identify_iff in K0, K'. congruence.
  - exfalso. pose proof (find_none _ _ F _ I) as X. cbn [fst] in X. rewrite same_bytes_refl in X. discriminate.
Qed.
Lemma name_unknown t : unknown_tag t -> name_of t = lit "<Unknown>".
Proof.
  intros U. unfold name_of. destruct (find _ emv_tag_names) as [[n' x']|] eqn:F; [|reflexivity].
  apply find_some in F. destruct F as [I' F]. cbn [fst] in F. apply same_bytes_eq in F. exfalso. apply (U (lit x')). exists n', x'. auto.
Qed.
Lemma processed_det t a b : data_ok t -> processed t a -> processed t b -> a = b.
Proof. intros D A B. apply C35_processed_form in A, B; try assumption. congruence. Qed.
Lemma no_picture_uninterpreted t d : ~ In t interpreted_tags -> picture_of t d = None.
Proof. intros H. destruct (picture_of t d) as [q|] eqn:P; [|reflexivity]. apply picture_interpreted in P. contradiction. Qed.
Lemma no_unrecognised_uninterpreted t : ~ In t interpreted_tags -> lookup unrecognised_names t = None.
Proof. intros H. destruct (lookup unrecognised_names t) as [q|] eqn:P; [|reflexivity]. apply unrecognised_interpreted in P. contradiction. Qed.

Lemma processed_lines t pt i show : data_ok t -> processed t pt -> ptag_lines pt i show = tag_lines t i show.
Proof.
  intros D P. pose proof P as P0. unfold tag_lines, tag_title, meaning_lines. destruct P as [U|s K O|s d v K E V|s d E T]; cbn [ptag_lines].
  - assert (NI : ~ In (rt_tag t) interpreted_tags) by (intros I; now apply interpreted_known in I).
    rewrite (name_unknown _ U). destruct (rt_data t) as [d|]; [|now rewrite app_nil_r].
    rewrite (no_picture_uninterpreted _ d NI), (no_unrecognised_uninterpreted _ NI). now rewrite app_nil_r.
  - rewrite (name_known _ _ K). destruct (rt_data t) as [d|] eqn:E; [|now rewrite app_nil_r]. destruct O as [O|NI]; [discriminate|].
    rewrite (no_picture_uninterpreted _ d NI), (no_unrecognised_uninterpreted _ NI). now rewrite app_nil_r.
  - rewrite E. unfold data_ok in D. rewrite E in D. destruct (picture_value _ d v D V) as (q & -> & Q). rewrite (name_known _ _ K).
    f_equal. f_equal. f_equal. apply Q.
  - rewrite E. destruct (picture_of (rt_tag t) d) as [q|] eqn:Q.
    + exfalso. unfold data_ok in D. rewrite E in D. apply picture_has in Q; [|assumption]. destruct Q as [v V].
      assert (X : exists s', known_name (rt_tag t) s').
      { destruct (identify_tag (rt_tag t)) as [s'|] eqn:I; [exists s'; now apply identify_iff|]. apply identify_none in I. exfalso.
        assert (IN : In (rt_tag t) interpreted_tags) by (clear -V; destruct V; cbn; tauto). now apply interpreted_known in IN. }
      destruct X as [s' K]. assert (B : processed t (PParsed s' v t)) by (eapply processed_parsed; eassumption).
      assert (Dt : data_ok t) by (unfold data_ok; now rewrite E). pose proof (processed_det t _ _ Dt P0 B) as X. discriminate X.
    + assert (L : lookup unrecognised_names (rt_tag t) = Some s) by (inversion T; subst; reflexivity). rewrite L. now rewrite app_nil_r.
Qed.

(** ** Trees *)

Definition sound (pt : ptag) : Prop := processed (raw_of pt) pt /\ data_ok (raw_of pt).
Lemma Forall_flat_map {A B} (P : B -> Prop) (f : A -> list B) l : Forall P (flat_map f l) <-> Forall (fun x => Forall P (f x)) l.
Proof. induction l as [|x l IH]; cbn [flat_map]; [split; constructor|]. rewrite Forall_app, Forall_cons_iff, IH. reflexivity. Qed.

Lemma node_drawn show n : Forall sound (all_ptags n) -> forall i, node_lines show n i = tree_lines show (strip n) i.
Proof.
  induction n as [t c IH] using pnode_tree_ind. cbn [all_ptags]. intros H i. inversion H as [|? ? [P D] Hc]; subst. cbn [node_lines strip tree_lines].
  rewrite (processed_lines (raw_of t) t i show D P). f_equal. apply Forall_flat_map in Hc.
  assert (E : map (fun n => node_lines show n (i + 1)) c = map (fun n => tree_lines show n (i + 1)) (map strip c)).
  { rewrite map_map. apply map_ext_in. intros x Hx. rewrite Forall_forall in IH, Hc. apply IH; [assumption|]. now apply Hc. }
  rewrite E. now destruct c.
Qed.
Lemma block_drawn show l i : Forall sound (flat_map all_ptags l) -> block_lines l i show = forest_lines (map strip l) i show.
Proof.
  intros H. unfold block_lines, forest_lines. rewrite map_map. f_equal. apply map_ext_in. intros n Hn. apply node_drawn.
  apply Forall_flat_map in H. rewrite Forall_forall in H. now apply H.
Qed.
Scheme processed_node_mind := Induction for processed_node Sort Prop
  with processed_forest_mind := Induction for processed_forest Sort Prop.
Lemma processed_raw t pt : processed t pt -> raw_of pt = t.
Proof. intros H. now destruct H. Qed.
Lemma processed_sound ns r : processed_forest ns r -> forest_data_ok ns -> Forall sound (flat_map all_ptags r) /\ map strip r = ns.
Proof.
  unfold forest_data_ok.
  apply (processed_forest_mind (fun n pn _ => Forall data_ok (preorder n) -> Forall sound (all_ptags pn) /\ strip pn = n)
    (fun ns r _ => Forall data_ok (flat_map preorder ns) -> Forall sound (flat_map all_ptags r) /\ map strip r = ns)); clear.
  - intros t pt c pc P F IH H. cbn [preorder] in H. inversion H as [|? ? Ht Hc]; subst. destruct (IH Hc) as [I1 I2]. cbn [all_ptags strip].
    pose proof (processed_raw t pt P) as R. split; [|now rewrite R, I2]. constructor; [|assumption]. unfold sound. now rewrite R.
  - intros _. split; [constructor|reflexivity].
  - intros n pn l pl Pn IHn Pl IHl H. cbn [flat_map] in H. apply Forall_app in H. destruct H as [H1 H2]. destruct (IHn H1) as [A1 A2], (IHl H2) as [B1 B2].
    cbn [flat_map map]. split; [now apply Forall_app|congruence].
Qed.

(** ** Sorting *)

Lemma filter_map_swap {A B} (f : A -> B) (p : B -> bool) (q : A -> bool) l : (forall x, p (f x) = q x) -> filter p (map f l) = map f (filter q l).
Proof. intros H. induction l as [|x l IH]; [reflexivity|]. cbn [map filter]. rewrite H. destruct (q x); cbn [map]; now rewrite IH. Qed.
Lemma sorted_map {A B} (f : A -> B) (R : A -> A -> Prop) (S : B -> B -> Prop) l : (forall x y, R x y -> S (f x) (f y)) ->
  StronglySorted R l -> StronglySorted S (map f l).
Proof.
  intros H. induction 1 as [|x l HS IH HF]; [constructor|]. cbn [map]. constructor; [assumption|]. apply Forall_map. revert HF. apply Forall_impl. intros y. apply H.
Qed.
Lemma same_bytes_dec a b : same_bytes a b = if list_eq_dec N.eq_dec a b then true else false.
Proof.
  destruct (list_eq_dec N.eq_dec a b) as [E|E]; [now apply same_bytes_eq|]. destruct (same_bytes a b) eqn:S; [|reflexivity]. apply same_bytes_eq in S. contradiction.
Qed.
Lemma strip_bytes n : node_tag_bytes (strip n) = tag_bytes n.
Proof. now destruct n. Qed.
Lemma arranged_strip r r' : arranged r r' -> in_order (map strip r) (map strip r').
Proof.
  apply (arranged_ind2 (fun l l' _ => in_order (map strip l) (map strip l')) (fun m l' _ => each_in_order (map strip m) (map strip l'))); clear.
  - intros l m l' P S F E IH. apply in_order_intro with (map strip m); [now apply Permutation_map| | |exact IH].
    + revert S. apply sorted_map. intros x y. unfold tag_le, node_le. now rewrite !strip_bytes.
    + intros t. unfold tagged. rewrite !(filter_map_swap strip _ (fun n => if list_eq_dec N.eq_dec (tag_bytes n) t then true else false)) by (intros x; rewrite strip_bytes; apply same_bytes_dec).
      f_equal. apply F.
  - constructor.
  - intros t c c' m l' A IHa E IHe. cbn [map strip]. now constructor.
Qed.

Scheme in_order_ind2 := Induction for in_order Sort Prop
  with each_in_order_ind2 := Induction for each_in_order Sort Prop.
Definition conv_tag (t : raw_tag) : ptag := match process_emv_tag t with Ok pt => pt | _ => PRaw t end.
Fixpoint conv (n : raw_node) : pnode := match n with RawNode t c => PNode (conv_tag t) (map conv c) end.
Lemma conv_raw t : raw_of (conv_tag t) = t.
Proof. unfold conv_tag. destruct (process_emv_tag t) as [pt| | |] eqn:P; try reflexivity. now apply process_emv_tag_raw. Qed.
Lemma conv_strip n : strip (conv n) = n.
Proof.
  induction n as [t c IH] using raw_tree_ind. cbn [conv strip]. rewrite conv_raw, map_map. f_equal. rewrite <- (map_id c) at 2. apply map_ext_in.
  rewrite Forall_forall in IH. exact IH.
Qed.
Lemma conv_bytes n : tag_bytes (conv n) = node_tag_bytes n.
Proof. now rewrite <- strip_bytes, conv_strip. Qed.
Lemma in_order_conv l l' : in_order l l' -> arranged (map conv l) (map conv l').
Proof.
  apply (in_order_ind2 (fun l l' _ => arranged (map conv l) (map conv l')) (fun m l' _ => each_arranged (map conv m) (map conv l'))); clear.
  - intros l m l' P S F E IH. apply arranged_intro with (map conv m); [now apply Permutation_map| | |exact IH].
    + revert S. apply sorted_map. intros x y. unfold tag_le, node_le. now rewrite !conv_bytes.
    + intros t. unfold with_tag. rewrite !(filter_map_swap conv _ (fun n => same_bytes (node_tag_bytes n) t)) by (intros x; rewrite conv_bytes; symmetry; apply same_bytes_dec).
      f_equal. apply F.
  - constructor.
  - intros t c c' m l' A IHa E IHe. cbn [map conv]. now constructor.
Qed.
Lemma conv_processed ns : forest_data_ok ns -> Forall (fun t => forall e, ~ tag_fails t e) (flat_map preorder ns) -> processed_forest ns (map conv ns).
Proof.
  intros D O. apply C33_processed_block; [assumption|]. unfold process_block, forest_data_ok in *.
  assert (N : forall n, Forall data_ok (preorder n) -> Forall (fun t => forall e, ~ tag_fails t e) (preorder n) -> process_node n = Ok (conv n)).
  { clear. intros n. induction n as [t c IH] using raw_tree_ind. cbn [preorder]. intros D O. inversion D as [|? ? Dt Dc]; subst. inversion O as [|? ? Ot Oc]; subst.
    rewrite process_node_eq. cbn [conv]. unfold conv_tag. destruct (proj2 (ok_iff_not_fails t Dt) Ot) as [pt P]. rewrite P. cbn [bind].
    assert (M : mapM process_node c = Ok (map conv c)); [|now rewrite M].
    apply Forall_flat_map in Dc, Oc. clear -IH Dc Oc. induction c as [|n c IHc]; [reflexivity|]. inversion IH; inversion Dc; inversion Oc; subst.
    rewrite mapM_cons. rewrite H1 by assumption. cbn [bind]. rewrite IHc by assumption. reflexivity. }
  apply Forall_flat_map in D, O. induction ns as [|n ns IH]; [reflexivity|]. inversion D; inversion O; subst. rewrite mapM_cons, N by assumption. cbn [bind].
  rewrite IH by assumption. reflexivity.
Qed.

(** ** Indentation *)

Lemma deepest_cons l ls : deepest (l :: ls) = N.max (l_tabs l) (deepest ls).
Proof. reflexivity. Qed.
Lemma deepest_app a b : deepest (a ++ b) = N.max (deepest a) (deepest b).
Proof. induction a as [|x a IH]; [symmetry; apply N.max_0_l|]. cbn [app]. rewrite !deepest_cons, IH. lia. Qed.
Lemma deepest_rows {A} i (f : A -> line) l : (forall x, l_tabs (f x) = i) -> deepest (map f l) = match l with [] => 0 | _ => i end.
Proof.
  intros H. induction l as [|x l IH]; [reflexivity|]. cbn [map]. rewrite deepest_cons, H, IH. destruct l; lia.
Qed.
Lemma deepest_diagram n raw rs i show : deepest (diagram n raw rs i show) = i.
Proof.
  unfold diagram. rewrite deepest_cons, deepest_app, (deepest_rows i) by reflexivity. cbn [l_tabs bold_row].
  destruct (existsb _ rs), (rev rs); cbn [deepest map fold_right row l_tabs]; lia.
Qed.
Lemma deepest_rules i k rules : deepest (numbered_rules i k rules) = match rules with [] => 0 | _ => i + 1 end.
Proof.
  revert k. induction rules as [|r rules IH]; intros k; [reflexivity|]. cbn [numbered_rules]. rewrite deepest_app, IH. unfold rule_lines.
  rewrite !deepest_cons. cbn [l_tabs bold_row titled row]. change (deepest []) with 0. destruct rules; lia.
Qed.
Lemma deepest_hex i b d : deepest (hex_dump i (b :: d)) = i.
Proof.
  unfold hex_dump. rewrite (deepest_rows i) by reflexivity. destruct (chunks 16 (b :: d)) eqn:C; [|reflexivity]. exfalso. revert C. unfold chunks. cbn. discriminate.
Qed.
Lemma deepest_hex_le i d : deepest (hex_dump i d) <= i.
Proof. unfold hex_dump. rewrite (deepest_rows i) by reflexivity. destruct (chunks 16 d); lia. Qed.
Lemma deepest_wide i b d : deepest (wide_dump i (b :: d)) = i.
Proof.
  unfold wide_dump. rewrite (deepest_rows i) by reflexivity. destruct (chunks 16 (b :: d)) eqn:C; [|reflexivity]. exfalso. revert C. unfold chunks. cbn. discriminate.
Qed.
Lemma deepest_value v i show : deepest (value_lines v i show) = i + value_levels v.
Proof.
  destruct v as [x|x|x|x|x|x|x|x|x|x|x|x|x|x|x|x|x]; cbn [value_lines value_levels]; rewrite ?N.add_0_r;
    try (unfold bits_diagram; apply deepest_diagram); try apply deepest_diagram;
    try (unfold iac_lines, bits_diagram; rewrite deepest_cons, deepest_diagram; cbn [l_tabs heading_row]; lia);
    try (cbn [deepest map fold_right row l_tabs service_code_lines tag_info_lines bold_row titled]; lia).
  - unfold cvm_list_lines. rewrite deepest_app, deepest_cons, deepest_rules. cbn [l_tabs heading_row].
    destruct (_ || _); destruct (cl_rules x); cbn [deepest map fold_right titled row l_tabs]; lia.
  - unfold iad_lines. rewrite !deepest_cons, !deepest_app, !deepest_cons, !deepest_app, !deepest_cons, !deepest_app, !deepest_cons. unfold bits_diagram. rewrite !deepest_diagram. cbn [l_tabs heading_row titled row].
    pose proof (deepest_hex_le (i + 1) (iad_counters x)). pose proof (deepest_hex_le (i + 1) (iad_discretionary x)). lia.
Qed.
Lemma deepest_ptag t i show : deepest (ptag_lines t i show) = i + ptag_levels t.
Proof.
  assert (D : forall r, N.max i (deepest (data_lines i r)) = i + match rt_data r with Normal (_ :: _) => 1 | _ => 0 end).
  { intros r. unfold data_lines. destruct (rt_data r) as [[|b d]|]; [cbn; lia| |cbn; lia]. rewrite deepest_cons, deepest_wide. cbn [l_tabs heading_row]. lia. }
  destruct t as [r|s r|s v r]; cbn [ptag_lines ptag_levels]; rewrite deepest_cons; cbn [l_tabs tag_row row]; try apply D.
  rewrite deepest_app, deepest_cons, deepest_value. cbn [l_tabs heading_row]. specialize (D r). destruct (rt_data r) as [[|b d]|]; lia.
Qed.
Lemma deepest_separated l : deepest (separated l) = fold_right N.max 0 (map deepest l).
Proof.
  induction l as [|x [|y l] IH]; [reflexivity|cbn [separated map fold_right]; lia|].
  change (separated (x :: y :: l)) with (x ++ blank :: separated (y :: l)). rewrite deepest_app, deepest_cons, IH. cbn [l_tabs blank map fold_right]. lia.
Qed.
Lemma deepest_node show n : forall i, deepest (node_lines show n i) = i + node_levels n.
Proof.
  induction n as [t c IH] using pnode_tree_ind. intros i. cbn [node_lines node_levels]. rewrite deepest_app, deepest_ptag. destruct c as [|x c]; [change (deepest []) with 0; lia|].
  rewrite deepest_cons, deepest_separated. cbn [l_tabs heading_row].
  assert (E : forall l, Forall (fun n => forall i, deepest (node_lines show n i) = i + node_levels n) l -> l <> [] ->
     fold_right N.max 0 (map deepest (map (fun n => node_lines show n (i + 1)) l)) = i + 1 + fold_right N.max 0 (map node_levels l)).
  { clear. induction 1 as [|n l Hn Hl IHl]; [contradiction|]. intros _. cbn [map fold_right]. rewrite Hn. destruct l as [|m l]; [cbn; lia|]. rewrite IHl by discriminate. lia. }
  rewrite E by (assumption || discriminate). lia.
Qed.
Lemma deepest_block l show : deepest (block_lines l 0 show) = block_levels l.
Proof.
  unfold block_lines, block_levels. rewrite deepest_separated, map_map. f_equal. apply map_ext. intros n. rewrite deepest_node. lia.
Qed.
Lemma deepest_format f : deepest (format_lines f) = 0.
Proof. destruct f as [[|]|]; reflexivity. Qed.
