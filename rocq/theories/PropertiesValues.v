(** Final theorems for the value parsers: C40-C53. *)

From Coq Require Import ZArith NArith List String Ascii Bool Lia ZifyN ZifyBool ZifyNat.
From Verif Require Import Base ModelUtil ModelEnums ModelBitflag ModelSchemas ModelValues SpecUtil
  SpecCodes SpecValues ProofsUtil ProofsBer ProofsValues.
Import ListNotations.
Local Open Scope N_scope.

(* Every parser of a bit field value: parser, declaration used for display and
   serialisation, byte count, EMV table, used bits. *)
Definition bit_values : list ((list N -> res (list fval)) * schema * N * list bit_field * list N) := [
  (tvr_try_from, tvr_schema, 5, tvr_bits, tvr_used);
  (iac_default_try_from, tvr_schema, 5, tvr_bits, tvr_used);
  (iac_denial_try_from, tvr_schema, 5, tvr_bits, tvr_used);
  (iac_online_try_from, tvr_schema, 5, tvr_bits, tvr_used);
  (tsi_try_from, tsi_schema, 2, tsi_bits, tsi_used);
  (termcap_try_from, termcap_schema, 3, termcap_bits, termcap_used);
  (addtermcap_try_from, addtermcap_schema, 5, addtermcap_bits, addtermcap_used);
  (cvr_try_from, cvr_schema, 5, cvr_bits, cvr_used);
  (cci_try_from, cci_schema, 1, cci_bits, cci_used)].
(* With the CV rule, which does not keep unknown codes. *)
Definition all_bit_values := bit_values ++ [(cv_rule_try_from, cv_rule_schema, 2, cv_rule_bits, cv_rule_used)].

Lemma all_bit_values_ok parse sch n t m : In (parse, sch, n, t, m) all_bit_values ->
  (forall raw, parse raw = bf_try_from sch raw) /\ s_count sch = n /\ schema_matches sch t m = true.
Proof.
  intros H. unfold all_bit_values, bit_values in H. cbn [app In] in H.
  repeat (destruct H as [H|H];
    [injection H as <- <- <- <- <-; split; [reflexivity|split; [reflexivity|vm_compute; reflexivity]]|]).
  destruct H.
Qed.
Lemma bit_values_all x : In x bit_values -> In x all_bit_values.
Proof. intros H. apply in_or_app. now left. Qed.
Lemma bit_values_lossless parse sch n t m : In (parse, sch, n, t, m) bit_values ->
  forallb (fun e => lossless (e_kind e)) t = true.
Proof.
  intros H. unfold bit_values in H. cbn [In] in H.
  repeat (destruct H as [H|H]; [injection H as <- <- <- <- <-; vm_compute; reflexivity|]). destruct H.
Qed.

(** C40: length check. *)
Theorem C40_wrong_length : forall parse sch n t m raw, In (parse, sch, n, t, m) all_bit_values ->
  (parse raw = Err (ByteCountIncorrect Eq n (len raw)) <-> len raw <> n).
Proof.
  intros parse sch n t m raw H. destruct (all_bit_values_ok _ _ _ _ _ H) as (E & <- & M).
  rewrite E, (bf_parse sch t m M). destruct (N.eqb_spec (len raw) (s_count sch)) as [L|L]; [|tauto].
  split; [|tauto]. destruct (decode_all t raw); discriminate.
Qed.
Lemma cvm_results_masked b0 b1 b2 :
  cvm_results_try_from [b0; b1; b2]
  = (rule <- cv_rule_try_from [b0; b1];; result <- cvm_result_try_from (N.land b2 255);; Ok (mkCvmResults rule result)).
Proof.
  unfold cvm_results_try_from.
  change (negb (len [b0; b1; b2] =? cvm_results_num_bytes)) with false. cbn iota.
  change (mask_bytes [b0; b1; b2] cvm_results_mask) with (@Ok (list N) [N.land b0 127; N.land b1 255; N.land b2 255]). cbn [bind].
  change (slice [N.land b0 127; N.land b1 255; N.land b2 255] 0 2) with (@Ok (list N) (keep_bits [b0; b1] cv_rule_used)). cbn [bind].
  unfold cv_rule_try_from. rewrite (bf_parse_masked cv_rule_schema cv_rule_bits cv_rule_used cv_rule_matches [b0; b1] eq_refl).
  destruct (bf_try_from cv_rule_schema [b0; b1]); try reflexivity. 
Qed.
Theorem C40_cvm_results_wrong_length : forall raw,
  cvm_results_try_from raw = Err (ByteCountIncorrect Eq 3 (len raw)) <-> len raw <> 3.
Proof.
  intros raw. destruct (N.eq_dec (len raw) 3) as [L|L].
  - destruct raw as [|b0 [|b1 [|b2 [|b3 raw]]]]; try discriminate L; [|unfold len in L; cbn in L; lia].
    rewrite cvm_results_masked. split; [|tauto]. unfold cv_rule_try_from.
    rewrite (bf_parse cv_rule_schema cv_rule_bits cv_rule_used cv_rule_matches).
    change (len [b0; b1] =? s_count cv_rule_schema) with true. cbn iota.
    destruct (decode_all cv_rule_bits [b0; b1]); [|discriminate]. cbn [bind]. unfold cvm_result_try_from.
    destruct (N.land b2 255 =? 0); [discriminate|]. destruct (N.land b2 255 =? 1); [discriminate|].
    destruct (N.land b2 255 =? 2); discriminate.
  - unfold cvm_results_try_from, cvm_results_num_bytes. rewrite (proj2 (N.eqb_neq _ _) L). tauto.
Qed.

Definition total_kind (e : bit_field) : bool :=
  match e_kind e with
  | Flag | Number | Method | Condition => true
  | GenAc1 | GenAc2 => e_hi e - e_lo e + 1 =? 2
  | _ => false
  end.
Lemma total_value e raw : total_kind e = true -> exists v, field_value e raw = Some v.
Proof.
  unfold total_kind, field_value. intros H.
  assert (B : e_hi e - e_lo e + 1 = 2 -> field_bits e raw < 4).
  { intros E. unfold field_bits, bits_of. rewrite E. apply N.mod_upper_bound. discriminate. }
  destruct (e_kind e); try discriminate; cbn [decode]; try (eexists; reflexivity).
  - apply N.eqb_eq in H. specialize (B H). unfold coded. cbn [find_code gen_ac1_codes].
    assert (C : field_bits e raw = 0 \/ field_bits e raw = 1 \/ field_bits e raw = 2 \/ field_bits e raw = 3) by lia.
    destruct C as [->|[->|[->| ->]]]; eexists; reflexivity.
  - apply N.eqb_eq in H. specialize (B H). unfold coded. cbn [find_code gen_ac2_codes].
    assert (C : field_bits e raw = 0 \/ field_bits e raw = 1 \/ field_bits e raw = 2 \/ field_bits e raw = 3) by lia.
    destruct C as [->|[->|[->| ->]]]; eexists; reflexivity.
  - unfold optional. destruct (find_code _ _) as [[a s]|]; eexists; reflexivity.
  - unfold optional. destruct (find_code _ _) as [[a s]|]; eexists; reflexivity.
Qed.
Lemma total_decode t raw : forallb total_kind t = true -> exists vs, decode_all t raw = Some vs.
Proof.
  induction t as [|e t IH]; cbn [forallb decode_all]; [eauto|]. rewrite andb_true_iff. intros [H1 H2].
  destruct (total_value e raw H1) as [v ->]. destruct (IH H2) as [vs ->]. eauto.
Qed.

(* Everything but the CCI accepts every value of the right length. *)
Theorem C40_right_length_accepted : forall parse sch n t m raw, In (parse, sch, n, t, m) all_bit_values ->
  sch <> cci_schema -> len raw = n -> exists v, parse raw = Ok v.
Proof.
  intros parse sch n t m raw H Hc L. destruct (all_bit_values_ok _ _ _ _ _ H) as (E & En & M).
  assert (T : forallb total_kind t = true).
  { unfold all_bit_values, bit_values in H. cbn [app In] in H.
    repeat (destruct H as [H|H]; [injection H as <- <- <- <- <-; try (vm_compute; reflexivity); congruence|]). destruct H. }
  destruct (total_decode t raw T) as [vs D]. exists vs. rewrite E. apply (bf_parse_ok sch t m M). split; [congruence|assumption].
Qed.
Theorem C40_cci : forall b, is_byte b -> (exists v, cci_try_from [b] = Ok v) <-> b = 0xA5 \/ b = 0xA6.
Proof.
  intros b Hb. unfold cci_try_from.
  assert (E : (match bf_try_from cci_schema [b] with Ok _ => (b =? 0xA5) || (b =? 0xA6)
               | Err _ => negb ((b =? 0xA5) || (b =? 0xA6)) | _ => false end) = true).
  { apply (check_all_bytes (fun b => match bf_try_from cci_schema [b] with Ok _ => (b =? 0xA5) || (b =? 0xA6)
               | Err _ => negb ((b =? 0xA5) || (b =? 0xA6)) | _ => false end)); [vm_compute; reflexivity|exact Hb]. }
  destruct (bf_try_from cci_schema [b]) as [v|e| |]; try discriminate.
  - split; [intros _|eauto]. lia.
  - split; [intros [v X]; discriminate|]. lia.
Qed.

Example C40_example : In (tvr_try_from, tvr_schema, 5, tvr_bits, tvr_used) all_bit_values
  /\ len [1; 2; 3] <> 5 /\ tvr_schema <> cci_schema /\ len [1; 2; 3; 4; 5] = 5.
Proof. split; [left; reflexivity|]. repeat split; discriminate. Qed.

(** C41: parse then serialise. *)
Theorem C41_serialise_masks : forall parse sch n t m raw v, In (parse, sch, n, t, m) bit_values ->
  parse raw = Ok v -> bf_repr sch v = keep_bits raw m.
Proof.
  intros parse sch n t m raw v H P. destruct (all_bit_values_ok _ _ _ _ _ (bit_values_all _ H)) as (E & En & M).
  rewrite E in P. now apply (bf_repr_keep sch t m M raw v (bit_values_lossless _ _ _ _ _ H)).
Qed.
Example C41_example : exists v, tvr_try_from [0xFF; 0xFF; 0; 1; 0xF0] = Ok v
  /\ bf_repr tvr_schema v = [0xFC; 0xF8; 0; 0; 0xF0].
Proof. eexists. split; [vm_compute; reflexivity|reflexivity]. Qed.

(** C42: injective on the used bits. *)
Theorem C42_equal_iff_used_bits : forall parse sch n t m a b v w, In (parse, sch, n, t, m) bit_values ->
  parse a = Ok v -> parse b = Ok w -> (v = w <-> keep_bits a m = keep_bits b m).
Proof.
  intros parse sch n t m a b v w H Pa Pb. split.
  - intros <-. rewrite <- (C41_serialise_masks _ _ _ _ _ a v H Pa). now apply (C41_serialise_masks _ _ _ _ _ b v H).
  - intros K. destruct (all_bit_values_ok _ _ _ _ _ (bit_values_all _ H)) as (E & En & M). rewrite E in Pa, Pb.
    destruct (proj1 (bf_parse_ok sch t m M a v) Pa) as [La _]. destruct (proj1 (bf_parse_ok sch t m M b w) Pb) as [Lb _].
    rewrite <- (bf_parse_masked sch t m M a La) in Pa. rewrite <- (bf_parse_masked sch t m M b Lb) in Pb. congruence.
Qed.
Theorem C42_unused_bits_irrelevant : forall parse sch n t m a b, In (parse, sch, n, t, m) all_bit_values ->
  len a = n -> len b = n -> keep_bits a m = keep_bits b m -> parse a = parse b.
Proof.
  intros parse sch n t m a b H La Lb K. destruct (all_bit_values_ok _ _ _ _ _ H) as (E & En & M). rewrite !E. rewrite <- En in La, Lb.
  rewrite <- (bf_parse_masked sch t m M a La), <- (bf_parse_masked sch t m M b Lb). now rewrite K.
Qed.
Theorem C42_reparse : forall parse sch n t m raw v, In (parse, sch, n, t, m) bit_values ->
  parse raw = Ok v -> parse (bf_repr sch v) = Ok v.
Proof.
  intros parse sch n t m raw v H P. rewrite (C41_serialise_masks _ _ _ _ _ raw v H P).
  destruct (all_bit_values_ok _ _ _ _ _ (bit_values_all _ H)) as (E & En & M). rewrite E in *.
  rewrite (bf_parse_masked sch t m M); [assumption|]. now apply (bf_parse_ok sch t m M) in P.
Qed.
Example C42_example : keep_bits [0xFF; 0x12] tsi_used = keep_bits [0xFC; 0x34] tsi_used
  /\ tsi_try_from [0xFF; 0x12] = tsi_try_from [0xFC; 0x34] /\ tsi_try_from [0xFF; 0x12] <> tsi_try_from [0xF8; 0x12].
Proof. repeat split; vm_compute; try reflexivity. discriminate. Qed.

(** C43: the EMV tables. *)
Theorem C43_fields_are_the_table_fields : forall parse sch n t m, In (parse, sch, n, t, m) all_bit_values ->
  map f_name (schema_fields sch) = map e_name t.
Proof. intros parse sch n t m H. destruct (all_bit_values_ok _ _ _ _ _ H) as (_ & _ & M). now apply (field_names sch t m). Qed.
Theorem C43_field_values : forall parse sch n t m raw v e, In (parse, sch, n, t, m) all_bit_values ->
  parse raw = Ok v -> In e t -> get_field sch v (e_name e) = field_value e raw.
Proof.
  intros parse sch n t m raw v e H P Hin. destruct (all_bit_values_ok _ _ _ _ _ H) as (E & _ & M). rewrite E in P.
  now apply (get_field_value sch t m).
Qed.
Lemma bits_of_testbit b k : (bits_of b k k =? 1) = N.testbit b (k - 1).
Proof.
  unfold bits_of. rewrite N.sub_diag. change (2 ^ (0 + 1)) with 2.
  rewrite <- N.shiftr_div_pow2. replace (N.testbit b (k - 1)) with (N.testbit (N.shiftr b (k - 1)) 0)
    by (rewrite N.shiftr_spec', N.add_0_l; reflexivity).
  rewrite <- N.bit0_mod. now destruct (N.testbit (N.shiftr b (k - 1)) 0).
Qed.
(* For a flag: exactly the bit of that byte. *)
Theorem C43_flags : forall parse sch n t m raw v byte bit name sev label, In (parse, sch, n, t, m) all_bit_values ->
  parse raw = Ok v -> In (flag byte bit name sev label) t ->
  get_field sch v name = Some (VBool (N.testbit (nth (N.to_nat (byte - 1)) raw 0) (bit - 1))).
Proof.
  intros parse sch n t m raw v byte bit name sev label H P Hin.
  pose proof (C43_field_values _ _ _ _ _ raw v _ H P Hin) as E. cbn in E. rewrite E. unfold field_value. cbn.
  unfold field_bits. cbn. now rewrite bits_of_testbit.
Qed.
Example C43_example : In (flag 1 7 "sda_failed" SevError "SDA (Static Data Authentication) failed") tvr_bits
  /\ exists v, tvr_try_from [0x40; 0; 0; 0; 0] = Ok v /\ get_field tvr_schema v "sda_failed" = Some (VBool true)
               /\ get_field tvr_schema v "dda_failed" = Some (VBool false).
Proof. split; [right; left; reflexivity|]. eexists. split; [vm_compute; reflexivity|split; reflexivity]. Qed.

(** C44: display information. *)
Theorem C44_ranges : forall parse sch n t m raw v, In (parse, sch, n, t, m) all_bit_values ->
  parse raw = Ok v -> bf_ranges sch v = all_shown n t raw.
Proof.
  intros parse sch n t m raw v H P. destruct (all_bit_values_ok _ _ _ _ _ H) as (E & <- & M). rewrite E in P.
  now apply (bf_ranges_shown sch t m).
Qed.
Theorem C44_ranges_left_to_right : forall parse sch n t m raw v, In (parse, sch, n, t, m) all_bit_values ->
  parse raw = Ok v -> left_to_right (8 * n) (bf_ranges sch v).
Proof.
  intros parse sch n t m raw v H P. destruct (all_bit_values_ok _ _ _ _ _ H) as (E & <- & M). rewrite E in P.
  now apply (bf_ranges_ordered sch t m M raw).
Qed.
Example C44_example : exists v, tvr_try_from [0x80; 0; 0; 0; 0x10] = Ok v /\
  bf_ranges tvr_schema v = [mkRange 39 1 (lit "Offline data authentication was not performed") SevNormal;
                            mkRange 4 1 (lit "Script processing failed after final GENERATE AC") SevError].
Proof. eexists. split; [vm_compute; reflexivity|reflexivity]. Qed.

(** C45: severities. *)
Theorem C45_severity_declared : forall parse sch n t m raw v r, In (parse, sch, n, t, m) all_bit_values ->
  parse raw = Ok v -> In r (bf_ranges sch v) ->
  exists e, In e t /\ field_shown n e raw = [r] /\ r_sev r = e_sev e.
Proof.
  intros parse sch n t m raw v r H P Hin. rewrite (C44_ranges _ _ _ _ _ raw v H P) in Hin.
  unfold all_shown in Hin. apply in_flat_map in Hin. destruct Hin as (e & He & Hr). exists e. split; [assumption|].
  unfold field_shown in *.
  destruct (e_kind e); [destruct (field_bits e raw =? 1); [|destruct Hr]|..];
    try (destruct (decode _ (field_bits e raw)) as [[v' s]|]; [|destruct Hr]);
    (destruct Hr as [<-|[]]; split; reflexivity).
Qed.

Lemma cv_rule_severities raw v r : cv_rule_try_from raw = Ok v -> In r (bf_ranges cv_rule_schema v) -> r_sev r = SevNormal.
Proof.
  intros P Hin.
  assert (H : In (cv_rule_try_from, cv_rule_schema, 2, cv_rule_bits, cv_rule_used) all_bit_values)
    by (apply in_or_app; right; now left).
  destruct (C45_severity_declared _ _ _ _ _ raw v r H P Hin) as (e & He & _ & ->).
  cbn in He. repeat (destruct He as [<-|He]; [reflexivity|]). destruct He.
Qed.

(** CVM results: facts used by C45 and C47. *)
Lemma shift_ranges_ok p l : (forall r, In r l -> r_offset r + 8 < 256) ->
  shift_ranges p l = Ok (map (fun r => mkRange (r_offset r + 8) (r_len r) (r_text r) (r_sev r)) l).
Proof.
  induction l as [|r l IH]; intros H; [reflexivity|]. cbn [shift_ranges map].
  unfold u8_add, checked. rewrite (proj2 (N.ltb_lt _ _)) by (apply H; now left). cbn [bind].
  rewrite IH by (intros x Hx; apply H; now right). reflexivity.
Qed.
Lemma left_to_right_offset l : forall limit r, left_to_right limit l -> In r l -> r_offset r < limit.
Proof.
  induction l as [|x l IH]; intros limit r H; [intros []|]. cbn in H. destruct H as (H1 & H2 & H3 & H4).
  intros [->|Hin]; [assumption|]. specialize (IH _ _ H4 Hin). lia.
Qed.

Definition is_cvm_result (b : N) (x : cvm_result) : Prop := exists s, In (b, x, s) cvm_result_codes.

Lemma cvm_result_codes_ok b x : cvm_result_try_from b = Ok x <-> is_cvm_result b x.
Proof.
  unfold is_cvm_result, cvm_result_try_from. split.
  - destruct (N.eqb_spec b 0) as [->|]; [intros H; injection H as <-; eexists; left; reflexivity|].
    destruct (N.eqb_spec b 1) as [->|]; [intros H; injection H as <-; eexists; right; left; reflexivity|].
    destruct (N.eqb_spec b 2) as [->|]; [intros H; injection H as <-; eexists; right; right; left; reflexivity|discriminate].
  - intros [s H]. cbn in H. repeat (destruct H as [H|H]; [injection H as <- <- _; reflexivity|]). destruct H.
Qed.

Lemma land_255 b : is_byte b -> N.land b 255 = b.
Proof. intros H. change 255 with (N.ones 8). rewrite N.land_ones. apply N.mod_small. exact H. Qed.

Lemma cvm_results_three b0 b1 b2 : is_byte b0 -> is_byte b1 -> is_byte b2 ->
  cvm_results_try_from [b0; b1; b2]
  = (rule <- cv_rule_try_from [b0; b1];; result <- cvm_result_try_from b2;; Ok (mkCvmResults rule result)).
Proof.
  intros H0 H1 H2. now rewrite cvm_results_masked, land_255.
Qed.

Lemma cvm_results_iff raw r : bytes_ok raw ->
  (cvm_results_try_from raw = Ok r <->
   exists b0 b1 b2, raw = [b0; b1; b2] /\ cv_rule_try_from [b0; b1] = Ok (cr_rule r) /\ is_cvm_result b2 (cr_result r)).
Proof.
  intros Hb. split.
  - intros H. destruct (N.eq_dec (len raw) 3) as [L|L].
    2:{ apply C40_cvm_results_wrong_length in L. congruence. }
    destruct raw as [|b0 [|b1 [|b2 [|b3 raw]]]]; try discriminate L; [|unfold len in L; cbn in L; lia].
    exists b0, b1, b2. split; [reflexivity|]. apply bytes_ok_cons in Hb. destruct Hb as [B0 Hb].
    apply bytes_ok_cons in Hb. destruct Hb as [B1 Hb]. apply bytes_ok_cons in Hb. destruct Hb as [B2 _].
    rewrite cvm_results_three in H by assumption. destruct (cv_rule_try_from [b0; b1]) as [ru| | |]; try discriminate.
    cbn [bind] in H. destruct (cvm_result_try_from b2) as [x| | |] eqn:X; try discriminate. injection H as <-.
    split; [reflexivity|]. now apply cvm_result_codes_ok.
  - intros (b0 & b1 & b2 & -> & R & X). apply bytes_ok_cons in Hb. destruct Hb as [B0 Hb].
    apply bytes_ok_cons in Hb. destruct Hb as [B1 Hb]. apply bytes_ok_cons in Hb. destruct Hb as [B2 _].
    rewrite cvm_results_three by assumption. rewrite R. cbn [bind]. apply cvm_result_codes_ok in X. rewrite X. now destruct r.
Qed.

Lemma cvm_results_ranges_ok p raw r : bytes_ok raw -> cvm_results_try_from raw = Ok r ->
  cvm_results_ranges p r
  = Ok (map (fun x => mkRange (r_offset x + 8) (r_len x) (r_text x) (r_sev x)) (bf_ranges cv_rule_schema (cr_rule r))
        ++ [mkRange 7 8 (lit "Result: " ++ cvm_result_text (cr_result r))
                    (match cr_result r with CvmResult_Failed => SevError | _ => SevNormal end)]).
Proof.
  intros Hb H. apply cvm_results_iff in H; [|assumption]. destruct H as (b0 & b1 & b2 & -> & R & _).
  unfold cvm_results_ranges. rewrite shift_ranges_ok.
  - cbn [bind]. destruct (cr_result r); reflexivity.
  - intros x Hx. assert (O : left_to_right (8 * 2) (bf_ranges cv_rule_schema (cr_rule r))).
    { apply (bf_ranges_ordered cv_rule_schema cv_rule_bits cv_rule_used cv_rule_matches [b0; b1]). exact R. }
    pose proof (left_to_right_offset _ _ _ O Hx). lia.
Qed.

Theorem C45_cvm_results_severity : forall p raw r l, bytes_ok raw -> cvm_results_try_from raw = Ok r ->
  cvm_results_ranges p r = Ok l ->
  ((exists x, In x l /\ r_sev x = SevError) <-> cr_result r = CvmResult_Failed)
  /\ (forall x, In x l -> r_sev x <> SevWarning).
Proof.
  intros p raw r l Hb H E. rewrite (cvm_results_ranges_ok p raw r Hb H) in E. injection E as <-.
  apply cvm_results_iff in H; [|assumption]. destruct H as (b0 & b1 & b2 & -> & R & _).
  assert (S : forall x, In x (map (fun x => mkRange (r_offset x + 8) (r_len x) (r_text x) (r_sev x)) (bf_ranges cv_rule_schema (cr_rule r))) ->
              r_sev x = SevNormal).
  { intros x Hx. apply in_map_iff in Hx. destruct Hx as (y & <- & Hy). cbn. now apply (cv_rule_severities [b0; b1] (cr_rule r)). }
  split; [split|].
  - intros (x & Hx & Ex). apply in_app_or in Hx. destruct Hx as [Hx|[<-|[]]]; [rewrite (S x Hx) in Ex; discriminate|].
    destruct (cr_result r); try discriminate. reflexivity.
  - intros F. eexists. split; [apply in_or_app; right; left; reflexivity|]. rewrite F. reflexivity.
  - intros x Hx. apply in_app_or in Hx. destruct Hx as [Hx|[<-|[]]]; [rewrite (S x Hx); discriminate|].
    destruct (cr_result r); discriminate.
Qed.

Example C45_example : exists r l, cvm_results_try_from [0x41; 0x03; 0x01] = Ok r
  /\ cvm_results_ranges {| usize_bits := 64; overflow_checks := true |} r = Ok l /\ cr_result r = CvmResult_Failed
  /\ List.length l = 4%nat.
Proof. eexists. eexists. split; [vm_compute; reflexivity|]. split; [vm_compute; reflexivity|]. split; reflexivity. Qed.

(** C46: CV rules. *)
Definition known_method (c : N) : Prop := exists x s, In (c, x, s) cv_method_codes.
Definition known_condition (c : N) : Prop := exists x s, In (c, x, s) cvm_condition_codes.

Lemma find_known {A} (t : list (N * A * string)) c : distinct_codes t = true ->
  ((exists x s, In (c, x, s) t) <-> exists y, find_code t c = Some y).
Proof.
  intros D. split.
  - intros (x & s & H). exists (x, s). now apply find_code_complete.
  - intros [[x s] H]. exists x, s. now apply find_code_in.
Qed.

Definition rule_repr_check (b0 b1 : N) : bool :=
  match cv_rule_try_from [b0; b1] with
  | Ok v => leqb (bf_repr cv_rule_schema v)
              [(if N.testbit b0 6 then 64 else 0)
               + match find_code cv_method_codes (b0 mod 64) with Some _ => b0 mod 64 | None => 0 end;
               match find_code cvm_condition_codes b1 with Some _ => b1 | None => 0 end]
  | _ => false
  end.
Lemma rule_repr_checked b0 b1 : is_byte b0 -> is_byte b1 -> rule_repr_check b0 b1 = true.
Proof.
  intros H0 H1.
  assert (E : forallb (fun b0 => forallb (fun b1 => rule_repr_check b0 b1) all_bytes) all_bytes = true) by (vm_compute; reflexivity).
  pose proof (check_all_bytes _ E b0 H0) as E0. cbn beta in E0. exact (check_all_bytes _ E0 b1 H1).
Qed.

Theorem C46_rule_accepts_every_pair : forall b0 b1, exists v, cv_rule_try_from [b0; b1] = Ok v.
Proof.
  intros b0 b1. apply (C40_right_length_accepted cv_rule_try_from cv_rule_schema 2 cv_rule_bits cv_rule_used);
    [apply in_or_app; right; now left|discriminate|reflexivity].
Qed.
(* The exact binary representation. *)
Theorem C46_rule_representation : forall b0 b1 v, is_byte b0 -> is_byte b1 -> cv_rule_try_from [b0; b1] = Ok v ->
  exists m c, bf_repr cv_rule_schema v = [(if N.testbit b0 6 then 64 else 0) + m; c]
    /\ (known_method (b0 mod 64) -> m = b0 mod 64) /\ (~ known_method (b0 mod 64) -> m = 0)
    /\ (known_condition b1 -> c = b1) /\ (~ known_condition b1 -> c = 0).
Proof.
  intros b0 b1 v H0 H1 P. pose proof (rule_repr_checked b0 b1 H0 H1) as E. unfold rule_repr_check in E. rewrite P in E.
  apply leqb_eq in E. rewrite E. eexists. eexists. split; [reflexivity|].
  assert (Km : known_method (b0 mod 64) <-> exists y, find_code cv_method_codes (b0 mod 64) = Some y) by (apply find_known; reflexivity).
  assert (Kc : known_condition b1 <-> exists y, find_code cvm_condition_codes b1 = Some y) by (apply find_known; reflexivity).
  rewrite Km, Kc.
  destruct (find_code cv_method_codes (b0 mod 64)); destruct (find_code cvm_condition_codes b1);
    repeat split; try reflexivity; try (intros [y Y]; discriminate); intros X; exfalso; apply X; eauto.
Qed.
Theorem C46_rule_round_trip_iff : forall b0 b1 v, is_byte b0 -> is_byte b1 -> cv_rule_try_from [b0; b1] = Ok v ->
  (bf_repr cv_rule_schema v = [b0 mod 128; b1] <-> known_method (b0 mod 64) /\ known_condition b1).
Proof.
  intros b0 b1 v H0 H1 P. destruct (C46_rule_representation b0 b1 v H0 H1 P) as (m & c & E & M1 & M2 & C1 & C2).
  assert (S : b0 mod 128 = (if N.testbit b0 6 then 64 else 0) + b0 mod 64).
  { assert (B : (b0 mod 128 =? (if N.testbit b0 6 then 64 else 0) + b0 mod 64) = true)
      by (apply (check_all_bytes (fun b0 => b0 mod 128 =? (if N.testbit b0 6 then 64 else 0) + b0 mod 64)); [vm_compute; reflexivity|assumption]).
    now apply N.eqb_eq in B. }
  rewrite E, S.
  assert (Dm : known_method (b0 mod 64) \/ ~ known_method (b0 mod 64)).
  { unfold known_method. rewrite find_known by reflexivity. destruct (find_code _ _); [left; eauto|right; intros [y Y]; discriminate]. }
  assert (Dc : known_condition b1 \/ ~ known_condition b1).
  { unfold known_condition. rewrite find_known by reflexivity. destruct (find_code _ _); [left; eauto|right; intros [y Y]; discriminate]. }
  split.
  - intros X. injection X as Xm Xc. split.
    + destruct Dm as [K|K]; [assumption|]. rewrite (M2 K) in Xm. exfalso. apply K.
      assert (Z : b0 mod 64 = 0) by lia. rewrite Z. eexists. eexists. left. reflexivity.
    + destruct Dc as [K|K]; [assumption|]. rewrite (C2 K) in Xc. exfalso. apply K. rewrite <- Xc. eexists. eexists. left. reflexivity.
  - intros [K1 K2]. now rewrite (M1 K1), (C1 K2).
Qed.
(* So serialising a parsed rule does not always give the input back. *)
Theorem C46_rule_round_trip_refuted : exists raw v, bytes_ok raw /\ cv_rule_try_from raw = Ok v
  /\ bf_repr cv_rule_schema v <> keep_bits raw cv_rule_used.
Proof. exists [0x06; 0x00]. eexists. split; [repeat constructor|]. split; [vm_compute; reflexivity|discriminate]. Qed.
Example C46_example : known_method (0x5E mod 64) /\ known_condition 3 /\ ~ known_method 6.
Proof.
  split; [eexists; eexists; cbn; do 6 right; left; reflexivity|]. split; [eexists; eexists; do 3 right; left; reflexivity|].
  intros (x & s & H). cbn in H. repeat (destruct H as [H|H]; [discriminate|]). destruct H.
Qed.

(** C47: CVM results. *)
Theorem C47_cvm_results : forall raw r, bytes_ok raw ->
  (cvm_results_try_from raw = Ok r <->
   exists b0 b1 b2, raw = [b0; b1; b2] /\ cv_rule_try_from [b0; b1] = Ok (cr_rule r) /\ is_cvm_result b2 (cr_result r)).
Proof. exact cvm_results_iff. Qed.
Theorem C47_accepted_iff : forall b0 b1 b2, bytes_ok [b0; b1; b2] ->
  ((exists r, cvm_results_try_from [b0; b1; b2] = Ok r) <-> b2 <= 2)
  /\ (2 < b2 -> cvm_results_try_from [b0; b1; b2] = Err NonCompliant).
Proof.
  intros b0 b1 b2 Hb. pose proof Hb as Hb'. apply bytes_ok_cons in Hb'. destruct Hb' as [B0 Hb'].
  apply bytes_ok_cons in Hb'. destruct Hb' as [B1 Hb']. apply bytes_ok_cons in Hb'. destruct Hb' as [B2 _].
  rewrite cvm_results_three by assumption. destruct (C46_rule_accepts_every_pair b0 b1) as [v ->]. cbn [bind].
  unfold cvm_result_try_from.
  destruct (N.eqb_spec b2 0); [split; [split; [lia|cbn; eauto]|lia]|].
  destruct (N.eqb_spec b2 1); [split; [split; [lia|cbn; eauto]|lia]|].
  destruct (N.eqb_spec b2 2); [split; [split; [lia|cbn; eauto]|lia]|].
  split; [split; [intros [r X]; discriminate|lia]|reflexivity].
Qed.
(* The rule occupies the two bytes left of the result byte. *)
Theorem C47_ranges : forall p b0 b1 b2 r, bytes_ok [b0; b1; b2] -> cvm_results_try_from [b0; b1; b2] = Ok r ->
  exists l, cvm_results_ranges p r = Ok l /\ left_to_right 24 l
    /\ l = map (fun x => mkRange (r_offset x + 8) (r_len x) (r_text x) (r_sev x)) (all_shown 2 cv_rule_bits [b0; b1])
           ++ [mkRange 7 8 (lit "Result: " ++ cvm_result_text (cr_result r))
                       (if b2 =? 1 then SevError else SevNormal)].
Proof.
  intros p b0 b1 b2 r Hb H. eexists. split; [now apply (cvm_results_ranges_ok p [b0; b1; b2])|].
  apply cvm_results_iff in H; [|assumption]. destruct H as (c0 & c1 & c2 & E & R & X). injection E as <- <- <-.
  assert (Hr : bf_ranges cv_rule_schema (cr_rule r) = all_shown 2 cv_rule_bits [b0; b1])
    by (apply (C44_ranges cv_rule_try_from cv_rule_schema 2 cv_rule_bits cv_rule_used); [apply in_or_app; right; now left|assumption]).
  rewrite Hr. split.
  - assert (O : left_to_right (8 * 2) (all_shown 2 cv_rule_bits [b0; b1])) by (rewrite <- Hr;
      apply (bf_ranges_ordered cv_rule_schema cv_rule_bits cv_rule_used cv_rule_matches [b0; b1]); exact R).
    generalize dependent (all_shown 2 cv_rule_bits [b0; b1]). intros l _ O.
    assert (G : forall l limit, left_to_right limit l -> left_to_right (limit + 8) (map (fun x => mkRange (r_offset x + 8) (r_len x) (r_text x) (r_sev x)) l
              ++ [mkRange 7 8 (lit "Result: " ++ cvm_result_text (cr_result r)) (match cr_result r with CvmResult_Failed => SevError | _ => SevNormal end)])).
    { clear. induction l as [|x l IH]; intros limit H; cbn [map app left_to_right].
      - cbn. repeat split; lia.
      - cbn in H. destruct H as (H1 & H2 & H3 & H4). cbn [r_offset r_len]. repeat split; try lia.
        replace (r_offset x + 8 + 1 - r_len x) with (r_offset x + 1 - r_len x + 8) by lia. now apply IH. }
    change 24 with (8 * 2 + 8). now apply G.
  - do 3 f_equal. destruct X as [s X]. cbn in X.
    repeat (destruct X as [X|X]; [injection X as <- <- _; reflexivity|]). destruct X.
Qed.
Theorem C47_representation : forall raw r, bytes_ok raw -> cvm_results_try_from raw = Ok r ->
  exists b0 b1 b2, raw = [b0; b1; b2] /\ cvm_results_repr r = bf_repr cv_rule_schema (cr_rule r) ++ [b2].
Proof.
  intros raw r Hb H. apply cvm_results_iff in H; [|assumption]. destruct H as (b0 & b1 & b2 & -> & R & [s X]).
  exists b0, b1, b2. split; [reflexivity|]. unfold cvm_results_repr. do 2 f_equal. cbn in X.
  repeat (destruct X as [X|X]; [injection X as <- <- _; reflexivity|]). destruct X.
Qed.
Example C47_example : bytes_ok [0x41; 0x03; 0x02] /\ exists r, cvm_results_try_from [0x41; 0x03; 0x02] = Ok r.
Proof. split; [repeat constructor|]. eexists. vm_compute. reflexivity. Qed.

(** C48: CVM lists. *)
(* Consecutive pairs of bytes and the rule of each. *)
Inductive rules_of : list N -> list (list fval) -> Prop :=
| rules_none : rules_of [] []
| rules_more : forall b0 b1 v rest vs, decode_all cv_rule_bits [b0; b1] = Some v -> rules_of rest vs ->
    rules_of (b0 :: b1 :: rest) (v :: vs).

Lemma chunks2_cons {A} (a b : A) l : chunks 2 (a :: b :: l) = [a; b] :: chunks 2 l.
Proof.
  assert (G : forall f g (l : list A), (List.length l <= f)%nat -> (List.length l <= g)%nat -> chunks_fuel f 2 l = chunks_fuel g 2 l).
  { clear. induction f as [|f IH]; intros [|g] l Hf Hg; destruct l as [|a l]; try reflexivity; cbn in Hf, Hg; try lia.
    cbn [chunks_fuel]. f_equal. apply IH; rewrite skipn_length; cbn [List.length]; lia. }
  unfold chunks. change (chunks_fuel (List.length (a :: b :: l)) 2 (a :: b :: l)) with ([a; b] :: chunks_fuel (S (List.length l)) 2 l).
  f_equal. apply G; lia.
Qed.
Lemma even_pair_ind (P : list N -> Prop) : P [] -> (forall a b l, Nat.even (List.length l) = true -> P l -> P (a :: b :: l)) ->
  forall l, Nat.even (List.length l) = true -> P l.
Proof.
  intros H0 H2 l. induction l as [|a|a b l IH] using list_pair_ind; intros E; [assumption|discriminate|]. apply H2; auto.
Qed.
Lemma rules_mapM rest : Nat.even (List.length rest) = true ->
  exists vs, mapM cv_rule_try_from (chunks 2 rest) = Ok vs /\ rules_of rest vs /\ (forall ws, rules_of rest ws -> ws = vs).
Proof.
  revert rest. apply even_pair_ind.
  - exists []. split; [reflexivity|]. split; [constructor|]. intros ws H. inversion H. reflexivity.
  - intros a b l _ (vs & E & R & U). destruct (C46_rule_accepts_every_pair a b) as [v Ev]. exists (v :: vs).
    rewrite chunks2_cons. cbn [mapM]. fold (mapM cv_rule_try_from). rewrite Ev. cbn [bind]. rewrite E. split; [reflexivity|].
    apply (bf_parse_ok cv_rule_schema cv_rule_bits cv_rule_used cv_rule_matches) in Ev. destruct Ev as [_ Ev].
    split; [now constructor|]. intros ws H. inversion H; subst. f_equal; [congruence|]. now apply U.
Qed.

Theorem C48_too_short : forall raw, len raw < 8 -> cvm_list_try_from raw = Err (ByteCountIncorrect Gt 8 (len raw)).
Proof. intros raw H. unfold cvm_list_try_from, cvm_list_min_bytes. now rewrite (proj2 (N.ltb_lt _ _) H). Qed.
Theorem C48_odd : forall raw, 8 <= len raw -> len raw mod 2 = 1 ->
  cvm_list_try_from raw = Err ByteCountNotDivisibleIntoComponents.
Proof.
  intros raw H O. unfold cvm_list_try_from, cvm_list_min_bytes. rewrite (proj2 (N.ltb_ge _ _) H). cbn iota.
  change (s_count cv_rule_schema) with 2. assert (E : (len raw - 8) mod 2 = 1) by lia. now rewrite E.
Qed.
Lemma cvm_list_even x1 x2 x3 x4 y1 y2 y3 y4 rest : Nat.even (List.length rest) = true ->
  exists vs, cvm_list_try_from (x1 :: x2 :: x3 :: x4 :: y1 :: y2 :: y3 :: y4 :: rest)
             = Ok (mkCvmList (be_value [x1; x2; x3; x4]) (be_value [y1; y2; y3; y4]) vs)
    /\ rules_of rest vs /\ (forall ws, rules_of rest ws -> ws = vs).
Proof.
  intros Ev. destruct (rules_mapM rest Ev) as (vs & E & R & U). exists vs. split; [|auto].
  set (raw := x1 :: x2 :: x3 :: x4 :: y1 :: y2 :: y3 :: y4 :: rest).
  assert (L : len raw = 8 + len rest) by (unfold raw, len; cbn [List.length]; lia).
  unfold cvm_list_try_from, cvm_list_min_bytes. rewrite L. rewrite (proj2 (N.ltb_ge _ _)) by lia. cbn iota.
  change (s_count cv_rule_schema) with 2.
  assert (E2 : (8 + len rest - 8) mod 2 = 0).
  { apply Nat.even_spec in Ev. destruct Ev as [k Ek]. unfold len. rewrite Ek. lia. }
  rewrite E2. cbn [N.eqb negb].
  assert (S1 : slice raw 0 4 = Ok [x1; x2; x3; x4]).
  { unfold slice. rewrite (proj2 (N.leb_le 4 (len raw))) by lia. reflexivity. }
  assert (S2 : slice raw 4 8 = Ok [y1; y2; y3; y4]).
  { unfold slice. rewrite (proj2 (N.leb_le 8 (len raw))) by lia. reflexivity. }
  assert (S3 : slice_from raw 8 = Ok rest).
  { unfold slice_from, slice. rewrite L, (proj2 (N.leb_le 8 (8 + len rest))) by lia. rewrite N.leb_refl. cbn [andb].
    replace (8 + len rest - 8) with (len rest) by lia. unfold len. rewrite Nat2N.id. change (N.to_nat 8) with 8%nat.
    cbn [skipn raw]. now rewrite firstn_all. }
  rewrite S1. cbn [bind]. unfold byte_slice_to_u32. rewrite byte_slice_to_uint_ok by (cbn; lia). cbn [bind].
  rewrite S2. cbn [bind]. rewrite byte_slice_to_uint_ok by (cbn; lia). cbn [bind]. rewrite S3. cbn [bind].
  change (N.to_nat 2) with 2%nat. rewrite E. reflexivity.
Qed.
Theorem C48_cvm_list : forall raw l,
  cvm_list_try_from raw = Ok l <->
  exists x y rest, raw = x ++ y ++ rest /\ List.length x = 4%nat /\ List.length y = 4%nat
    /\ cl_x l = be_value x /\ cl_y l = be_value y /\ rules_of rest (cl_rules l).
Proof.
  intros raw l. split.
  - intros H. destruct (N.lt_ge_cases (len raw) 8) as [Ls|Ls]; [rewrite C48_too_short in H by assumption; discriminate|].
    destruct raw as [|x1 [|x2 [|x3 [|x4 [|y1 [|y2 [|y3 [|y4 rest]]]]]]]]; try (unfold len in Ls; cbn in Ls; lia).
    destruct (Nat.even (List.length rest)) eqn:Ev.
    + destruct (cvm_list_even x1 x2 x3 x4 y1 y2 y3 y4 rest Ev) as (vs & E & R & U). rewrite E in H. injection H as <-.
      exists [x1; x2; x3; x4], [y1; y2; y3; y4], rest. cbn [app List.length cl_x cl_y cl_rules]. auto 8.
    + rewrite C48_odd in H; [discriminate|assumption|]. unfold len. cbn [List.length].
      rewrite <- Nat.negb_odd in Ev. apply negb_false_iff, Nat.odd_spec in Ev. destruct Ev as [k ->]. lia.
  - intros (x & y & rest & -> & Lx & Ly & Ex & Ey & R).
    destruct x as [|x1 [|x2 [|x3 [|x4 [|]]]]]; try discriminate Lx.
    destruct y as [|y1 [|y2 [|y3 [|y4 [|]]]]]; try discriminate Ly.
    assert (Ev : Nat.even (List.length rest) = true) by (clear -R; induction R; [reflexivity|cbn; assumption]).
    destruct (cvm_list_even x1 x2 x3 x4 y1 y2 y3 y4 rest Ev) as (vs & E & _ & U). cbn [app]. rewrite E.
    rewrite <- (U _ R), <- Ex, <- Ey. now destruct l.
Qed.
Theorem C48_accepted_iff : forall raw, (exists l, cvm_list_try_from raw = Ok l) <-> exists k, len raw = 8 + 2 * k.
Proof.
  intros raw. split.
  - intros [l H]. apply C48_cvm_list in H. destruct H as (x & y & rest & -> & Lx & Ly & _ & _ & R).
    assert (Ev : Nat.even (List.length rest) = true) by (clear -R; induction R; [reflexivity|cbn; assumption]).
    apply Nat.even_spec in Ev. destruct Ev as [k Ek]. exists (N.of_nat k). unfold len. rewrite !app_length. lia.
  - intros [k H]. destruct raw as [|x1 [|x2 [|x3 [|x4 [|y1 [|y2 [|y3 [|y4 rest]]]]]]]]; try (unfold len in H; cbn [List.length] in H; lia).
    assert (Ev : Nat.even (List.length rest) = true).
    { apply Nat.even_spec. exists (N.to_nat k). unfold len in H. cbn [List.length] in H. lia. }
    destruct (cvm_list_even x1 x2 x3 x4 y1 y2 y3 y4 rest Ev) as (vs & E & _). eauto.
Qed.
Example C48_example : exists l, cvm_list_try_from [0; 0; 0x27; 0x10; 0; 0; 0; 5; 0x42; 0x03; 0x1E; 0x06] = Ok l
  /\ cl_x l = 10000 /\ cl_y l = 5 /\ List.length (cl_rules l) = 2%nat.
Proof. eexists. split; [vm_compute; reflexivity|repeat split]. Qed.

(** C49: issuer application data. *)
Lemma cci_format b v : cci_try_from [b] = Ok v -> exists fc, get_field cci_schema v "iad_format_code" = Some (VFormatCode fc).
Proof.
  intros H.
  pose proof (get_field_value cci_schema cci_bits cci_used cci_matches [b] v (group 1 8 5 Format "iad_format_code" SevNormal "IAD Format Code: ") H (or_introl eq_refl)) as G.
  cbn [e_name group] in G. rewrite G.
  apply (bf_parse_ok cci_schema cci_bits cci_used cci_matches) in H. destruct H as [_ D]. cbn [cci_bits decode_all] in D.
  destruct (field_value (group 1 8 5 Format "iad_format_code" SevNormal "IAD Format Code: ") [b]) as [w|] eqn:F; [|discriminate].
  unfold field_value, group in F. cbn [e_kind decode] in F. unfold coded in F. destruct (find_code _ _) as [[a s]|]; [|discriminate].
  cbn in F. injection F as <-. eauto.
Qed.

Lemma list_split {A} n (l : list A) : (n <= List.length l)%nat -> exists a b, l = a ++ b /\ List.length a = n.
Proof. intros H. exists (firstn n l), (skipn n l). split; [symmetry; apply firstn_skipn|rewrite firstn_length; lia]. Qed.

(* The layout of a CCD-compliant value. *)
Definition iad_layout (raw : list N) (cci dki : N) (cvr counters discretionary : list N) : Prop :=
  raw = 0x0F :: cci :: dki :: cvr ++ counters ++ 0x0F :: discretionary
  /\ List.length cvr = 5%nat /\ List.length counters = 8%nat /\ List.length discretionary = 15%nat.

Lemma len_of_nat {A} (l : list A) n : List.length l = n -> len l = N.of_nat n.
Proof. intros <-. reflexivity. Qed.

Lemma slice_mid {A} (a b c : list A) i j : len a = i -> len a + len b = j -> slice (a ++ b ++ c) i j = Ok b.
Proof.
  intros H1 H2. unfold slice. rewrite (proj2 (N.leb_le i j)) by lia. rewrite (proj2 (N.leb_le j _)) by (rewrite !len_app; lia).
  cbn [andb]. f_equal. unfold len in *. rewrite skipn_app, skipn_all2 by lia. replace (N.to_nat i - List.length a)%nat with O by lia.
  cbn [skipn app]. rewrite firstn_app. replace (N.to_nat (j - i) - List.length b)%nat with O by lia.
  rewrite firstn_all2 by lia. cbn. apply app_nil_r.
Qed.

Lemma iad_layout_parse raw cci dki cvr counters dd : iad_layout raw cci dki cvr counters dd ->
  iad_try_from raw
  = (c <- cci_try_from [cci];; v <- cvr_try_from cvr;; Ok (mkIad c dki v counters dd)).
Proof.
  intros (-> & L1 & L2 & L3). set (raw := 0x0F :: cci :: dki :: cvr ++ counters ++ 0x0F :: dd).
  assert (LL : len raw = 32). { unfold raw, len. cbn [List.length]. rewrite !app_length. cbn [List.length]. lia. }
  unfold iad_try_from. rewrite LL. cbn [N.eqb Pos.eqb negb].
  change (index raw 0) with (@Ok N 0x0F). cbn [bind]. change (negb (0x0F =? 0x0F)) with false. cbn iota.
  assert (I16 : index raw 16 = Ok 0x0F).
  { replace raw with ((0x0F :: cci :: dki :: cvr ++ counters) ++ 0x0F :: dd) by (unfold raw; cbn [app]; now rewrite <- app_assoc).
    replace 16 with (len (0x0F :: cci :: dki :: cvr ++ counters)) by (unfold len; cbn [List.length]; rewrite app_length; lia).
    apply index_app. }
  rewrite I16. cbn [bind]. change (negb (0x0F =? 0x0F)) with false. cbn iota.
  assert (S1 : slice_incl raw 1 1 = Ok [cci]) by (apply (slice_mid [0x0F] [cci]); reflexivity).
  rewrite S1. cbn [bind]. destruct (cci_try_from [cci]) as [c|e| |] eqn:C; try reflexivity. cbn [bind].
  destruct (cci_format cci c C) as [fc ->]. unfold iad_parse_format. destruct fc.
  change (index raw 2) with (@Ok N dki). cbn [bind].
  assert (S2 : slice raw 3 8 = Ok cvr).
  { apply (slice_mid [0x0F; cci; dki] cvr); [reflexivity|]. unfold len. cbn [List.length]. lia. }
  rewrite S2. cbn [bind]. destruct (cvr_try_from cvr) as [v|e| |]; try reflexivity. cbn [bind].
  assert (S3 : slice raw 8 16 = Ok counters).
  { unfold raw. change (0x0F :: cci :: dki :: cvr ++ counters ++ 0x0F :: dd) with ((0x0F :: cci :: dki :: cvr) ++ counters ++ 0x0F :: dd).
    apply slice_mid; unfold len; cbn [List.length]; lia. }
  rewrite S3. cbn [bind]. unfold copy_from_slice. rewrite (len_of_nat counters 8 L2). cbn [N.of_nat N.eqb Pos.of_succ_nat Pos.succ Pos.eqb bind].
  assert (S4 : slice raw 17 32 = Ok dd).
  { replace raw with ((0x0F :: cci :: dki :: cvr ++ counters ++ [0x0F]) ++ dd ++ []).
    - apply slice_mid; unfold len; cbn [List.length]; rewrite !app_length; cbn [List.length]; lia.
    - unfold raw. cbn [app]. rewrite app_nil_r, <- !app_assoc. reflexivity. }
  rewrite S4. cbn [bind]. rewrite (len_of_nat dd 15 L3). reflexivity.
Qed.

Lemma iad_32 (raw : list N) : len raw = 32 ->
  exists b0 cci dki cvr counters b16 dd, raw = b0 :: cci :: dki :: cvr ++ counters ++ b16 :: dd
    /\ List.length cvr = 5%nat /\ List.length counters = 8%nat /\ List.length dd = 15%nat.
Proof.
  intros L. unfold len in L. destruct raw as [|b0 [|cci [|dki r]]]; try (cbn in L; lia). cbn [List.length] in L.
  destruct (list_split 5 r) as (cvr & r1 & -> & L1); [lia|]. rewrite app_length in L.
  destruct (list_split 8 r1) as (ctr & r2 & -> & L2); [lia|]. rewrite app_length in L.
  destruct r2 as [|b16 dd]; [cbn in L; lia|]. cbn in L. exists b0, cci, dki, cvr, ctr, b16, dd. repeat split; auto. lia.
Qed.

Lemma iad_bad raw b0 cci dki cvr counters b16 dd : raw = b0 :: cci :: dki :: cvr ++ counters ++ b16 :: dd ->
  List.length cvr = 5%nat -> List.length counters = 8%nat -> List.length dd = 15%nat ->
  (b0 <> 0x0F \/ b16 <> 0x0F) -> iad_try_from raw = Err NonCcdCompliant.
Proof.
  intros -> L1 L2 L3 Hbad. set (raw := b0 :: cci :: dki :: cvr ++ counters ++ b16 :: dd).
  assert (LL : len raw = 32). { unfold raw, len. cbn [List.length]. rewrite !app_length. cbn [List.length]. lia. }
  unfold iad_try_from. rewrite LL. cbn [N.eqb Pos.eqb negb]. change (index raw 0) with (@Ok N b0). cbn [bind].
  destruct (N.eqb_spec b0 0x0F) as [E|E]; cbn [negb]; [|reflexivity].
  assert (I16 : index raw 16 = Ok b16).
  { replace raw with ((b0 :: cci :: dki :: cvr ++ counters) ++ b16 :: dd) by (unfold raw; cbn [app]; now rewrite <- app_assoc).
    replace 16 with (len (b0 :: cci :: dki :: cvr ++ counters)) by (unfold len; cbn [List.length]; rewrite app_length; lia).
    apply index_app. }
  rewrite I16. cbn [bind]. destruct (N.eqb_spec b16 0x0F) as [E'|E']; cbn [negb]; [destruct Hbad; congruence|reflexivity].
Qed.

Theorem C49_iad_accepts : forall raw v, bytes_ok raw ->
  (iad_try_from raw = Ok v <->
   exists cci cvr, iad_layout raw cci (iad_dki v) cvr (iad_counters v) (iad_discretionary v)
     /\ (cci = 0xA5 \/ cci = 0xA6) /\ cci_try_from [cci] = Ok (iad_cci v) /\ cvr_try_from cvr = Ok (iad_cvr v)).
Proof.
  intros raw v Hb. split.
  - intros H. destruct (N.eq_dec (len raw) 32) as [L|L].
    2:{ unfold iad_try_from in H. apply N.eqb_neq in L. rewrite L in H. discriminate. }
    destruct (iad_32 raw L) as (b0 & cci & dki & cvr & ctr & b16 & dd & E & L1 & L2 & L3).
    destruct (N.eq_dec b0 0x0F) as [->|N0]; [|rewrite (iad_bad raw _ _ _ _ _ _ _ E L1 L2 L3 (or_introl N0)) in H; discriminate].
    destruct (N.eq_dec b16 0x0F) as [->|N1]; [|rewrite (iad_bad raw _ _ _ _ _ _ _ E L1 L2 L3 (or_intror N1)) in H; discriminate].
    assert (Lay : iad_layout raw cci dki cvr ctr dd) by (split; auto).
    rewrite (iad_layout_parse raw cci dki cvr ctr dd Lay) in H.
    destruct (cci_try_from [cci]) as [c| | |] eqn:C; try discriminate. cbn [bind] in H.
    destruct (cvr_try_from cvr) as [w| | |] eqn:W; try discriminate. cbn [bind] in H. injection H as <-.
    exists cci, cvr. cbn [iad_dki iad_counters iad_discretionary iad_cci iad_cvr]. split; [assumption|]. split; [|auto].
    assert (Bc : is_byte cci). { subst raw. apply bytes_ok_cons in Hb. destruct Hb as [_ Hb]. now apply bytes_ok_cons in Hb. }
    apply (C40_cci cci Bc). eauto.
  - intros (cci & cvr & Lay & _ & C & W). rewrite (iad_layout_parse _ _ _ _ _ _ Lay), C. cbn [bind]. rewrite W. now destruct v.
Qed.
Theorem C49_iad_accepted_iff : forall raw, bytes_ok raw ->
  ((exists v, iad_try_from raw = Ok v) <->
   exists cci dki cvr counters dd, iad_layout raw cci dki cvr counters dd /\ (cci = 0xA5 \/ cci = 0xA6)).
Proof.
  intros raw Hb. split.
  - intros [v H]. apply C49_iad_accepts in H; [|assumption]. destruct H as (cci & cvr & L & C & _). eauto 8.
  - intros (cci & dki & cvr & ctr & dd & L & C). rewrite (iad_layout_parse _ _ _ _ _ _ L).
    assert (Bc : is_byte cci) by (destruct C as [-> | ->]; vm_compute; reflexivity).
    apply (C40_cci cci Bc) in C. destruct C as [c ->]. cbn [bind].
    destruct (C40_right_length_accepted cvr_try_from cvr_schema 5 cvr_bits cvr_used cvr) as [w ->].
    + right. right. right. right. right. right. right. left. reflexivity.
    + discriminate.
    + destruct L as (_ & L1 & _). unfold len. now rewrite L1.
    + cbn [bind]. eauto.
Qed.
Theorem C49_iad_otherwise_non_ccd : forall raw, bytes_ok raw ->
  (exists v, iad_try_from raw = Ok v) \/ iad_try_from raw = Err NonCcdCompliant.
Proof.
  intros raw Hb. destruct (N.eq_dec (len raw) 32) as [L|L].
  2:{ right. unfold iad_try_from. apply N.eqb_neq in L. now rewrite L. }
  destruct (iad_32 raw L) as (b0 & cci & dki & cvr & ctr & b16 & dd & E & L1 & L2 & L3).
  destruct (N.eq_dec b0 0x0F) as [->|N0]; [|right; exact (iad_bad raw _ _ _ _ _ _ _ E L1 L2 L3 (or_introl N0))].
  destruct (N.eq_dec b16 0x0F) as [->|N1]; [|right; exact (iad_bad raw _ _ _ _ _ _ _ E L1 L2 L3 (or_intror N1))].
  assert (Lay : iad_layout raw cci dki cvr ctr dd) by (split; auto).
  rewrite (iad_layout_parse raw cci dki cvr ctr dd Lay).
  unfold cci_try_from. rewrite (bf_parse cci_schema cci_bits cci_used cci_matches). change (len [cci] =? s_count cci_schema) with true. cbn iota.
  destruct (decode_all cci_bits [cci]); [|now right]. cbn [bind].
  destruct (C40_right_length_accepted cvr_try_from cvr_schema 5 cvr_bits cvr_used cvr) as [w ->].
  - right. right. right. right. right. right. right. left. reflexivity.
  - discriminate.
  - unfold len. now rewrite L1.
  - left. cbn [bind]. eauto.
Qed.
Example C49_example : exists dd, iad_layout (0x0F :: 0xA5 :: 1 :: [2; 3; 4; 5; 6] ++ [7; 8; 9; 10; 11; 12; 13; 14] ++ 0x0F :: dd)
   0xA5 1 [2; 3; 4; 5; 6] [7; 8; 9; 10; 11; 12; 13; 14] dd.
Proof. exists (repeat 0 15). repeat split. Qed.

(** C50: issuer action codes. *)
Theorem C50_iac_parse : forall parse raw v, In parse [iac_default_try_from; iac_denial_try_from; iac_online_try_from] ->
  (parse raw = Ok v <-> tvr_try_from raw = Ok v)
  /\ (parse raw = Ok v <-> len raw = 5 /\ decode_all tvr_bits raw = Some v).
Proof.
  intros parse raw v H. cbn in H.
  assert (E : parse raw = tvr_try_from raw) by (destruct H as [<-|[<-|[<-|[]]]]; reflexivity).
  rewrite E. split; [tauto|]. apply (bf_parse_ok tvr_schema tvr_bits tvr_used tvr_matches).
Qed.
Theorem C50_iac_defaults :
  exists d o n, iac_default_default = Ok d /\ iac_online_default = Ok o /\ iac_denial_default = Ok n
    /\ (forall e, In e tvr_bits -> get_field tvr_schema d (e_name e) = Some (VBool true)
                                   /\ get_field tvr_schema o (e_name e) = Some (VBool true)
                                   /\ get_field tvr_schema n (e_name e) = Some (VBool false))
    /\ bf_repr tvr_schema d = tvr_used /\ bf_repr tvr_schema o = tvr_used /\ bf_repr tvr_schema n = [0; 0; 0; 0; 0].
Proof.
  eexists. eexists. eexists. split; [vm_compute; reflexivity|]. split; [vm_compute; reflexivity|]. split; [vm_compute; reflexivity|].
  split; [|repeat split; vm_compute; reflexivity].
  intros e He. cbn in He. repeat (destruct He as [<-|He]; [repeat split; reflexivity|]). destruct He.
Qed.

(** C51: service codes. *)
Theorem C51_service_code : forall n sc,
  service_code_try_from_u16 n = Ok sc <->
  n <= 999 /\ sc_number sc = n
  /\ In (n / 100, (sc_interchange sc, sc_technology sc)) service_digit_1
  /\ In (n / 10 mod 10, sc_auth sc) service_digit_2
  /\ In (n mod 10, (sc_services sc, sc_pin sc)) service_digit_3.
Proof.
  intros n sc. unfold service_code_try_from_u16. destruct (N.ltb_spec 999 n) as [H|H].
  { split; [discriminate|]. lia. }
  set (p1 := n mod 1000 / 100 mod 256). set (p2 := n mod 100 / 10 mod 256). set (p3 := n mod 10 mod 256).
  assert (E1 : p1 = n / 100 /\ p1 < 10) by (unfold p1; lia).
  assert (E2 : p2 = n / 10 mod 10 /\ p2 < 10) by (unfold p2; lia).
  assert (E3 : p3 = n mod 10 /\ p3 < 10) by (unfold p3; lia).
  destruct E1 as [<- B1], E2 as [<- B2], E3 as [<- B3]. clearbody p1 p2 p3.
  assert (D : forall x, x < 10 -> x = 0 \/ x = 1 \/ x = 2 \/ x = 3 \/ x = 4 \/ x = 5 \/ x = 6 \/ x = 7 \/ x = 8 \/ x = 9) by (intros; lia).
  assert (T1 : forall i t, In (p1, (i, t)) service_digit_1 <-> i = interchange_from p1 /\ t = technology_from p1).
  { specialize (D p1 B1). clear -D. intros i t. repeat (destruct D as [->|D]); try subst p1;
      (split; [intros X; cbn in X; repeat (destruct X as [X|X]; [try discriminate X; injection X as <- <-; split; reflexivity|]); destruct X
              |intros [-> ->]; cbn; tauto]). }
  assert (T2 : forall a, In (p2, a) service_digit_2 <-> a = authorisation_processing_from p2).
  { specialize (D p2 B2). clear -D. intros a. repeat (destruct D as [->|D]); try subst p2;
      (split; [intros X; cbn in X; repeat (destruct X as [X|X]; [try discriminate X; injection X as <-; reflexivity|]); destruct X
              |intros ->; cbn; tauto]). }
  assert (T3 : forall i t, In (p3, (i, t)) service_digit_3 <-> i = allowed_services_from p3 /\ t = pin_requirements_from p3).
  { specialize (D p3 B3). clear -D. intros i t. repeat (destruct D as [->|D]); try subst p3;
      (split; [intros X; cbn in X; repeat (destruct X as [X|X]; [try discriminate X; injection X as <- <-; split; reflexivity|]); destruct X
              |intros [-> ->]; cbn; tauto]). }
  rewrite T1, T2, T3. split.
  - intros X. injection X as <-. cbn. auto 10.
  - intros (_ & Hn & [Hi Ht] & Ha & [Hs Hp]). destruct sc; cbn in *. congruence.
Qed.
Theorem C51_service_code_rejected : forall n, 999 < n -> service_code_try_from_u16 n = Err InvalidNumber.
Proof. intros n H. unfold service_code_try_from_u16. now rewrite (proj2 (N.ltb_lt _ _) H). Qed.

Definition sc_bytes_check (b0 b1 : N) : bool :=
  match bytes_to_str [b0; b1] with
  | Ok s => match parse_str_to_u16 s with
            | Ok n => (b0 / 16 <? 10) && (b0 mod 16 <? 10) && (b1 / 16 <? 10) && (b1 mod 16 <? 10)
                      && (n =? 1000 * (b0 / 16) + 100 * (b0 mod 16) + 10 * (b1 / 16) + b1 mod 16)
            | Err InvalidNumber => negb ((b0 / 16 <? 10) && (b0 mod 16 <? 10) && (b1 / 16 <? 10) && (b1 mod 16 <? 10))
            | _ => false
            end
  | _ => false
  end.
Lemma sc_bytes_checked b0 b1 : is_byte b0 -> is_byte b1 -> sc_bytes_check b0 b1 = true.
Proof.
  intros H0 H1.
  assert (E : forallb (fun b0 => forallb (fun b1 => sc_bytes_check b0 b1) all_bytes) all_bytes = true) by (vm_compute; reflexivity).
  pose proof (check_all_bytes _ E b0 H0) as E0. cbn beta in E0. exact (check_all_bytes _ E0 b1 H1).
Qed.

Theorem C51_service_code_bytes : forall raw sc, bytes_ok raw ->
  (service_code_try_from_bytes raw = Ok sc <->
   exists d1 d2 d3, raw = [d1; 16 * d2 + d3] /\ d1 < 10 /\ d2 < 10 /\ d3 < 10
     /\ service_code_try_from_u16 (100 * d1 + 10 * d2 + d3) = Ok sc).
Proof.
  intros raw sc Hb. unfold service_code_try_from_bytes. destruct (N.eqb_spec (len raw) 2) as [L|L]; cbn [negb].
  2:{ split; [discriminate|]. intros (d1 & d2 & d3 & -> & _). now contradict L. }
  destruct raw as [|b0 [|b1 [|b2 raw]]]; try discriminate L; [|unfold len in L; cbn in L; lia].
  apply bytes_ok_cons in Hb. destruct Hb as [B0 Hb]. apply bytes_ok_cons in Hb. destruct Hb as [B1 _]. unfold is_byte in B0, B1.
  pose proof (sc_bytes_checked b0 b1 B0 B1) as C. unfold sc_bytes_check in C.
  destruct (bytes_to_str [b0; b1]) as [s| | |]; try discriminate. cbn [bind].
  destruct (parse_str_to_u16 s) as [n|e| |]; try discriminate; cbn [bind].
  - rewrite !andb_true_iff in C. destruct C as [[[[C1 C2] C3] C4] C5]. split.
    + intros H. assert (N9 : n <= 999).
      { destruct (N.le_gt_cases n 999) as [G|G]; [assumption|]. rewrite (C51_service_code_rejected n G) in H. discriminate. }
      assert (D1 : b0 / 16 = 0) by lia.
      exists (b0 mod 16), (b1 / 16), (b1 mod 16). split; [|split; [|split; [|split]]]; try lia.
      * f_equal; [lia|]. f_equal. lia.
      * replace (100 * (b0 mod 16) + 10 * (b1 / 16) + b1 mod 16) with n by lia. exact H.
    + intros (d1 & d2 & d3 & E & H1 & H2 & H3 & H). assert (E0 : b0 = d1) by congruence. assert (E1 : b1 = 16 * d2 + d3) by congruence. subst b0 b1. replace n with (100 * d1 + 10 * d2 + d3); [exact H|]. apply N.eqb_eq in C5. rewrite C5. clear -H1 H2 H3.
      assert (Q1 : (16 * d2 + d3) / 16 = d2) by lia. assert (Q2 : (16 * d2 + d3) mod 16 = d3) by lia.
      assert (Q3 : d1 / 16 = 0) by lia. assert (Q4 : d1 mod 16 = d1) by lia. rewrite Q1, Q2, Q3, Q4. lia.
  - destruct e; try discriminate. split; [discriminate|]. intros (d1 & d2 & d3 & E & H1 & H2 & H3 & _). assert (E0 : b0 = d1) by congruence. assert (E1 : b1 = 16 * d2 + d3) by congruence. subst b0 b1.
    exfalso. rewrite negb_true_iff, <- not_true_iff_false, !andb_true_iff in C. apply C. lia.
Qed.
Theorem C51_service_code_bytes_errors : forall raw, bytes_ok raw ->
  (len raw <> 2 -> service_code_try_from_bytes raw = Err (ByteCountIncorrect Eq 2 (len raw)))
  /\ (len raw = 2 -> (exists sc, service_code_try_from_bytes raw = Ok sc) \/ service_code_try_from_bytes raw = Err InvalidNumber).
Proof.
  intros raw Hb. unfold service_code_try_from_bytes. destruct (N.eqb_spec (len raw) 2) as [L|L]; cbn [negb]; [|tauto].
  split; [tauto|]. intros _. destruct raw as [|b0 [|b1 [|b2 raw]]]; try discriminate L; [|unfold len in L; cbn in L; lia].
  apply bytes_ok_cons in Hb. destruct Hb as [B0 Hb]. apply bytes_ok_cons in Hb. destruct Hb as [B1 _]. unfold is_byte in B0, B1.
  pose proof (sc_bytes_checked b0 b1 B0 B1) as C. unfold sc_bytes_check in C.
  destruct (bytes_to_str [b0; b1]) as [s| | |]; try discriminate. cbn [bind].
  destruct (parse_str_to_u16 s) as [n|e| |]; try discriminate; cbn [bind].
  - unfold service_code_try_from_u16. destruct (999 <? n); [auto|left; eauto].
  - destruct e; try discriminate. auto.
Qed.
Example C51_example : exists sc, service_code_try_from_bytes [0x02; 0x01] = Ok sc
  /\ sc_number sc = 201 /\ sc_technology sc = Technology_IntegratedCircuitCard.
Proof. eexists. split; [vm_compute; reflexivity|split; reflexivity]. Qed.

(** C52: enumerations. *)
Definition decodes {A : Type} (table : list (N * A * string)) (err : parse_error) (try_from : N -> res A) : Prop :=
  forall c, (forall x, try_from c = Ok x <-> exists s, In (c, x, s) table)
            /\ ((forall x s, ~ In (c, x, s) table) -> try_from c = Err err).
Definition shows {A : Type} (table : list (N * A * string)) (text : A -> str) : Prop :=
  forall c x s, In (c, x, s) table -> text x = lit s.
Definition every_variant {A : Type} (table : list (N * A * string)) : Prop :=
  forall x, exists c s, In (c, x, s) table.
Definition gives_code {A : Type} (table : list (N * A * string)) (to_u8 : A -> N) : Prop :=
  forall x, exists s, In (to_u8 x, x, s) table.

Lemma decodes_find {A : Type} (table : list (N * A * string)) err try_from : distinct_codes table = true ->
  (forall c, try_from c = match find_code table c with Some (x, _) => Ok x | None => Err err end) ->
  decodes table err try_from.
Proof.
  intros D E c. rewrite E. destruct (find_code table c) as [[x0 s0]|] eqn:F.
  - split.
    + intros x. split.
      * intros H. injection H as <-. exists s0. now apply find_code_in.
      * intros [s H]. apply (find_code_complete _ _ _ _ D) in H. congruence.
    + intros H. exfalso. apply (H x0 s0). now apply find_code_in.
  - split.
    + intros x. split; [discriminate|]. intros [s H]. apply (find_code_complete _ _ _ _ D) in H. congruence.
    + reflexivity.
Qed.

Ltac find_cases c := repeat match goal with
  | |- context [c =? ?k] => destruct (N.eqb_spec c k) as [->|?]; [reflexivity|];
      try rewrite (proj2 (N.eqb_neq k c)) by congruence; cbn [orb]
  | |- context [?k =? c] => destruct (N.eqb_spec k c) as [<-|?]; [reflexivity|];
      try rewrite (proj2 (N.eqb_neq c k)) by congruence; cbn [orb]
  end; reflexivity.
Ltac prove_decodes f t := apply decodes_find; [vm_compute; reflexivity|]; intros c; unfold f, t; cbn [find_code]; find_cases c.
Ltac prove_shows := intros c x s H; cbn in H; repeat (destruct H as [H|H]; [injection H as _ <- <-; reflexivity|]); destruct H.
Ltac prove_gives := intros x; destruct x; eexists; cbn; tauto.
Ltac prove_every := intros x; destruct x; eexists; eexists; cbn; tauto.

Theorem C52_tag_class : decodes tag_class_codes NonCompliant tag_class_try_from
  /\ gives_code tag_class_codes tag_class_to_u8 /\ shows tag_class_codes tag_class_text.
Proof. split; [prove_decodes tag_class_try_from tag_class_codes|split; [prove_gives|prove_shows]]. Qed.
Theorem C52_terminal_type : decodes terminal_type_codes Unrecognised terminal_type_try_from
  /\ gives_code terminal_type_codes terminal_type_to_u8 /\ shows terminal_type_codes terminal_type_text.
Proof. split; [prove_decodes terminal_type_try_from terminal_type_codes|split; [prove_gives|prove_shows]]. Qed.
Theorem C52_transaction_type : decodes transaction_type_codes Unrecognised transaction_type_try_from
  /\ gives_code transaction_type_codes transaction_type_to_u8 /\ shows transaction_type_codes transaction_type_text.
Proof. split; [prove_decodes transaction_type_try_from transaction_type_codes|split; [prove_gives|prove_shows]]. Qed.
Theorem C52_pos_entry_mode : decodes pos_entry_mode_codes Unrecognised pos_entry_mode_try_from
  /\ every_variant pos_entry_mode_codes /\ shows pos_entry_mode_codes pos_entry_mode_text.
Proof. split; [prove_decodes pos_entry_mode_try_from pos_entry_mode_codes|split; [prove_every|prove_shows]]. Qed.
Theorem C52_cv_method : decodes cv_method_codes NonCompliant cv_method_try_from
  /\ gives_code cv_method_codes cv_method_to_u8 /\ shows cv_method_codes cv_method_text.
Proof. split; [prove_decodes cv_method_try_from cv_method_codes|split; [prove_gives|prove_shows]]. Qed.
Theorem C52_cvm_condition : decodes cvm_condition_codes NonCompliant cvm_condition_try_from
  /\ gives_code cvm_condition_codes cvm_condition_to_u8 /\ shows cvm_condition_codes cvm_condition_text.
Proof. split; [prove_decodes cvm_condition_try_from cvm_condition_codes|split; [prove_gives|prove_shows]]. Qed.
Theorem C52_cvm_result : decodes cvm_result_codes NonCompliant cvm_result_try_from
  /\ gives_code cvm_result_codes cvm_result_to_u8 /\ shows cvm_result_codes cvm_result_text.
Proof. split; [prove_decodes cvm_result_try_from cvm_result_codes|split; [prove_gives|prove_shows]]. Qed.
Theorem C52_gen_ac1 : decodes gen_ac1_codes NonCcdCompliant gen_ac1_application_cryptogram_type_try_from
  /\ gives_code gen_ac1_codes gen_ac1_application_cryptogram_type_to_u8 /\ shows gen_ac1_codes gen_ac1_application_cryptogram_type_text.
Proof. split; [prove_decodes gen_ac1_application_cryptogram_type_try_from gen_ac1_codes|split; [prove_gives|prove_shows]]. Qed.
Theorem C52_gen_ac2 : decodes gen_ac2_codes NonCcdCompliant gen_ac2_application_cryptogram_type_try_from
  /\ gives_code gen_ac2_codes gen_ac2_application_cryptogram_type_to_u8 /\ shows gen_ac2_codes gen_ac2_application_cryptogram_type_text.
Proof. split; [prove_decodes gen_ac2_application_cryptogram_type_try_from gen_ac2_codes|split; [prove_gives|prove_shows]]. Qed.
Theorem C52_format_code : decodes format_code_codes NonCcdCompliant format_code_try_from
  /\ gives_code format_code_codes format_code_to_u8 /\ shows format_code_codes format_code_text.
Proof. split; [prove_decodes format_code_try_from format_code_codes|split; [prove_gives|prove_shows]]. Qed.
Theorem C52_cryptogram_version : decodes cryptogram_version_codes NonCcdCompliant cryptogram_version_try_from
  /\ gives_code cryptogram_version_codes cryptogram_version_to_u8 /\ shows cryptogram_version_codes cryptogram_version_text.
Proof. split; [prove_decodes cryptogram_version_try_from cryptogram_version_codes|split; [prove_gives|prove_shows]]. Qed.
(* Converting to the code and back gives the variant. *)
Theorem C52_round_trip : forall (A : Type) (table : list (N * A * string)) err try_from to_u8,
  decodes table err try_from -> gives_code table to_u8 -> forall x, try_from (to_u8 x) = Ok x.
Proof. intros A table err try_from to_u8 D G x. apply D, G. Qed.
(* One-byte tags of these types. *)
Theorem C52_from_slice : forall (A : Type) (f : N -> res A) raw x,
  (enum_from_slice f raw = Ok x <-> exists b, raw = [b] /\ f b = Ok x)
  /\ (len raw <> 1 -> enum_from_slice f raw = Err (ByteCountIncorrect Eq 1 (len raw))).
Proof.
  intros A f raw x. unfold enum_from_slice. destruct (N.eqb_spec (len raw) 1) as [L|L]; cbn [negb].
  - destruct raw as [|b [|c raw]]; try discriminate L; [|unfold len in L; cbn in L; lia].
    change (index [b] 0) with (Ok b). cbn [bind]. split; [|tauto].
    split; [eauto|]. intros (b' & E & H). injection E as <-. exact H.
  - split; [|tauto]. split; [discriminate|]. intros (b & -> & _). now contradict L.
Qed.
Example C52_example : exists s, In (0x22, TerminalType_AttendedOfflineWithOnlineCapabilitiesMerchant, s) terminal_type_codes.
Proof. eexists. cbn. tauto. Qed.

(** C53: authorisation response codes. *)
Definition arc_text_code (s : str) (x : authorisation_response_code) : Prop :=
  exists c l, In (c, x, l) arc_codes /\ s = lit c.

Fixpoint find_arc (t : list (string * authorisation_response_code * string)) (s : str) : option authorisation_response_code :=
  match t with [] => None | (k, a, _) :: t' => if leqb s (lit k) then Some a else find_arc t' s end.
Definition distinct_arcs : bool :=
  (fix go (l : list (list N)) : bool := match l with [] => true | c :: l' => negb (existsb (leqb c) l') && go l' end)
    (map (fun r => lit (fst (fst r))) arc_codes).
Lemma arc_find s : authorisation_response_code_try_from s = match find_arc arc_codes s with Some x => Ok x | None => Err Unrecognised end.
Proof.
  unfold authorisation_response_code_try_from, arc_codes. cbn [find_arc].
  repeat match goal with |- context [leqb s ?k] => destruct (leqb s k); [reflexivity|] end. reflexivity.
Qed.
Lemma find_arc_in t s x : find_arc t s = Some x -> exists c l, In (c, x, l) t /\ s = lit c.
Proof.
  induction t as [|[[k a] l] t IH]; cbn [find_arc]; [discriminate|]. destruct (leqb s (lit k)) eqn:E.
  - intros H. injection H as <-. exists k, l. split; [now left|]. now apply leqb_eq.
  - intros H. destruct (IH H) as (c & l' & Hin & Es). exists c, l'. split; [now right|assumption].
Qed.
Lemma find_arc_complete c x l : In (c, x, l) arc_codes -> find_arc arc_codes (lit c) = Some x.
Proof.
  assert (D : distinct_arcs = true) by (vm_compute; reflexivity). unfold distinct_arcs in D. revert D.
  generalize arc_codes. induction l0 as [|[[k a] l'] t IH]; [intros _ []|]. cbn [map fst find_arc]. rewrite andb_true_iff.
  intros [D1 D2] [E|Hin].
  - injection E as -> -> ->. now rewrite (proj2 (leqb_eq _ _) eq_refl).
  - destruct (leqb (lit c) (lit k)) eqn:E; [|now apply IH]. exfalso. apply leqb_eq in E.
    apply negb_true_iff in D1. rewrite <- not_true_iff_false in D1. apply D1, existsb_exists. exists (lit c). split.
    + apply in_map_iff. exists (c, x, l). auto.
    + apply leqb_eq. now symmetry.
Qed.

Theorem C53_arc_text : forall s x, authorisation_response_code_try_from s = Ok x <-> arc_text_code s x.
Proof.
  intros s x. rewrite arc_find. split.
  - destruct (find_arc arc_codes s) as [y|] eqn:F; [|discriminate]. intros H. injection H as <-. now apply find_arc_in.
  - intros (c & l & Hin & ->). now rewrite (find_arc_complete c x l Hin).
Qed.
(* Two bytes are well-formed UTF-8: two ASCII characters or one two-byte character. *)
Definition utf8_pair (b0 b1 : N) : Prop := (b0 < 0x80 /\ b1 < 0x80) \/ (0xC2 <= b0 /\ b0 <= 0xDF /\ 0x80 <= b1 /\ b1 <= 0xBF).
Lemma utf8_decode_pair b0 b1 : is_byte b0 -> is_byte b1 ->
  utf8_decode [b0; b1] = if (b0 <? 0x80) && (b1 <? 0x80) then Some [b0; b1]
                         else if in_range 0xC2 0xDF b0 && in_range 0x80 0xBF b1 then Some [(b0 - 0xC0) * 64 + (b1 - 0x80)]
                         else None.
Proof.
  intros H0 H1. cbn [utf8_decode]. destruct (N.ltb_spec b0 0x80) as [A|A]; cbn [andb].
  - destruct (N.ltb_spec b1 0x80) as [B|B]; [reflexivity|]. cbn [option_map].
    assert (E : in_range 0xC2 0xDF b0 = false) by (unfold in_range; lia). rewrite E. cbn [andb].
    destruct (in_range 0xC2 0xDF b1); [reflexivity|]. destruct (in_range 0xE0 0xEF b1); [reflexivity|].
    destruct (in_range 0xF0 0xF4 b1); reflexivity.
  - destruct (in_range 0xC2 0xDF b0) eqn:C; cbn [andb]; [destruct (in_range 0x80 0xBF b1); reflexivity|].
    destruct (in_range 0xE0 0xEF b0); [reflexivity|]. destruct (in_range 0xF0 0xF4 b0); reflexivity.
Qed.
Lemma arc_codes_two : forall c x l, In (c, x, l) arc_codes -> exists a b, lit c = [a; b].
Proof. intros c x l H. cbn in H. repeat (destruct H as [H|H]; [injection H as <- _ _; eexists; eexists; reflexivity|]). destruct H. Qed.

Theorem C53_arc_bytes : forall raw x, bytes_ok raw -> (arc_from_slice raw = Ok x <-> len raw = 2 /\ arc_text_code raw x).
Proof.
  intros raw x Hb. unfold arc_from_slice. destruct (N.eqb_spec (len raw) 2) as [L|L]; cbn [negb].
  2:{ split; [discriminate|]. tauto. }
  destruct raw as [|b0 [|b1 [|b2 raw]]]; try discriminate L; [|unfold len in L; cbn in L; lia].
  apply bytes_ok_cons in Hb. destruct Hb as [B0 Hb]. apply bytes_ok_cons in Hb. destruct Hb as [B1 _].
  rewrite utf8_decode_pair by assumption.
  destruct ((b0 <? 0x80) && (b1 <? 0x80)) eqn:A.
  - rewrite C53_arc_text. tauto.
  - assert (No : ~ arc_text_code [b0; b1] x).
    { intros (c & l & Hin & E). rewrite andb_false_iff in A.
      assert (Hall : forallb (fun r => forallb (fun c => c <? 0x80) (lit (fst (fst r)))) arc_codes = true) by (vm_compute; reflexivity).
      rewrite forallb_forall in Hall. specialize (Hall _ Hin). cbn [fst] in Hall. rewrite <- E in Hall. cbn in Hall. lia. }
    destruct (in_range 0xC2 0xDF b0 && in_range 0x80 0xBF b1).
    + rewrite C53_arc_text. split; [|tauto]. intros (c & l & Hin & E). destruct (arc_codes_two c x l Hin) as (a & b & E'). congruence.
    + split; [discriminate|]. tauto.
Qed.
Theorem C53_arc_errors : forall raw, bytes_ok raw ->
  (len raw <> 2 -> arc_from_slice raw = Err (ByteCountIncorrect Eq 2 (len raw)))
  /\ (forall b0 b1, raw = [b0; b1] -> (arc_from_slice raw = Err InvalidNumber <-> ~ utf8_pair b0 b1))
  /\ (forall b0 b1, raw = [b0; b1] ->
        (arc_from_slice raw = Err Unrecognised <-> utf8_pair b0 b1 /\ forall x, ~ arc_text_code raw x)).
Proof.
  intros raw Hb. split; [|split].
  - intros L. unfold arc_from_slice. apply N.eqb_neq in L. now rewrite L.
  - intros b0 b1 ->. unfold arc_from_slice. change (negb (len [b0; b1] =? 2)) with false. cbn iota.
    apply bytes_ok_cons in Hb. destruct Hb as [B0 Hb]. apply bytes_ok_cons in Hb. destruct Hb as [B1 _].
    rewrite utf8_decode_pair by assumption. unfold utf8_pair.
    destruct ((b0 <? 0x80) && (b1 <? 0x80)) eqn:A.
    + rewrite arc_find. split; [destruct (find_arc arc_codes [b0; b1]); discriminate|]. lia.
    + destruct (in_range 0xC2 0xDF b0 && in_range 0x80 0xBF b1) eqn:R; unfold in_range in R.
      * rewrite arc_find. split; [destruct (find_arc _ _); discriminate|]. lia.
      * split; [|reflexivity]. lia.
  - intros b0 b1 ->. pose proof (fun x => C53_arc_bytes [b0; b1] x Hb) as W. unfold arc_from_slice in *. change (negb (len [b0; b1] =? 2)) with false in *. cbn iota in *.
    apply bytes_ok_cons in Hb. destruct Hb as [B0 Hb]. apply bytes_ok_cons in Hb. destruct Hb as [B1 _].
    rewrite utf8_decode_pair in * by assumption. unfold utf8_pair.
    destruct ((b0 <? 0x80) && (b1 <? 0x80)) eqn:A.
    + rewrite arc_find in *. destruct (find_arc arc_codes [b0; b1]) as [y|].
      * split; [discriminate|]. intros [_ H]. exfalso. apply (H y). now apply W.
      * split; [intros _|reflexivity]. split; [lia|]. intros x Hx. specialize (W x). assert (X : len [b0; b1] = 2 /\ arc_text_code [b0; b1] x) by auto.
        apply W in X. discriminate.
    + destruct (in_range 0xC2 0xDF b0 && in_range 0x80 0xBF b1) eqn:R; unfold in_range in R.
      * rewrite arc_find in *. destruct (find_arc arc_codes _) as [y|].
        -- split; [discriminate|]. intros [_ H]. exfalso. apply (H y). now apply W.
        -- split; [intros _|reflexivity]. split; [lia|]. intros x Hx. specialize (W x). assert (X : len [b0; b1] = 2 /\ arc_text_code [b0; b1] x) by auto.
           apply W in X. discriminate.
      * split; [discriminate|]. lia.
Qed.
Theorem C53_arc_shows : forall c x s, In (c, x, s) arc_codes -> authorisation_response_code_text x = lit s.
Proof. intros c x s H. cbn in H. repeat (destruct H as [H|H]; [injection H as _ <- <-; reflexivity|]). destruct H. Qed.
Example C53_example : arc_text_code [0x30; 0x35] AuthorisationResponseCode_Decline /\ ~ utf8_pair 0xFF 0x30.
Proof. split; [eexists; eexists; cbn; split; [do 5 right; left; reflexivity|reflexivity]|unfold utf8_pair; lia]. Qed.
