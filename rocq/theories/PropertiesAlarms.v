(** The property of the colours of warnings and errors. *)

From Coq Require Import ZArith NArith String List Bool Lia ZifyN ZifyBool ZifyNat Permutation Sorting.
From Verif Require Import Base ModelUtil ModelEnums ModelBitflag ModelSchemas ModelTags ModelTlv ModelValues ModelProcess ModelDisplay
  SpecUtil SpecCodes SpecValues SpecTlv SpecIngenico SpecTags SpecProcess SpecDisplay
  ProofsUtil ProofsGrammar ProofsBer ProofsIngenico ProofsValues PropertiesValues
  PropertiesBer PropertiesIngenico ProofsProcess PropertiesProcess ProofsDisplay ProofsDiagram ProofsScreens ProofsLayout PropertiesDisplay
  SpecPictures ProofsPictures ModelMain SpecMain ProofsMain PropertiesMain ModelCli SpecCli ProofsCli PropertiesCli PropertiesPictures
  SpecReading PropertiesReading ModelTerminal SpecTerminal ProofsTerminal PropertiesTerminal SpecTells ProofsTells PropertiesTells PropertiesScope PropertiesColumns SpecAlarms.
Import ListNotations.
Local Open Scope N_scope.

(** ** Lines *)

Definition tint (c : color) (ls : list line) : str := flat_map (line_colour c) ls.
Lemma tint_cons c l ls : tint c (l :: ls) = line_colour c l ++ tint c ls.
Proof. reflexivity. Qed.
Lemma tint_app c a b : tint c (a ++ b) = tint c a ++ tint c b.
Proof. unfold tint. apply flat_map_app. Qed.
Lemma has_colour_iff c st x : has_colour c (st, x) = true <-> exists b, st = Some (mkSpec b (Some c)).
Proof.
  unfold has_colour. cbn [fst]. split; [|intros (b & ->); now destruct c].
  destruct st as [[b [f|]]|]; try (intros K; discriminate K). intros H. exists b. destruct f, c; try discriminate H; reflexivity.
Qed.
Lemma tint_render c ls : in_colour c (render ls) <-> tint c ls <> [].
Proof.
  assert (E : tint c ls = map snd (filter (has_colour c) (render ls))).
  { unfold tint, render. induction ls as [|l ls IH]; [reflexivity|]. cbn [flat_map]. now rewrite filter_app, map_app, IH. }
  rewrite E. clear E. unfold in_colour. generalize (render ls). intros r. clear ls. split.
  - intros (b & x & I) K. assert (J : In (Some (mkSpec b (Some c)), x) (filter (has_colour c) r)) by (apply filter_In; split; [assumption|apply has_colour_iff; eauto]).
    apply map_eq_nil in K. rewrite K in J. destruct J.
  - intros K. destruct (filter (has_colour c) r) as [|[st x] z] eqn:F; [now contradiction K|]. assert (J : In (st, x) (filter (has_colour c) r)) by (rewrite F; now left).
    apply filter_In in J. destruct J as [J1 J2]. apply has_colour_iff in J2. destruct J2 as (b & ->). eauto.
Qed.
(* Lines in the usual styles only. *)
Definition usual (l : line) : Prop := Forall (fun st => st = None \/ st = bold \/ st = heading) (l_end l :: map fst (l_spans l)).
Lemma tint_usual c ls : c <> Cyan -> Forall usual ls -> tint c ls = [].
Proof.
  intros C. induction 1 as [|l ls U _ IH]; [reflexivity|]. rewrite tint_cons, IH, app_nil_r. inversion U as [|x y He Hs]; subst.
  assert (G : forall st, st = None \/ st = bold \/ st = heading -> forall x, has_colour c (st, x) = false) by (intros st [-> | [-> | ->]] x; destruct c; reflexivity || contradiction).
  apply line_colour_none; [|now apply G]. apply Forall_map in Hs. eapply Forall_impl; [|exact Hs]. intros sp Hsp. now apply G.
Qed.
Lemma usual_one c l : c <> Cyan -> usual l -> line_colour c l = [].
Proof. intros C U. pose proof (tint_usual c [l] C ltac:(now constructor)) as H. unfold tint in H. cbn [flat_map] in H. now rewrite app_nil_r in H. Qed.
Ltac usual := repeat first [apply Forall_nil | apply Forall_cons | progress unfold usual, titled, row, heading_row, bold_row; cbn [l_end l_spans map fst] | tauto].
Lemma usual_rows {A} (f : A -> line) l : (forall x, usual (f x)) -> Forall usual (map f l).
Proof. intros H. apply Forall_map. apply Forall_forall. auto. Qed.

(** ** Diagrams *)

Definition rises (c : color) (rs : list bit_range) : Prop := exists r, In r rs /\ severity_has c (r_sev r) = true.
Lemma diagram_rises c n raw rs i show : c <> Cyan -> (tint c (diagram n raw rs i show) <> [] <-> show = true /\ rises c rs).
Proof.
  intros C. unfold tint. rewrite diagram_coloured by assumption. destruct show; [|split; [intros K; now contradiction K|intros [K _]; discriminate K]]. unfold rises. split.
  - intros K. split; [reflexivity|]. destruct (filter _ (rev rs)) as [|r z] eqn:F; [now contradiction K|]. assert (J : In r (filter (fun r => severity_has c (r_sev r)) (rev rs))) by (rewrite F; now left).
    apply filter_In in J. destruct J as [J1 J2]. exists r. split; [now apply in_rev|assumption].
  - intros (_ & r & I & S) K. assert (J : In r (filter (fun r => severity_has c (r_sev r)) (rev rs))) by (apply filter_In; split; [now apply -> in_rev|assumption]).
    destruct (filter _ (rev rs)) as [|r' z]; [destruct J|]. cbn [flat_map] in K. apply app_eq_nil in K. destruct K as [K _]. apply app_eq_nil in K. destruct K as [_ K]. discriminate K.
Qed.
(* The flags of a byte. *)
Definition byte_rises (c : color) (t : list bit_field) (k b : N) : bool :=
  existsb (fun e => (e_byte e =? k) && severity_has c (e_sev e) && (bits_of b (e_hi e) (e_lo e) =? 1)) t.
Definition agree (c : color) (t : list bit_field) (n : nat) (m : list N) : bool :=
  forallb (fun k => forallb (fun b => Bool.eqb (byte_rises c t (N.of_nat k + 1) b) (negb (N.land b (nth k m 0) =? 0))) all_bytes) (seq 0 n)
  && forallb (fun e => (1 <=? e_byte e) && (e_byte e <=? N.of_nat n) && match e_kind e with Flag => true | _ => negb (severity_has c (e_sev e)) end) t
  && (List.length m <=? n)%nat.
Lemma nth_ok d k : bytes_ok d -> nth k d 0 < 256.
Proof. intros B. destruct (nth_in_or_default k d 0) as [I| ->]; [|lia]. unfold bytes_ok in B. rewrite Forall_forall in B. now apply B. Qed.
Lemma shown_rises c t n m d w : agree c t n m = true -> bytes_ok d -> (rises c (all_shown w t d) <-> hits m d).
Proof.
  unfold agree. intros A B. apply andb_prop in A. destruct A as [A A3]. apply andb_prop in A. destruct A as [A1 A2]. apply Nat.leb_le in A3. rewrite forallb_forall in A1, A2.
  assert (Hb : forall k, (k < n)%nat -> (byte_rises c t (N.of_nat k + 1) (nth k d 0) = true <-> N.land (nth k d 0) (nth k m 0) <> 0)).
  { intros k Hk. specialize (A1 k). rewrite in_seq in A1. specialize (A1 ltac:(lia)). pose proof (check_all_bytes _ A1 (nth k d 0) (nth_ok d k B)) as E. cbn beta in E. apply eqb_prop in E. rewrite E.
    rewrite negb_true_iff, N.eqb_neq. tauto. }
  unfold rises, hits. split.
  - intros (r & I & S). unfold all_shown in I. apply in_flat_map in I. destruct I as (e & He & I). specialize (A2 e He). apply andb_prop in A2. destruct A2 as [A2 A4]. apply andb_prop in A2. destruct A2 as [A2 A5]. apply N.leb_le in A2, A5.
    assert (K : e_kind e = Flag /\ field_bits e d = 1 /\ r_sev r = e_sev e).
    { unfold field_shown in I. destruct (e_kind e); [destruct (N.eqb_spec (field_bits e d) 1) as [Q|]; [|destruct I]; destruct I as [<-|[]]; auto|..];
        (destruct (decode _ (field_bits e d)) as [[v s]|]; [|destruct I]; destruct I as [<-|[]]; cbn [r_sev] in S; rewrite S in A4; discriminate A4). }
    destruct K as (_ & K & Sv). exists (N.to_nat (e_byte e - 1)). apply Hb; [lia|]. unfold byte_rises. apply existsb_exists. exists e. split; [assumption|].
    rewrite <- Sv, S. rewrite andb_true_iff. split; [|unfold field_bits in K; now rewrite K]. rewrite andb_true_r. apply N.eqb_eq. lia.
  - intros (k & H). destruct (Nat.lt_ge_cases k n) as [Hk|Hk]; [|exfalso; apply H; rewrite (nth_overflow m) by lia; apply N.land_0_r].
    apply (Hb k Hk) in H. unfold byte_rises in H. apply existsb_exists in H. destruct H as (e & He & H). apply andb_prop in H. destruct H as [H H3]. apply andb_prop in H. destruct H as [H1 H2]. apply N.eqb_eq in H1, H3.
    specialize (A2 e He). apply andb_prop in A2. destruct A2 as [_ A4]. destruct (e_kind e) eqn:K; try (rewrite H2 in A4; discriminate A4).
    exists (mkRange (8 * (w - e_byte e) + (e_hi e - 1)) (e_hi e - e_lo e + 1) (lit (e_label e)) (e_sev e)). split; [|exact H2]. unfold all_shown. apply in_flat_map. exists e. split; [assumption|].
    unfold field_shown. rewrite K. assert (F : field_bits e d = 1) by (unfold field_bits; rewrite H1; replace (N.to_nat (N.of_nat k + 1 - 1)) with k by lia; exact H3). rewrite F. now left.
Qed.
Definition quiet (c : color) (t : list bit_field) : bool := forallb (fun e => negb (severity_has c (e_sev e))) t.
Lemma shown_quiet c w t d : quiet c t = true -> ~ rises c (all_shown w t d).
Proof.
  unfold quiet. intros Q (r & I & S). rewrite forallb_forall in Q. unfold all_shown in I. apply in_flat_map in I. destruct I as (e & He & I). specialize (Q e He).
  assert (K : r_sev r = e_sev e).
  { unfold field_shown in I. destruct (e_kind e); [destruct (field_bits e d =? 1); [|destruct I]; destruct I as [<-|[]]; auto|..];
      (destruct (decode _ (field_bits e d)) as [[v s]|]; [|destruct I]; destruct I as [<-|[]]; reflexivity). }
  rewrite <- K, S in Q. discriminate Q.
Qed.
Lemma tvr_rises c d w : c <> Cyan -> bytes_ok d -> (rises c (all_shown w tvr_bits d) <-> hits (tvr_alarm c) d).
Proof. intros C B. apply shown_rises with 5%nat; [|assumption]. destruct c; [contradiction|vm_compute; reflexivity|vm_compute; reflexivity]. Qed.
Lemma cvr_rises c d w : c <> Cyan -> bytes_ok d -> (rises c (all_shown w cvr_bits d) <-> hits (cvr_alarm c) d).
Proof. intros C B. apply shown_rises with 5%nat; [|assumption]. destruct c; [contradiction|vm_compute; reflexivity|vm_compute; reflexivity]. Qed.

(** ** Values *)

Lemma bits_tint c n t used d q i show : c <> Cyan -> bits_picture n t used d = Some q -> (tint c (q i show) <> [] <-> show = true /\ rises c (all_shown n t d)).
Proof.
  unfold bits_picture. intros C H. destruct (_ && _); [|discriminate]. assert (E : q = diagram n (keep_bits d used) (all_shown n t d)) by congruence. rewrite E. now apply diagram_rises.
Qed.
Lemma bits_dull c n t used d q i show : c <> Cyan -> quiet c t = true -> bits_picture n t used d = Some q -> tint c (q i show) = [].
Proof.
  intros C Q H. pose proof (bits_tint c n t used d q i show C H) as B. destruct (tint c (q i show)) as [|x z] eqn:E; [reflexivity|]. destruct (proj1 B) as [_ R]; [intros K; discriminate K|]. now apply shown_quiet in R.
Qed.
Lemma action_dull c sentence d q i show : c <> Cyan -> action_picture sentence d = Some q -> tint c (q i show) = [].
Proof.
  unfold action_picture. intros C. destruct (bits_picture 5 tvr_bits tvr_used d) as [r|] eqn:E; [|discriminate]. cbn [option_map]. intros H.
  assert (Q : q = fun i _ => heading_row i (lit sentence) :: r i false) by congruence. rewrite Q. clear Q H. rewrite tint_cons, usual_one; [|assumption|usual].
  pose proof (bits_tint c _ _ _ _ r i false C E) as B. cbn [app]. destruct (tint c (r i false)); [reflexivity|]. destruct (proj1 B) as [K _]; [intros K; discriminate K|discriminate K].
Qed.
Lemma code_dull {A} c (table : list (N * A * string)) d q i show : c <> Cyan -> code_picture table d = Some q -> tint c (q i show) = [].
Proof.
  unfold code_picture. intros C. destruct d as [|b [|]]; try discriminate. destruct (find_code table b) as [[a s]|]; [|discriminate]. cbn [option_map]. intros H. injection H as <-. apply tint_usual; [assumption|usual].
Qed.
Lemma response_dull c d q i show : c <> Cyan -> response_picture d = Some q -> tint c (q i show) = [].
Proof.
  unfold response_picture. intros C. destruct (find _ arc_codes) as [r|]; [|discriminate]. cbn [option_map]. intros H. match type of H with Some ?x = _ => assert (Q : q = x) by congruence end. rewrite Q. apply tint_usual; [assumption|usual].
Qed.
Lemma service_dull c n i show : c <> Cyan -> tint c (service_picture n i show) = [].
Proof. intros C. apply tint_usual; [assumption|]. unfold service_picture. cbv zeta. usual. Qed.
Lemma cvm_list_dull c d q i show : c <> Cyan -> cvm_list_picture d = Some q -> tint c (q i show) = [].
Proof.
  intros C. unfold cvm_list_picture. destruct (_ && _); [|discriminate]. cbv zeta. intros H. match type of H with Some ?x = _ => assert (Q : q = x) by congruence end. rewrite Q. clear Q H.
  apply tint_usual; [assumption|]. apply Forall_app. split.
  - match goal with |- context [if ?b then _ else _] => destruct b end; [constructor|]. unfold amounts_picture. cbv zeta. usual.
  - constructor; [usual|]. generalize (skipn 8 d), 1. clear. intros d. induction d as [d IH] using length_ind. intros k. destruct d as [|a [|b d]]; cbn [rules_picture]; [constructor|constructor|].
    do 4 (constructor; [usual|]). apply IH. cbn [List.length]. lia.
Qed.
Lemma cvm_results_tint c d q i show : c <> Cyan -> cvm_results_picture d = Some q -> (tint c (q i show) <> [] <-> show = true /\ c = Red /\ exists a b, d = [a; b; 1]).
Proof.
  intros C. unfold cvm_results_picture. destruct d as [|a [|b [|x [|]]]]; try discriminate. destruct (find_code cvm_result_codes x) as [[r s]|]; [|discriminate]. cbn [option_map]. intros H.
  match type of H with Some ?x = _ => assert (E : q = x) by congruence end. rewrite E. clear E H. rewrite diagram_rises by assumption. 
  assert (G : forall rs z, rises c (rs ++ [z]) <-> rises c rs \/ severity_has c (r_sev z) = true).
  { clear. intros rs z. unfold rises. split.
    - intros (r & I & S). apply in_app_iff in I. destruct I as [I|[<-|[]]]; [left; eauto|now right].
    - intros [(r & I & S)|S]; [exists r|exists z]; (split; [apply in_app_iff|assumption]); [now left|right; now left]. }
  rewrite G. cbn [r_sev]. split.
  - intros (Sh & [(y & I & S)|S]); (split; [assumption|]).
    + exfalso. apply in_map_iff in I. destruct I as (y' & <- & I). cbn [r_sev] in S. assert (R : rises c (all_shown 2 cv_rule_bits [a; b])) by (exists y'; auto). revert R. apply shown_quiet. destruct c; [contradiction|reflexivity|reflexivity].
    + destruct (N.eqb_spec x 1) as [->|]; [|destruct c; discriminate S]. split; [destruct c; discriminate S || reflexivity|]. exists a, b. reflexivity.
  - intros (Sh & -> & a' & b' & E). split; [assumption|]. right. injection E as _ _ ->. reflexivity.
Qed.
(* Issuer application data. *)
Lemma iad_tint c d q i show : c <> Cyan -> bytes_ok d -> iad_picture d = Some q -> (tint c (q i show) <> [] <-> show = true /\ hits (cvr_alarm c) (firstn 5 (skipn 3 d))).
Proof.
  intros C B. unfold iad_picture. cbv zeta. destruct (_ && _); [|discriminate]. intros H. match type of H with Some ?x = _ => assert (Q : q = x) by congruence end. rewrite Q. clear Q H.
  rewrite !tint_cons, !tint_app, !tint_cons, !tint_app, !tint_cons, !tint_app, !tint_cons.
  assert (Ht : forall h, tint c (heading_row i h :: []) = []) by (intros h; apply tint_usual; [assumption|usual]). unfold tint in Ht. cbn [flat_map] in Ht.
  rewrite !usual_one by (assumption || usual). cbn [app].
  assert (Hd : forall j l, tint c (hex_dump j l) = []) by (intros j l; apply tint_usual; [assumption|]; unfold hex_dump; apply usual_rows; intros x; usual).
  rewrite !Hd, !app_nil_r.
  assert (Hc : tint c (diagram 1 [nth 1 d 0] (all_shown 1 cci_bits [nth 1 d 0]) (i + 1) show) = []).
  { pose proof (diagram_rises c 1 [nth 1 d 0] (all_shown 1 cci_bits [nth 1 d 0]) (i + 1) show C) as D. destruct (tint c (diagram 1 _ _ _ _)); [reflexivity|]. destruct (proj1 D) as [_ R]; [intros K; discriminate K|].
    exfalso. revert R. apply shown_quiet. destruct c; [contradiction|reflexivity|reflexivity]. }
  rewrite Hc. cbn [app]. rewrite diagram_rises, cvr_rises; [tauto|assumption| |assumption].
  assert (Bs := skipn_ok 3 d B). rewrite <- (firstn_skipn 5 (skipn 3 d)) in Bs. now apply bytes_ok_app in Bs.
Qed.
Lemma split_at {A} k (d : list A) : (k <= List.length d)%nat -> exists a b, d = a ++ b /\ List.length a = k.
Proof. intros H. exists (firstn k d), (skipn k d). split; [now rewrite firstn_skipn|]. rewrite firstn_length. lia. Qed.
Lemma iad_parts cci dki cvr counters rest : len cvr = 5 -> len counters = 8 -> firstn 5 (skipn 3 (0x0F :: cci :: dki :: cvr ++ counters ++ 0x0F :: rest)) = cvr
  /\ nth 16 (0x0F :: cci :: dki :: cvr ++ counters ++ 0x0F :: rest) 0 = 0x0F.
Proof.
  intros L1 L2. unfold len in *. destruct cvr as [|c1 [|c2 [|c3 [|c4 [|c5 [|]]]]]]; cbn [List.length] in L1; try lia.
  destruct counters as [|d1 [|d2 [|d3 [|d4 [|d5 [|d6 [|d7 [|d8 [|]]]]]]]]]; cbn [List.length] in L2; try lia. split; reflexivity.
Qed.
Lemma iad_shape d q : iad_picture d = Some q ->
  exists cci dki cvr counters rest, d = 0x0F :: cci :: dki :: cvr ++ counters ++ 0x0F :: rest /\ (cci = 0xA5 \/ cci = 0xA6) /\ len cvr = 5 /\ len counters = 8 /\ len rest = 15 /\ firstn 5 (skipn 3 d) = cvr.
Proof.
  unfold iad_picture. cbv zeta. destruct (_ && _) eqn:E; [|discriminate]. intros _. repeat rewrite andb_true_iff in E. destruct E as [[[E1 E2] E3] E4]. apply N.eqb_eq in E1, E2, E3. apply orb_true_iff in E4. rewrite !N.eqb_eq in E4.
  destruct d as [|b0 [|cci [|dki d]]]; try discriminate E1. cbn [nth] in E2, E4. subst b0. rewrite !len_cons in E1.
  destruct (split_at 5 d ltac:(unfold len in E1; lia)) as (cvr & d' & -> & L1). rewrite len_app in E1. destruct (split_at 8 d' ltac:(unfold len in E1; lia)) as (counters & d'' & -> & L2). rewrite len_app in E1.
  destruct d'' as [|y rest]; [unfold len in E1; cbn [List.length] in E1; lia|]. rewrite len_cons in E1.
  exists cci, dki, cvr, counters, rest. assert (Y : y = 0x0F).
  { destruct cvr as [|c1 [|c2 [|c3 [|c4 [|c5 [|]]]]]]; cbn [List.length] in L1; try lia. destruct counters as [|d1 [|d2 [|d3 [|d4 [|d5 [|d6 [|d7 [|d8 [|]]]]]]]]]; cbn [List.length] in L2; try lia. exact E3. }
  subst y. split; [reflexivity|]. split; [assumption|]. split; [unfold len; lia|]. split; [unfold len; lia|]. split; [unfold len in *; lia|]. apply (iad_parts cci dki cvr counters rest); unfold len; lia.
Qed.
Lemma alarming_tags c t d : alarming c t d -> In t [[0x95]; [0x9F; 0x10]; [0x9F; 0x34]].
Proof. intros H. inversion H; cbn [In]; tauto. Qed.
Lemma tvr_allowed d : allowed tvr_bits d = true.
Proof. reflexivity. Qed.
Lemma alarming_pictured c t d : alarming c t d -> exists q, picture_of t d = Some q.
Proof.
  intros H. inversion H as [d' L _|cci dki cvr counters rest Hc L1 L2 L3 _|a b _]; subst.
  - exists (diagram 5 (keep_bits d tvr_used) (all_shown 5 tvr_bits d)). change (picture_of [0x95] d) with (bits_picture 5 tvr_bits tvr_used d). unfold bits_picture. now rewrite L, tvr_allowed.
  - match goal with |- exists q, picture_of _ ?d = _ => change (picture_of [0x9F; 0x10] d) with (iad_picture d) end. destruct (iad_parts cci dki cvr counters rest L1 L2) as [_ P]. unfold iad_picture. cbv zeta. rewrite P. rewrite !len_cons, !len_app, len_cons, L1, L2, L3.
    cbn [nth]. destruct Hc as [-> | ->]; eexists; reflexivity.
  - change (picture_of [0x9F; 0x34] [a; b; 1]) with (cvm_results_picture [a; b; 1]). eexists. reflexivity.
Qed.
Lemma quiet_tag c t d (q : picture) i show : tint c (q i show) = [] -> ~ In t [[0x95]; [0x9F; 0x10]; [0x9F; 0x34]] -> (tint c (q i show) <> [] <-> show = true /\ alarming c t d).
Proof. intros H N. rewrite H. split; [intros K; now contradiction K|]. intros [_ A]. apply alarming_tags in A. contradiction. Qed.
Lemma tvr_alarming c d : len d = 5 -> (alarming c [0x95] d <-> hits (tvr_alarm c) d).
Proof. intros L. split; [intros H; now inversion H|]. intros H. now constructor. Qed.
Lemma iad_alarming c d q : iad_picture d = Some q -> (alarming c [0x9F; 0x10] d <-> hits (cvr_alarm c) (firstn 5 (skipn 3 d))).
Proof.
  intros Q. destruct (iad_shape d q Q) as (cci & dki & cvr & counters & rest & E & Hc & L1 & L2 & L3 & F). rewrite F. split.
  - intros H. inversion H as [|cci' dki' cvr' counters' rest' Hc' L1' L2' L3' Hh Et E'|]. clear E. rewrite <- E' in F. rewrite (proj1 (iad_parts cci' dki' cvr' counters' rest' L1' L2')) in F. now subst.
  - intros H. rewrite E. now constructor.
Qed.
Lemma cvm_alarming c d : alarming c [0x9F; 0x34] d <-> c = Red /\ exists a b, d = [a; b; 1].
Proof. split; [intros H; inversion H; subst; eauto|]. intros (-> & a & b & ->). now constructor. Qed.
Lemma picture_alarm c t d q i show : c <> Cyan -> bytes_ok d -> picture_of t d = Some q -> (tint c (q i show) <> [] <-> show = true /\ alarming c t d).
Proof.
  intros C B. unfold picture_of. destruct (SpecPictures.lookup pictures t) as [f|] eqn:F; [|discriminate]. intros H. apply ProofsPictures.lookup_in in F. rename F into I.
  unfold pictures in I. cbn [In] in I.
  repeat (destruct I as [I|I]; [assert (E : f = snd (t, f)) by reflexivity; assert (E' : t = fst (t, f)) by reflexivity; rewrite <- I in E, E'; cbn [fst snd] in E, E'; subst f t; clear I|]); [..|destruct I].
  all: try (apply quiet_tag; [|cbn [In]; intros [K|[K|[K|[]]]]; discriminate K]).
  - unfold service_data_picture in H. destruct d as [|a [|b [|]]]; try discriminate. destruct (_ && _); [|discriminate]. match type of H with Some ?x = _ => assert (E : q = x) by congruence end. rewrite E. now apply service_dull.
  - now apply (response_dull c d).
  - now apply (cvm_list_dull c d).
  - rewrite (bits_tint c _ _ _ _ q i show C H), tvr_rises by assumption. unfold bits_picture in H. destruct (N.eqb_spec (len d) 5) as [L|]; [|discriminate H]. now rewrite tvr_alarming.
  - apply (bits_dull c 2 tsi_bits tsi_used d); try assumption. destruct c; [contradiction|reflexivity|reflexivity].
  - now apply (code_dull c transaction_type_codes d).
  - exact (action_dull c _ d q i show C H).
  - exact (action_dull c _ d q i show C H).
  - exact (action_dull c _ d q i show C H).
  - rewrite (iad_tint c d q i show C B H), (iad_alarming c d q H). tauto.
  - apply (bits_dull c 3 termcap_bits termcap_used d); try assumption. destruct c; [contradiction|reflexivity|reflexivity].
  - rewrite (cvm_results_tint c d q i show C H), cvm_alarming. tauto.
  - now apply (code_dull c terminal_type_codes d).
  - now apply (code_dull c pos_entry_mode_codes d).
  - apply (bits_dull c 5 addtermcap_bits addtermcap_used d); try assumption. destruct c; [contradiction|reflexivity|reflexivity].
Qed.

(** ** Blocks *)

Definition tag_alarming (c : color) (t : raw_tag) : Prop := exists d, rt_data t = Normal d /\ alarming c (rt_tag t) d.
Lemma tag_tint c t i show : c <> Cyan -> data_ok t -> (tint c (tag_lines t i show) <> [] <-> show = true /\ tag_alarming c t).
Proof.
  intros C B. unfold tag_lines, data_ok in *. rewrite tint_cons, tint_app. assert (U1 : usual (tag_row i t (tag_title t))) by (unfold tag_row; usual). rewrite (usual_one c _ C U1). cbn [app].
  assert (D : tint c (data_lines i t) = []).
  { apply tint_usual; [assumption|]. unfold data_lines. destruct (rt_data t) as [[|b d]|]; [constructor| |constructor; [usual|constructor]]. constructor; [usual|]. unfold wide_dump. apply usual_rows. intros x. usual. }
  rewrite D. cbn [app]. unfold meaning_lines, tag_alarming. destruct (rt_data t) as [d|]; [|split; [intros K; now contradiction K|intros (_ & d & K & _); discriminate K]].
  destruct (picture_of (rt_tag t) d) as [q|] eqn:Q.
  - rewrite tint_cons, usual_one by (assumption || usual). cbn [app]. rewrite (picture_alarm c _ d q (i + 1) show C B Q). split.
    + intros (Sh & A). split; [assumption|]. exists d. auto.
    + intros (Sh & d' & E & A). injection E as <-. auto.
  - split; [intros K; now contradiction K|]. intros (_ & d' & E & A). injection E as <-. apply alarming_pictured in A. destruct A as (q & A). congruence.
Qed.
Lemma tint_in c ls : tint c ls <> [] <-> exists l, In l ls /\ line_colour c l <> [].
Proof.
  unfold tint. induction ls as [|l ls IH]; [split; [intros K; now contradiction K|intros (l & [] & _)]|]. cbn [flat_map]. split.
  - intros K. destruct (line_colour c l) as [|x z] eqn:E.
    + apply IH in K. destruct K as (y & Hy & K). exists y. split; [now right|assumption].
    + exists l. split; [now left|]. rewrite E. intros Q. discriminate Q.
  - intros (y & [<-|Hy] & K) Q; apply app_eq_nil in Q; [now apply K|]. apply IH; [exists y; auto|apply Q].
Qed.
Lemma separated_tint c (l : list (list line)) : c <> Cyan -> (tint c (separated l) <> [] <-> exists y, In y l /\ tint c y <> []).
Proof.
  intros C. split.
  - intros K. apply tint_in in K. destruct K as (x & I & K). apply in_separated in I. destruct I as [->|(y & Hy & Hx)].
    + exfalso. apply K. apply usual_one; [assumption|]. unfold blank. usual.
    + exists y. split; [assumption|]. apply tint_in. eauto.
  - intros (y & I & K). induction l as [|a l IH]; [destruct I|]. rewrite separated_cons, tint_app. intros Q. apply app_eq_nil in Q. destruct Q as [Q1 Q2]. destruct I as [->|I]; [contradiction|].
    destruct l as [|b l]; [destruct I|]. rewrite tint_cons in Q2. apply app_eq_nil in Q2. now apply (IH I).
Qed.
Lemma tree_tint c : c <> Cyan -> forall n i, Forall data_ok (preorder n) -> (tint c (tree_lines true n i) <> [] <-> exists t, In t (preorder n) /\ tag_alarming c t).
Proof.
  intros C. fix IH 1. intros [t ch] i S. cbn [tree_lines preorder] in *. pose proof (Forall_inv S) as St. pose proof (Forall_inv_tail S) as Sc. clear S.
  assert (G : forall ch, Forall data_ok (flat_map preorder ch) -> ((exists y, In y (map (fun n => tree_lines true n (i + 1)) ch) /\ tint c y <> []) <-> exists t, In t (flat_map preorder ch) /\ tag_alarming c t)).
  { clear - IH. induction ch as [|n ch IHc]; [intros _; split; [intros (y & [] & _)|intros (t & [] & _)]|]. cbn [flat_map map]. intros S. apply Forall_app in S. destruct S as [S1 S2]. specialize (IH n (i + 1) S1). specialize (IHc S2). split.
    - intros (y & [<-|Hy] & K).
      + apply IH in K. destruct K as (t & Ht & K). exists t. split; [apply in_app_iff; now left|assumption].
      + destruct (proj1 IHc (ex_intro _ y (conj Hy K))) as (t & Ht & Kt). exists t. split; [apply in_app_iff; now right|assumption].
    - intros (t & Ht & K). apply in_app_iff in Ht. destruct Ht as [Ht|Ht].
      + eexists. split; [now left|]. apply IH. eauto.
      + destruct (proj2 IHc (ex_intro _ t (conj Ht K))) as (y & Hy & Ky). exists y. split; [now right|assumption]. }
  specialize (G ch Sc). rewrite tint_app. pose proof (tag_tint c t i true C St) as Ht.
  assert (A : tint c match ch with [] => [] | _ :: _ => heading_row i (lit "Constructed Data Object's Child Tags:") :: separated (map (fun n => tree_lines true n (i + 1)) ch) end <> [] <-> exists t, In t (flat_map preorder ch) /\ tag_alarming c t).
  { rewrite <- G. clear G Sc IH. destruct ch as [|n ch]; [split; [intros K; now contradiction K|intros (y & [] & _)]|]. rewrite tint_cons, usual_one by (assumption || usual). cbn [app]. now apply separated_tint. }
  clear G. split.
  - intros K. destruct (tint c (tag_lines t i true)) as [|x z].
    + apply A in K. destruct K as (u & Hu & K). exists u. split; [now right|assumption].
    + exists t. split; [now left|]. apply Ht. intros Q. discriminate Q.
  - intros (u & [<-|Hu] & K) Q; apply app_eq_nil in Q; destruct Q as [Q1 Q2].
    + now apply (proj2 Ht (conj eq_refl K)).
    + now apply (proj2 A (ex_intro _ u (conj Hu K))).
Qed.
Lemma forest_tint c ns i : c <> Cyan -> Forall data_ok (flat_map preorder ns) -> (tint c (forest_lines ns i true) <> [] <-> exists t, In t (flat_map preorder ns) /\ tag_alarming c t).
Proof.
  intros C S. unfold forest_lines. rewrite (separated_tint c _ C). split.
  - intros (y & Hy & K). apply in_map_iff in Hy. destruct Hy as (n & <- & Hn). assert (Sn : Forall data_ok (preorder n)) by (apply Forall_forall; intros t Ht; rewrite Forall_forall in S; apply S, in_flat_map; eauto).
    apply (tree_tint c C n i Sn) in K. destruct K as (t & Ht & K). exists t. split; [apply in_flat_map; eauto|assumption].
  - intros (t & Ht & K). apply in_flat_map in Ht. destruct Ht as (n & Hn & Ht). assert (Sn : Forall data_ok (preorder n)) by (apply Forall_forall; intros u Hu; rewrite Forall_forall in S; apply S, in_flat_map; eauto).
    eexists. split; [apply in_map_iff; exists n; split; [reflexivity|assumption]|]. apply (tree_tint c C n i Sn). eauto.
Qed.
Lemma tint_perm c ls ls' : Permutation ls ls' -> (tint c ls <> [] <-> tint c ls' <> []).
Proof. intros P. rewrite !tint_in. split; intros (l & I & K); exists l; (split; [|assumption]); [now apply (Permutation_in _ P)|now apply (Permutation_in _ (Permutation_sym P))]. Qed.

Lemma alarm_cases c masks op s : alarm c masks op s <->
  (exists t, In (op, t) [(OpTvr, [0x95]); (OpIad, [0x9F; 0x10]); (OpCvmResults, [0x9F; 0x34])] /\ alarming c t (hex_bytes s))
  \/ (op = OpCvr /\ hits (cvr_alarm c) (hex_bytes s))
  \/ (exists f ns t, tlv_block masks op s f ns /\ In t (flat_map preorder ns) /\ tag_alarming c t).
Proof.
  split.
  - intros H. inversion H as [op' t s' I A|s' A|op' s' f ns t d B I D A]; subst; [left; eauto|right; left; auto|right; right]. exists f, ns, t. split; [assumption|]. split; [assumption|]. exists d. auto.
  - intros [(t & I & A)|[[-> A]|(f & ns & t & B & I & d & D & A)]]; [now apply alarm_value with t|now constructor|now apply alarm_block with f ns t d].
Qed.
Lemma no_block masks op s f ns : In op [OpTvr; OpIad; OpCvr; OpTsi; OpCvmResults; OpCvmList; OpIdentify; OpServiceCode] -> ~ tlv_block masks op s f ns.
Proof. intros I B. inversion B; subst; cbn [In] in I; repeat (destruct I as [I|I]; [discriminate I|]); destruct I. Qed.
Lemma alarm_tagged c masks op t s : In (op, t) [(OpTvr, [0x95]); (OpIad, [0x9F; 0x10]); (OpCvmResults, [0x9F; 0x34])] -> (alarm c masks op s <-> alarming c t (hex_bytes s)).
Proof.
  intros I. rewrite alarm_cases. split; [|intros A; left; eauto]. cbn [In] in I.
  destruct I as [I|[I|[I|[]]]]; injection I as <- <-; (intros [(t & J & A)|[[J _]|(f & ns & t & B & _)]]; [cbn [In] in J; destruct J as [J|[J|[J|[]]]]; try discriminate J; injection J as <-; exact A|discriminate J|exfalso; revert B; apply no_block; cbn [In]; tauto]).
Qed.
Lemma alarm_never c masks op s : In op [OpTsi; OpCvmList; OpIdentify; OpServiceCode] -> ~ alarm c masks op s.
Proof.
  intros I A. apply alarm_cases in A. cbn [In] in I. destruct A as [(t & J & _)|[[-> _]|(f & ns & t & B & _)]].
  - cbn [In] in J. destruct J as [J|[J|[J|[]]]]; injection J as <- _; repeat (destruct I as [I|I]; [discriminate I|]); destruct I.
  - repeat (destruct I as [I|I]; [discriminate I|]); destruct I.
  - revert B. apply no_block. cbn [In]. tauto.
Qed.
Lemma dull_iff c ls (P : Prop) : tint c ls = [] -> ~ P -> (tint c ls <> [] <-> P).
Proof. intros -> N. split; [intros K; now contradiction K|contradiction]. Qed.

(** C106: the colours of warnings and errors. *)
(* Something is yellow or red exactly when the data are alarming. *)
Theorem C106_colours : forall p masks sort op s ls c, text64 p s -> sheet masks sort op s ls -> c <> Cyan ->
  (in_colour c (render ls) <-> alarm c masks op s).
Proof.
  intros p masks sort op s ls c T H C. rewrite tint_render. pose proof (hex_input64 p s T) as (_ & Bs & _). rewrite <- hex_bytes_eq in Bs.
  inversion H as [f q I E|n O D N|f ns ns' B N A]; subst.
  - unfold byte_operations in I. cbn [In] in I.
    repeat (destruct I as [I|I]; [assert (F : f = snd (op, f)) by reflexivity; assert (O : op = fst (op, f)) by reflexivity; rewrite <- I in F, O; cbn [fst snd] in F, O; subst f op; clear I|]); [..|destruct I].
    + rewrite (alarm_tagged c masks OpTvr [0x95]) by (cbn [In]; tauto). change (picture_of [0x95] (hex_bytes s) = Some q) in E. rewrite (picture_alarm c _ _ q 0 true C Bs E). tauto.
    + rewrite (alarm_tagged c masks OpIad [0x9F; 0x10]) by (cbn [In]; tauto). change (picture_of [0x9F; 0x10] (hex_bytes s) = Some q) in E. rewrite (picture_alarm c _ _ q 0 true C Bs E). tauto.
    + rewrite (bits_tint c _ _ _ _ q 0 true C E), cvr_rises by assumption. split; [intros [_ K]; now constructor|]. intros K. split; [reflexivity|].
      apply alarm_cases in K. destruct K as [(t & J & _)|[[_ K]|(f & ns & t & B & _)]]; [cbn [In] in J; destruct J as [J|[J|[J|[]]]]; discriminate J|assumption|]. exfalso. revert B. apply no_block. cbn [In]. tauto.
    + apply dull_iff; [|apply alarm_never; cbn [In]; tauto]. apply (bits_dull c 2 tsi_bits tsi_used (hex_bytes s)); try assumption. destruct c; [contradiction|reflexivity|reflexivity].
    + rewrite (alarm_tagged c masks OpCvmResults [0x9F; 0x34]) by (cbn [In]; tauto). change (picture_of [0x9F; 0x34] (hex_bytes s) = Some q) in E. rewrite (picture_alarm c _ _ q 0 true C Bs E). tauto.
    + apply dull_iff; [|apply alarm_never; cbn [In]; tauto]. now apply (cvm_list_dull c (hex_bytes s)).
    + apply dull_iff; [|apply alarm_never; cbn [In]; tauto]. unfold identify_picture in E. destruct (hex_bytes s) as [|b t]; [discriminate|]. match type of E with Some ?y = _ => assert (Q : q = y) by congruence end. rewrite Q. apply tint_usual; [assumption|usual].
  - apply dull_iff; [|apply alarm_never; cbn [In]; tauto]. now apply service_dull.
  - pose proof (tlv_data_ok p masks op s f ns T B) as Do. unfold forest_data_ok in Do. rewrite tint_app.
    assert (Fm : tint c (format_lines f) = []) by (apply tint_usual; [assumption|]; destruct f as [[]|]; unfold format_lines; cbn; usual). rewrite Fm. cbn [app].
    assert (P : tint c (forest_lines ns' 0 true) <> [] <-> tint c (forest_lines ns 0 true) <> []) by (destruct sort; [symmetry; apply tint_perm; now apply in_order_lines|now subst]).
    rewrite P, (forest_tint c ns 0 C Do), alarm_cases. split.
    + intros (t & I & K). right. right. eauto 6.
    + intros [(t & J & _)|[[-> _]|(f' & ms & t & B' & I & K)]].
      * exfalso. cbn [In] in J. destruct J as [J|[J|[J|[]]]]; injection J as <- _; revert B; apply no_block; cbn [In]; tauto.
      * exfalso. revert B. apply no_block. cbn [In]. tauto.
      * destruct (tlv_block_det p _ _ _ _ _ _ _ T B B') as [_ <-]. eauto.
Qed.
(* The same for the program, whichever of the two colours it is. *)
Theorem C106_program : forall p e m st op s c, load_settings e m = Ok st -> chosen m op s -> text64 p s -> c <> Cyan ->
  (in_colour c (screen None (o_stdout (run_main p e m))) -> alarm c (set_masking st) op s)
  /\ (o_panic (run_main p e m) = false -> o_stderr (run_main p e m) = [] -> alarm c (set_masking st) op s -> in_colour c (screen None (o_stdout (run_main p e m)))).
Proof.
  intros p e m st op s c L C T Hc. rewrite (main_chosen p e m st op s L C). destruct (run_one_first p st op s T) as [(ls & k & B & _ & rest & R)|(er & Rf & _ & _ & E & Er)].
  - pose proof B as B0. apply (C73_sheet p _ _ _ _ ls k T) in B. destruct B as [B ->]. pose proof (C106_colours p _ _ op s ls c T B Hc) as X. split.
    + intros (b & x & I). apply X. exists b, x. rewrite R. apply in_app_iff. now left.
    + intros Pn _ A. apply X in A. destruct (run_one_exact p st op s T) as [(ls' & k' & B' & S & N)|(er & Rf & _)]; [|exfalso; exact (breakdown_not_refused p _ _ op s _ _ er T B0 Rf)].
      destruct (breakdown_det p _ _ op s _ _ _ _ T B0 B') as [<- <-]. 
      assert (D : fits p (deepest ls) \/ ~ fits p (deepest ls)).
      { unfold fits. destruct (overflow_checks p); [|left; discriminate]. destruct (N.lt_ge_cases (deepest ls) 256) as [H|H]; [left; intros _; exact H|right; intros Y; specialize (Y eq_refl); lia]. }
      destruct D as [D|D]; [|exfalso; destruct (N D) as [N1 _]; congruence]. destruct (S D) as (_ & _ & _ & Sc & _). now rewrite Sc.
  - split; [intros (b & x & I); rewrite E in I; destruct I|]. intros _ K _. rewrite Er in K. destruct (error_text er); discriminate K.
Qed.
(* Action codes name the same bits and are never alarming, nor is anything masked. *)
Theorem C106_silent : forall p masks sort op s ls f ns c, text64 p s -> sheet masks sort op s ls -> c <> Cyan -> tlv_block masks op s f ns ->
  Forall (fun t => rt_data t = Masked \/ ~ In (rt_tag t) [[0x95]; [0x9F; 0x10]; [0x9F; 0x34]]) (flat_map preorder ns) -> ~ in_colour c (render ls).
Proof.
  intros p masks sort op s ls f ns c T H C B F K. apply (C106_colours p masks sort op s ls c T H C), alarm_cases in K. destruct K as [(t & J & _)|[[-> _]|(f' & ms & t & B' & I & d & D & K)]].
  - cbn [In] in J. destruct J as [J|[J|[J|[]]]]; injection J as <- _; revert B; apply no_block; cbn [In]; tauto.
  - revert B. apply no_block. cbn [In]. tauto.
  - destruct (tlv_block_det p _ _ _ _ _ _ _ T B B') as [_ <-]. rewrite Forall_forall in F. destruct (F t I) as [M|M]; [congruence|]. now apply alarming_tags in K.
Qed.
Example C106_example : exists ls, text64 p64 (lit "9F0D05FFFFFFFFFF 95050800000000") /\ sheet [42] false OpBer (lit "9F0D05FFFFFFFFFF 95050800000000") ls
  /\ in_colour Red (render ls) /\ ~ in_colour Yellow (render ls) /\ alarm Red [42] OpCvmResults (lit "1E0301") /\ ~ alarm Red [42] OpCvmResults (lit "1E0302").
Proof.
  set (n := RawNode (mkRawTag [0x9F; 0x0D] TagClass_ContextSpecific Primitive (Normal [0xFF; 0xFF; 0xFF; 0xFF; 0xFF])) []).
  set (n' := RawNode (mkRawTag [0x95] TagClass_ContextSpecific Primitive (Normal [0x08; 0; 0; 0; 0])) []). exists (forest_lines [n; n'] 0 true).
  assert (T : text64 p64 (lit "9F0D05FFFFFFFFFF 95050800000000")) by (split; vm_compute; reflexivity). split; [exact T|].
  assert (B : tlv_block [42] OpBer (lit "9F0D05FFFFFFFFFF 95050800000000") None [n; n']).
  { apply (tlv_settles p64 [42] OpBer (lit "9F0D05FFFFFFFFFF 95050800000000") _ T eq_refl). vm_compute. reflexivity. }
  assert (S : sheet [42] false OpBer (lit "9F0D05FFFFFFFFFF 95050800000000") (forest_lines [n; n'] 0 true)).
  { apply (sheet_block [42] false OpBer _ None [n; n']); [exact B| |reflexivity].
    repeat constructor; intros e (d & D & R); cbn in D; injection D as <-; inversion R as [t k d I L| | | | | | | ]; subst; cbn [fixed_lengths In] in I;
      repeat (destruct I as [I|I]; [first [discriminate I|injection I as <-; now apply L]|]); destruct I. }
  split; [exact S|]. split; [|split; [|split]].
  - apply (C106_colours p64 _ _ _ _ _ Red T S ltac:(discriminate)). apply (alarm_block Red [42] OpBer _ None [n; n'] (mkRawTag [0x95] TagClass_ContextSpecific Primitive (Normal [0x08; 0; 0; 0; 0])) [0x08; 0; 0; 0; 0]); [exact B|cbn; tauto|reflexivity|].
    constructor; [reflexivity|]. exists 0%nat. vm_compute. intros K. discriminate K.
  - intros K. apply (C106_colours p64 _ _ _ _ _ Yellow T S ltac:(discriminate)), alarm_cases in K. destruct K as [(t & J & _)|[[J _]|(f & ns & t & B' & I & d & D & A)]]; [cbn [In] in J; destruct J as [J|[J|[J|[]]]]; discriminate J|discriminate J|].
    destruct (tlv_block_det p64 _ _ _ _ _ _ _ T B B') as [_ <-]. cbn in I. destruct I as [<-|[<-|[]]]; cbn in D, A; injection D as <-; [apply alarming_tags in A; cbn [In] in A; destruct A as [A|[A|[A|[]]]]; discriminate A|].
    apply tvr_alarming in A; [|reflexivity]. destruct A as (k & A). apply A. destruct k as [|[|[|[|[|k]]]]]; try reflexivity. cbn [tvr_alarm nth]. destruct k; apply N.land_0_r.
  - apply (alarm_value Red [42] OpCvmResults [0x9F; 0x34]); [cbn [In]; tauto|]. now apply (alarming_cvm_results Red 0x1E 0x03).
  - intros K. apply (alarm_tagged Red [42] OpCvmResults [0x9F; 0x34]) in K; [|cbn [In]; tauto]. apply cvm_alarming in K. destruct K as (_ & a & b & K). vm_compute in K. discriminate K.
Qed.
