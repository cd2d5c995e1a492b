(** Lemmas about the cost of the parsers. *)

From Coq Require Import ZArith NArith List String Ascii Bool Lia ZifyN ZifyBool ZifyNat.
From Verif Require Import Base ModelUtil ModelEnums ModelTlv ModelCost SpecUtil SpecTlv SpecIngenico SpecCost
  ProofsUtil ProofsGrammar ProofsBer ProofsIngenico PropertiesBer.
Import ListNotations.
Local Open Scope N_scope.

Lemma ber_head_spec p masks pre suf : suf <> [] -> bytes_ok suf -> roomy p (len (pre ++ suf)) ->
  ber_head p masks (pre ++ suf) (len pre)
  = match next suf with
    | Ok (t, v, rest) => Ok ((class_of (first_byte t), type_of (first_byte t)), len pre + len t - 1, from_u8_check_for_masked v masks, len pre + (len suf - len rest))
    | Err e => Err e | Panic => Panic | NoFuel => NoFuel
    end.
Proof.
  intros Hne Hb Hr. unfold ber_head.
  destruct suf as [|b suf]; [congruence|]. clear Hne.
  rewrite index_app_len. cbn [bind].
  assert (Hb0 : b < 256) by (apply bytes_ok_cons in Hb; tauto).
  rewrite tag_metadata_spec by assumption. cbn [bind fst snd].
  rewrite ber_tag_spec by (try assumption; rewrite app_length; cbn [List.length]; lia).
  unfold next. destruct (split_tag (b :: suf)) as [[t r]|] eqn:Et; [|reflexivity]. cbn [bind].
  apply split_tag_app in Et. destruct Et as (Et & Hnt & Hfb). cbn [first_byte] in Hfb.
  unfold roomy in Hr.
  assert (Hlt : 1 <= len t) by (destruct t; [congruence|rewrite len_cons; lia]).
  rewrite Et in *. clear Et suf. rewrite len_app in Hr. rewrite len_app in Hr.
  rewrite uadd_ok by lia. cbn [bind].
  replace (len pre + len t - 1 + 1) with (len (pre ++ t)) by (rewrite len_app; lia).
  rewrite (app_assoc pre t r).
  destruct r as [|l0 r0].
  { rewrite app_nil_r. cbn [split_length]. rewrite (proj2 (N.leb_le _ _)) by lia. reflexivity. }
  rewrite (proj2 (N.leb_gt _ _)) by (rewrite (len_app _ (l0 :: r0)), (len_cons l0); lia).
  set (r := l0 :: r0) in *.
  apply bytes_ok_app in Hb. destruct Hb as [Hbt Hbr].
  rewrite ber_length_spec; [|assumption|subst r; discriminate|unfold roomy; rewrite !len_app; lia].
  destruct (split_length r) as [[n r']| | |] eqn:El; try reflexivity. cbn [bind].
  apply split_length_app in El; [|assumption]. destruct El as (lf & El & Hlf & Hn).
  rewrite El in *. clear El l0 r0 r. rewrite len_app in Hr. rewrite (len_app lf r').
  replace (len (pre ++ t) + (len lf + len r' - len r')) with (len ((pre ++ t) ++ lf)) by (rewrite (len_app _ lf); lia).
  rewrite uadd_ok by (rewrite !len_app; lia). cbn [bind].
  rewrite uadd_ok by (rewrite !len_app; lia). cbn [bind].
  rewrite (app_assoc (pre ++ t) lf r').
  replace (len (((pre ++ t) ++ lf) ++ r') + 1 <=? len ((pre ++ t) ++ lf) + n) with (len r' <? n)
    by (rewrite (len_app _ r'); destruct (N.ltb_spec (len r') n), (N.leb_spec (len ((pre ++ t) ++ lf) + len r' + 1) (len ((pre ++ t) ++ lf) + n)); lia).
  destruct (take_value n r') as [[v rest]| | |] eqn:Ev; unfold take_value in Ev.
  2:{ destruct (len r' <? n); congruence. }
  2:{ destruct (len r' <? n); congruence. }
  2:{ destruct (len r' <? n); congruence. }
  destruct (len r' <? n) eqn:Hc; [discriminate|].
  assert (Ev' : take_value n r' = Ok (v, rest)) by (unfold take_value; now rewrite Hc).
  apply take_value_app in Ev'. destruct Ev' as [Ev' Hv]. rewrite Ev' in *. clear Ev Hc Ev' r'.
  subst n. rewrite slice_app. cbn [bind]. rewrite Hfb. do 2 f_equal. rewrite !len_app. lia.
Qed.
Lemma ingenico_head_spec p masks pre suf : suf <> [] -> ascii_text (pre ++ suf) -> roomy p (len (pre ++ suf)) ->
  ingenico_head p masks (pre ++ suf) (len pre)
  = match inext masks suf with
    | Ok (e, rest) => Ok (ie_type e, ie_tag e, (class_of (first_byte (ie_tag e)), type_of (first_byte (ie_tag e))), ie_data e, len pre + (len suf - len rest) + 1)
    | Err e => Err e | Panic => Panic | NoFuel => NoFuel
    end.
Proof.
  intros Hne Ha Hr. unfold ingenico_head.
  destruct suf as [|ty r0]; [congruence|]. clear Hne.
  rewrite index_app_len. cbn [bind].
  assert (HR : len (pre ++ ty :: r0) + 2 ^ 33 + 16 <= usize_limit p) by exact Hr.
  assert (HL : len (pre ++ ty :: r0) = len pre + 1 + len r0) by (rewrite len_app, len_cons; lia).
  rewrite uadd_ok by lia. cbn [bind]. rewrite HL.
  unfold inext.
  destruct r0 as [|x0 r0'] eqn:Er0.
  { rewrite len_nil. rewrite (proj2 (N.leb_le _ _)) by lia. reflexivity. }
  rewrite (proj2 (N.leb_gt _ _)) by (rewrite len_cons; lia). rewrite <- Er0 in *. clear Er0 x0 r0'.
  replace (len pre + 1) with (len (pre ++ [ty])) in * by (rewrite len_app; reflexivity).
  replace (pre ++ ty :: r0) with ((pre ++ [ty]) ++ r0) in * by (rewrite <- app_assoc; reflexivity).
  rewrite find_colon_spec by assumption.
  destruct (split_colon r0) as [[td r1]|] eqn:E1; [|reflexivity]. cbn [bind].
  apply split_colon_app in E1. subst r0.
  rewrite str_slice_ascii by (rewrite app_assoc in Ha; now apply ascii_app in Ha). cbn [bind].
  rewrite strict_map_err. destruct (all_hex td) eqn:Htd; [|reflexivity]. cbn [bind negb].
  rewrite (len_app td), (len_cons colon) in HL.
  rewrite uadd_ok by lia. cbn [bind].
  set (tag := trim_leading_0_bytes (bytes_of_digits td)) in *.
  destruct tag as [|t0 tag'] eqn:Etag.
  { rewrite (orb_true_r). reflexivity. }
  assert (T0 : t0 < 256).
  { assert (B : bytes_ok (bytes_of_digits td)) by (now apply bytes_of_digits_bytes, all_hex_forall).
    destruct (trim_leading_split (bytes_of_digits td)) as (k & E & _). fold tag in E. subst tag. rewrite Etag in E.
    rewrite E in B. apply bytes_ok_app in B. destruct B as [_ B]. now apply bytes_ok_cons in B. }
  assert (Hz : (len (t0 :: tag') =? 0) = false) by (rewrite len_cons; apply N.eqb_neq; lia).
  rewrite Hz, orb_false_r.
  replace (len (pre ++ [ty]) + len td + 1) with (len ((pre ++ [ty]) ++ td ++ [colon]))
    by (rewrite (len_app _ (td ++ [colon])), (len_app td); change (len [colon]) with 1; lia).
  replace ((pre ++ [ty]) ++ td ++ colon :: r1) with (((pre ++ [ty]) ++ td ++ [colon]) ++ r1) in *
    by (rewrite <- !app_assoc; reflexivity).
  set (pre1 := (pre ++ [ty]) ++ td ++ [colon]) in *.
  assert (HP1 : len pre1 = len (pre ++ [ty]) + len td + 1)
    by (unfold pre1; rewrite (len_app _ (td ++ [colon])), (len_app td); change (len [colon]) with 1; lia).
  assert (HL1 : len (pre1 ++ r1) = len pre1 + len r1) by apply len_app.
  replace (len (pre ++ [ty]) + len (td ++ colon :: r1)) with (len (pre1 ++ r1))
    by (rewrite HL1, HP1, (len_app td), len_cons; lia).
  destruct r1 as [|y1 r1'] eqn:Er1.
  { rewrite app_nil_r. rewrite (proj2 (N.leb_le _ _)) by lia. reflexivity. }
  rewrite (proj2 (N.leb_gt _ _)) by (rewrite HL1, len_cons; lia).
  rewrite <- Er1 in *. clear Er1 y1 r1'.
  change (index (t0 :: tag') 0) with (@Ok N t0). cbn [bind].
  rewrite tag_metadata_spec by assumption. cbn [bind fst snd].
  rewrite find_colon_spec by assumption.
  destruct (split_colon r1) as [[ld r2]|] eqn:E2; [|reflexivity]. cbn [bind].
  apply split_colon_app in E2. subst r1.
  rewrite str_slice_ascii by (rewrite app_assoc in Ha; now apply ascii_app in Ha). cbn [bind].
  rewrite strict_map_err. destruct (all_hex ld) eqn:Hld; [|reflexivity]. cbn [bind negb].
  destruct (N.ltb_spec 4 (len (bytes_of_digits ld))) as [H4|H4]; [reflexivity|].
  unfold byte_slice_to_u32. rewrite byte_slice_to_uint_ok by (unfold len in H4; lia). cbn [bind].
  assert (Hn : be_value (bytes_of_digits ld) < 2 ^ 32) by (apply be_digits_lt; [assumption|now apply all_hex_forall]).
  set (n := be_value (bytes_of_digits ld)) in *. cbn zeta.
  rewrite N.mod_small by (change (2 ^ 33) with (2 ^ 32 * 2) in HR; lia).
  rewrite (len_app ld), (len_cons colon) in HL1.
  rewrite uadd_ok by lia. cbn [bind].
  replace (len pre1 + len ld + 1) with (len (pre1 ++ ld ++ [colon]))
    by (rewrite (len_app _ (ld ++ [colon])), (len_app ld); change (len [colon]) with 1; lia).
  replace (pre1 ++ ld ++ colon :: r2) with ((pre1 ++ ld ++ [colon]) ++ r2) in *
    by (rewrite <- !app_assoc; reflexivity).
  set (pre2 := pre1 ++ ld ++ [colon]) in *.
  assert (HP2 : len pre2 = len pre1 + len ld + 1)
    by (unfold pre2; rewrite (len_app _ (ld ++ [colon])), (len_app ld); change (len [colon]) with 1; lia).
  destruct r2 as [|fmt r3].
  { rewrite app_nil_r. rewrite (proj2 (N.leb_le _ _)) by lia. reflexivity. }
  rewrite (proj2 (N.leb_gt _ _)) by (rewrite len_app, len_cons; lia).
  rewrite ingenico_data_spec by assumption.
  destruct (inext_data masks n fmt r3) as [[d rest]| | |] eqn:Ed; try reflexivity. cbn [bind].
  apply inext_data_suffix in Ed. destruct Ed as [txt ->].
  rewrite len_app in HR. rewrite len_cons, len_app in HR. rewrite len_app.
  rewrite uadd_ok by lia. cbn [bind ie_type].
  replace (len pre2 + 1 + (len txt + len rest - len rest) + 1)
    with (len pre + (len (ty :: td ++ colon :: ld ++ colon :: fmt :: txt ++ rest) - len rest) + 1).
  2:{ rewrite HP2, HP1. rewrite (len_app pre [ty]). change (len [ty]) with 1.
      rewrite len_cons, (len_app td), len_cons, (len_app ld), len_cons, len_cons, (len_app txt). lia. }
  reflexivity.
Qed.

(** ** Forgetting the counts *)

Lemma bind_assoc {A B C} (r : res A) (f : A -> res B) (g : B -> res C) : (x <- (y <- r;; f y);; g x) = (y <- r;; (x <- f y;; g x)).
Proof. now destruct r. Qed.
Lemma get_child_ext f g t d : (forall v, d = Normal v -> f v = g v) -> get_child_block f t d = get_child_block g t d.
Proof. intros H. destruct t, d as [v|]; cbn; try reflexivity. now rewrite (H v). Qed.
Lemma ber_run_fst p masks : forall fuel bytes i nodes, fst (ber_run fuel p masks bytes i nodes) = ber_loop fuel p masks bytes i nodes.
Proof.
  induction fuel as [|f IH]; intros bytes i nodes; [reflexivity|]. cbn [ber_run ber_loop]. destruct (i <? len bytes); [|reflexivity]. unfold ber_head.
  destruct (index bytes i) as [t0| | |]; try reflexivity. cbn [bind]. destruct (parse_tag_metadata t0) as [meta| | |]; try reflexivity. cbn [bind].
  destruct (ber_tag_loop _ p bytes _ i) as [te| | |]; try reflexivity. cbn [bind]. destruct (uadd p te 1) as [li| | |]; try reflexivity. cbn [bind].
  destruct (len bytes <=? li); [reflexivity|]. destruct (ber_length p bytes li) as [[n di]| | |]; try reflexivity. cbn [bind].
  destruct (uadd p di n) as [de| | |] eqn:De; try reflexivity. cbn [bind]. destruct (uadd p (len bytes) 1) as [lim| | |]; try reflexivity. cbn [bind].
  destruct (lim <=? de); [reflexivity|]. destruct (slice bytes di de) as [data| | |]; try reflexivity. cbn [bind].
  rewrite (get_child_ext (fun d => fst (ber_run f p masks d 0 [])) (fun d => ber_loop f p masks d 0 [])) by (intros; apply IH).
  destruct (get_child_block _ _ _) as [c| | |]; try reflexivity. cbn [bind]. destruct (slice_incl bytes i te) as [tag| | |]; try reflexivity. cbn [bind fst]. apply IH.
Qed.
Lemma ber_parse_run_fst p masks bytes : fst (ber_parse_run p masks bytes) = ber_parse p masks bytes.
Proof. apply ber_run_fst. Qed.
Lemma ingenico_run_fst p masks : forall fuel data i nodes, fst (ingenico_run fuel p masks data i nodes) = ingenico_loop fuel p masks data i nodes.
Proof.
  induction fuel as [|f IH]; intros data i nodes; [reflexivity|]. cbn [ingenico_run ingenico_loop]. destruct (i <? len data); [|reflexivity]. unfold ingenico_head.
  destruct (index data i) as [ty| | |]; try reflexivity. cbn [bind]. destruct (uadd p i 1) as [i1| | |]; try reflexivity. cbn [bind]. destruct (len data <=? i1); [reflexivity|].
  destruct (find_colon p data i1) as [c1| | |]; try reflexivity. cbn [bind]. destruct (str_slice data i1 c1) as [ts| | |]; try reflexivity. cbn [bind].
  destruct (map_err (parse_hex_str_strict ts) NonCompliant) as [tag0| | |]; try reflexivity. cbn [bind]. cbv zeta.
  destruct (uadd p c1 1) as [i2| | |]; try reflexivity. cbn [bind]. destruct (_ || _); [reflexivity|].
  destruct (index _ 0) as [t0| | |]; try reflexivity. cbn [bind]. destruct (parse_tag_metadata t0) as [meta| | |]; try reflexivity. cbn [bind].
  destruct (find_colon p data i2) as [c2| | |]; try reflexivity. cbn [bind]. destruct (str_slice data i2 c2) as [lstr| | |]; try reflexivity. cbn [bind].
  destruct (map_err (parse_hex_str_strict lstr) NonCompliant) as [lb| | |]; try reflexivity. cbn [bind]. destruct (4 <? len lb); [reflexivity|].
  destruct (byte_slice_to_u32 lb) as [n| | |]; try reflexivity. cbn [bind]. destruct (uadd p c2 1) as [i3| | |]; try reflexivity. cbn [bind]. destruct (len data <=? i3); [reflexivity|].
  destruct (ingenico_data p masks data _ i3) as [[d i4]| | |]; try reflexivity. cbn [bind]. destruct (uadd p i4 1) as [i5| | |]; try reflexivity. cbn [bind].
  destruct (ty =? tag_type_emv); cbn [negb fst]; [|apply IH].
  rewrite (get_child_ext (fun d => fst (ber_parse_run p masks d)) (ber_parse p masks)) by (intros; apply ber_parse_run_fst).
  destruct (get_child_block _ _ _) as [c| | |]; try reflexivity. cbn [bind fst]. apply IH.
Qed.

(** ** Bounds *)

(* [b]: the bytes still to be read. *)
Definition work_bound (b : N) (c : cost) : Prop := 4 * fst c <= b * b + 4 * b.
Definition depth_bound (b : N) (c : cost) : Prop := 2 * snd c <= b + 2.
Lemma ber_run_bounds p masks : forall fuel pre suf nodes, bytes_ok suf -> roomy p (len (pre ++ suf)) ->
  let c := snd (ber_run fuel p masks (pre ++ suf) (len pre) nodes) in work_bound (len suf) c /\ depth_bound (len suf) c.
Proof.
  unfold work_bound, depth_bound. induction fuel as [|f IH]; intros pre suf nodes Hb Hr; [cbn; lia|]. destruct suf as [|b suf].
  { cbn [ber_run]. rewrite app_nil_r, N.ltb_irrefl. cbn. lia. }
  cbn [ber_run]. rewrite (proj2 (N.ltb_lt _ _)) by (rewrite len_app, len_cons; lia). rewrite ber_head_spec by (try assumption; discriminate).
  assert (St : len (pre ++ b :: suf) - len pre = len (b :: suf)) by (rewrite len_app; lia).
  assert (Fail : 4 * (len (b :: suf)) <= len (b :: suf) * len (b :: suf) + 4 * len (b :: suf)) by lia.
  assert (One : 1 <= len (b :: suf)) by (rewrite len_cons; lia).
  destruct (next (b :: suf)) as [[[t v] rest]| | |] eqn:En; [|cbn [snd fst]; rewrite St; lia..].
  destruct (next_app _ _ _ _ Hb En) as (l & E & Ht & Hl).
  assert (L : len (b :: suf) = len t + len l + len v + len rest) by (rewrite E, !len_app; lia).
  assert (Ht1 : 1 <= len t) by (destruct t; [congruence|rewrite len_cons; lia]). assert (Hl1 : 1 <= len l) by (destruct l; [congruence|rewrite len_cons; lia]).
  assert (Bb : bytes_ok v /\ bytes_ok rest). { rewrite E in Hb. apply bytes_ok_app in Hb. destruct Hb as [_ Hb]. apply bytes_ok_app in Hb. destruct Hb as [_ Hb]. now apply bytes_ok_app in Hb. }
  destruct Bb as [Bv Br].
  set (child := match snd _, _ with Constructed, Normal d => _ | _, _ => _ end).
  assert (C : 4 * fst child <= len v * len v + 4 * len v /\ 2 * snd child <= len v + 2).
  { subst child. cbn [snd]. destruct (type_of (first_byte t)); [cbn; lia|]. unfold from_u8_check_for_masked. destruct (is_masked_u8 v masks); [cbn; lia|].
    apply (IH [] v []); [assumption|]. apply (roomy_le _ _ _ Hr). cbn [app]. rewrite (len_app pre), L. lia. }
  clearbody child. destruct C as [C1 C2].
  assert (Sq : forall a b : N, a * a + b * b <= (a + b) * (a + b)) by (intros; lia).
  assert (Sv : 4 * len (b :: suf) + (len v * len v + 4 * len v) <= len (b :: suf) * len (b :: suf) + 4 * len (b :: suf)).
  { set (x := len v) in *. set (y := len (b :: suf)) in *. assert (x + 2 <= y) by lia. pose proof (N.mul_le_mono (x + 2) y (x + 2) y H H). lia. }
  match goal with |- context[match ?r with Ok _ => _ | Err _ => _ | Panic => _ | NoFuel => _ end] => destruct r as [n| | |] end.
  2-4: unfold nested; cbn [fst snd]; rewrite St; lia.
  set (r := ber_run f p masks _ _ _).
  assert (R : 4 * fst (snd r) <= len rest * len rest + 4 * len rest /\ 2 * snd (snd r) <= len rest + 2).
  { subst r. replace (len pre + (len (b :: suf) - len rest)) with (len (pre ++ t ++ l ++ v)) by (rewrite !len_app; lia).
    replace (pre ++ b :: suf) with ((pre ++ t ++ l ++ v) ++ rest) in * by (rewrite E, <- !app_assoc; reflexivity). now apply IH. }
  clearbody r. destruct R as [R1 R2]. unfold nested. cbn [fst snd].
  split; [|lia]. replace (len pre + (len (b :: suf) - len rest) - len pre) with (len t + len l + len v) by lia.
  set (k := len t + len l + len v) in *. rewrite L. pose proof (Sq k (len rest)). assert (len v + 2 <= k) by (unfold k; lia). pose proof (N.mul_le_mono (len v + 2) k (len v + 2) k H0 H0). lia.
Qed.
Lemma ber_parse_run_bounds p masks bytes : bytes_ok bytes -> roomy p (len bytes) ->
  let c := snd (ber_parse_run p masks bytes) in work_bound (len bytes) c /\ depth_bound (len bytes) c.
Proof. intros Hb Hr. apply (ber_run_bounds p masks _ [] bytes []); assumption. Qed.
Lemma bytes_of_digits_le ds : len (bytes_of_digits ds) <= len ds.
Proof.
  unfold len. rewrite bytes_of_digits_length. generalize (List.length ds). intros m.
  assert (D : (Nat.div2 m <= m)%nat) by (rewrite Nat.div2_div; apply Nat.div_le_upper_bound; [discriminate|clear; lia]). lia.
Qed.
Lemma inext_data_size masks n fmt r d rest : inext_data masks n fmt r = Ok (d, rest) ->
  exists txt, r = txt ++ rest /\ match d with Normal v => len v <= len txt | Masked => True end.
Proof.
  unfold inext_data. destruct (fmt =? letter_a).
  - destruct (N.ltb_spec (len r) n); [discriminate|]. cbn zeta. intros E. injection E as <- <-. exists (firstn (N.to_nat n) r). split; [symmetry; apply firstn_skipn|]. destruct (is_masked_u8 _ masks); [exact I|lia].
  - destruct (fmt =? letter_h); [|discriminate]. destruct (N.ltb_spec (len r) (2 * n)); [discriminate|]. cbn zeta. destruct (is_masked_u8 _ masks).
    + intros E. injection E as <- <-. exists (firstn (N.to_nat (2 * n)) r). split; [symmetry; apply firstn_skipn|exact I].
    + destruct (all_hex _); [|discriminate]. intros E. injection E as <- <-. exists (firstn (N.to_nat (2 * n)) r). split; [symmetry; apply firstn_skipn|].
      apply bytes_of_digits_le.
Qed.
Lemma inext_size masks s e rest : inext masks s = Ok (e, rest) ->
  exists f, s = f ++ rest /\ 4 <= len f /\ match ie_data e with Normal v => len v + 4 <= len f | Masked => True end.
Proof.
  unfold inext. destruct s as [|ty r0]; [discriminate|].
  destruct (split_colon r0) as [[td r1]|] eqn:E1; [|discriminate]. apply split_colon_app in E1. subst.
  destruct (negb (all_hex td)); [discriminate|]. cbn zeta. destruct (trim_leading_0_bytes (bytes_of_digits td)); [discriminate|].
  destruct (split_colon r1) as [[ld r2]|] eqn:E2; [|discriminate]. apply split_colon_app in E2. subst.
  destruct (negb (all_hex ld)); [discriminate|]. destruct (4 <? _); [discriminate|]. destruct r2 as [|fmt r3]; [discriminate|].
  destruct (inext_data _ _ fmt r3) as [[d rest']| | |] eqn:Ed; try discriminate.
  apply inext_data_size in Ed. destruct Ed as (txt & -> & Ld). intros H. injection H as <- <-. cbn [ie_data].
  exists (ty :: td ++ colon :: ld ++ colon :: fmt :: txt). split; [cbn [app]; rewrite <- app_assoc; cbn [app]; rewrite <- app_assoc; reflexivity|].
  assert (Q : len (ty :: td ++ colon :: ld ++ colon :: fmt :: txt) = 4 + len td + len ld + len txt) by (rewrite len_cons, len_app, len_cons, len_app, !len_cons; lia). rewrite Q. split; [lia|]. destruct d; [lia|exact I].
Qed.
(* An entry may end one character after the text. *)
Lemma ingenico_run_end f p masks data i nodes : len data <= i -> ingenico_run (S f) p masks data i nodes = (Ok nodes, (0, 1)).
Proof. intros H. cbn [ingenico_run]. now rewrite (proj2 (N.ltb_ge _ _)). Qed.
Lemma ingenico_run_bounds p masks : forall fuel pre suf nodes, ascii_text (pre ++ suf) -> roomy p (len (pre ++ suf)) ->
  let c := snd (ingenico_run fuel p masks (pre ++ suf) (len pre) nodes) in work_bound (1 + len suf) c /\ depth_bound (1 + len suf) c.
Proof.
  unfold work_bound, depth_bound. induction fuel as [|f IH]; intros pre suf nodes Ha Hr; [cbn; lia|]. destruct suf as [|b suf].
  { rewrite ingenico_run_end by (rewrite len_app, len_nil; lia). cbn; lia. }
  cbn [ingenico_run]. rewrite (proj2 (N.ltb_lt _ _)) by (rewrite len_app, len_cons; lia). rewrite ingenico_head_spec by (try assumption; discriminate).
  assert (St : len (pre ++ b :: suf) - len pre = len (b :: suf)) by (rewrite len_app; lia).
  assert (One : 1 <= len (b :: suf)) by (rewrite len_cons; lia).
  destruct (inext masks (b :: suf)) as [[e rest]| | |] eqn:En; [|cbn [snd fst]; rewrite St; lia..].
  assert (As : ascii_text (b :: suf)) by now apply ascii_app in Ha.
  destruct (inext_size _ _ _ _ En) as (fl & E & Hf & Hd).
  assert (L : len (b :: suf) = len fl + len rest) by (rewrite E, !len_app; lia).
  set (child := match snd _, ie_data e with Constructed, Normal d => _ | _, _ => _ end).
  assert (C : exists x, x + 4 <= len fl /\ 4 * fst child <= x * x + 4 * x /\ 2 * snd child <= x + 2).
  { subst child. cbn [snd]. destruct (type_of (first_byte (ie_tag e))); [exists 0; cbn; lia|]. destruct (ie_data e) as [v|] eqn:Ed; [|exists 0; cbn; lia].
    destruct (inext_bytes masks _ _ _ v As En Ed) as [Bv Lv]. exists (len v). split; [exact Hd|]. apply ber_parse_run_bounds; [assumption|]. apply (roomy_le _ _ _ Hr). rewrite len_app. lia. }
  clearbody child. destruct C as (x & Cx & C1 & C2).
  assert (Sq : forall a b : N, a * a + b * b <= (a + b) * (a + b)) by (intros; lia).
  assert (R : forall nodes', let c := snd (ingenico_run f p masks (pre ++ b :: suf) (len pre + (len (b :: suf) - len rest) + 1) nodes') in
    4 * fst c <= len rest * len rest + 4 * len rest /\ 2 * snd c <= len rest + 2).
  { intros nodes'. replace (len pre + (len (b :: suf) - len rest) + 1) with (len pre + len fl + 1) by lia. rewrite E. destruct rest as [|sep rest].
    - destruct f as [|f]; [cbn; lia|]. rewrite ingenico_run_end by (rewrite app_nil_r, len_app; lia). cbn; lia.
    - replace (pre ++ fl ++ sep :: rest) with ((pre ++ fl ++ [sep]) ++ rest) in * by (rewrite <- !app_assoc; reflexivity).
      rewrite E in Ha, Hr. replace (pre ++ fl ++ sep :: rest) with ((pre ++ fl ++ [sep]) ++ rest) in * by (rewrite <- !app_assoc; reflexivity).
      replace (len pre + len fl + 1) with (len (pre ++ fl ++ [sep])) by (rewrite !len_app; change (len [sep]) with 1; lia). rewrite len_cons. now apply IH. }
  assert (Q : len pre + (len (b :: suf) - len rest) + 1 - len pre = 1 + len fl) by lia.
  set (y := len fl) in *. set (z := len rest) in *. pose proof (Sq (1 + y) z) as S1. assert (Cy : x + 2 <= 1 + y) by lia. pose proof (N.mul_le_mono (x + 2) (1 + y) (x + 2) (1 + y) Cy Cy) as S2.
  destruct (negb (ie_type e =? tag_type_emv)).
  { destruct (R nodes) as [R1 R2]. set (r := ingenico_run f _ _ _ _ _) in *. clearbody r. unfold nested. cbn [fst snd]. rewrite Q, L. lia. }
  destruct (get_child_block _ _ _) as [c| | |].
  - destruct (R (nodes ++ [RawNode (mkRawTag (ie_tag e) (fst (class_of (first_byte (ie_tag e)), type_of (first_byte (ie_tag e)))) (snd (class_of (first_byte (ie_tag e)), type_of (first_byte (ie_tag e)))) (ie_data e)) c])) as [R1 R2].
    set (r := ingenico_run f _ _ _ _ _) in *. clearbody r. unfold nested. cbn [fst snd]. rewrite Q, L. lia.
  - unfold nested. cbn [fst snd]. rewrite St, L. pose proof (Sq (x + 2) z). lia.
  - unfold nested. cbn [fst snd]. rewrite St, L. pose proof (Sq (x + 2) z). lia.
  - unfold nested. cbn [fst snd]. rewrite St, L. pose proof (Sq (x + 2) z). lia.
Qed.

(** ** At least *)

Lemma total_app a b : total (a ++ b) = total a + total b.
Proof. unfold total. induction a as [|x a IH]; [reflexivity|]. cbn [app fold_right]. rewrite IH. lia. Qed.
Definition at_least (suf : list N) (nodes : list raw_node) (r : res (list raw_node) * cost) : Prop :=
  len suf <= fst (snd r) /\ 1 <= snd (snd r)
  /\ forall all, fst r = Ok all -> exists new, all = nodes ++ new
     /\ len suf + total (map reread new) <= fst (snd r) /\ N.of_nat (forest_depth new) <= snd (snd r).
Lemma ber_run_lower p masks : forall fuel pre suf nodes, (List.length suf < fuel)%nat -> bytes_ok suf -> roomy p (len (pre ++ suf)) ->
  at_least suf nodes (ber_run fuel p masks (pre ++ suf) (len pre) nodes).
Proof.
  unfold at_least. induction fuel as [|f IH]; intros pre suf nodes Hf Hb Hr; [lia|]. destruct suf as [|b suf].
  { cbn [ber_run]. rewrite app_nil_r, N.ltb_irrefl. cbn [fst snd]. split; [reflexivity|]. split; [reflexivity|]. intros all H. injection H as <-. exists []. rewrite app_nil_r. split; [reflexivity|]. cbn; lia. }
  cbn [ber_run]. rewrite (proj2 (N.ltb_lt _ _)) by (rewrite len_app, len_cons; lia). rewrite ber_head_spec by (try assumption; discriminate).
  assert (St : len (pre ++ b :: suf) - len pre = len (b :: suf)) by (rewrite len_app; lia).
  destruct (next (b :: suf)) as [[[t v] rest]| | |] eqn:En; [|cbn [snd fst]; rewrite St; (split; [lia|]; split; [lia|]; discriminate)..].
  destruct (next_app _ _ _ _ Hb En) as (l & E & Ht & Hl).
  assert (L : len (b :: suf) = len t + len l + len v + len rest) by (rewrite E, !len_app; lia).
  assert (Ht1 : 1 <= len t) by (destruct t; [congruence|rewrite len_cons; lia]). assert (Hl1 : 1 <= len l) by (destruct l; [congruence|rewrite len_cons; lia]).
  assert (Bb : bytes_ok v /\ bytes_ok rest). { rewrite E in Hb. apply bytes_ok_app in Hb. destruct Hb as [_ Hb]. apply bytes_ok_app in Hb. destruct Hb as [_ Hb]. now apply bytes_ok_app in Hb. }
  destruct Bb as [Bv Br]. cbn [fst snd].
  set (d := from_u8_check_for_masked v masks). set (ty := type_of (first_byte t)).
  assert (Hd : forall x, d = Normal x -> x = v) by (intros x; unfold d, from_u8_check_for_masked; destruct (is_masked_u8 v masks); [discriminate|congruence]).
  assert (C : at_least v [] (ber_run f p masks v 0 [])).
  { apply (IH [] v []); [unfold len in *; lia|assumption|]. apply (roomy_le _ _ _ Hr). cbn [app]. rewrite (len_app pre), L. lia. }
  destruct C as (C0 & C1 & C2).
  match goal with |- context[match ?r with Ok _ => _ | Err _ => _ | Panic => _ | NoFuel => _ end] => destruct r as [n| | |] eqn:N1 end.
  2-4: unfold nested; cbn [fst snd]; rewrite St; (split; [lia|]; split; [lia|]; discriminate).
  set (child := match ty, d with Constructed, Normal _ => _ | _, _ => _ end).
  assert (Sub : reread n <= fst child /\ N.of_nat (node_depth n) <= 1 + snd child).
  { unfold child. destruct (get_child_block _ ty d) as [c| | |] eqn:G; try discriminate. cbn [bind] in N1. destruct (slice_incl _ _ _) as [tag| | |]; try discriminate. cbn [bind] in N1.
    injection N1 as <-. cbn [reread rt_type rt_data node_depth]. fold ty d. destruct ty; [cbn [get_child_block] in G; injection G as <-; cbn; lia|]. destruct d as [x|]; [|cbn [get_child_block] in G; injection G as <-; cbn; lia].
    rewrite (Hd x eq_refl) in *. cbn [get_child_block] in G. destruct (fst (ber_run f p masks v 0 [])) as [ns|e| |] eqn:F; try discriminate.
    - injection G as <-. destruct (C2 ns eq_refl) as (new & -> & Q1 & Q2). cbn [app]. unfold forest_depth in Q2. lia.
    - injection G as <-. cbn [map]. change (total []) with 0. change (list_max []) with 0%nat. lia. }
  clearbody child. destruct Sub as [Sub1 Sub2].
  assert (R : at_least rest (nodes ++ [n]) (ber_run f p masks (pre ++ b :: suf) (len pre + (len (b :: suf) - len rest)) (nodes ++ [n]))).
  { replace (len pre + (len (b :: suf) - len rest)) with (len (pre ++ t ++ l ++ v)) by (rewrite !len_app; lia).
    replace (pre ++ b :: suf) with ((pre ++ t ++ l ++ v) ++ rest) in * by (rewrite E, <- !app_assoc; reflexivity). apply IH; [unfold len in *; lia|assumption|assumption]. }
  set (r := ber_run f p masks _ _ _) in *. clearbody r. destruct R as (R0 & R1 & R2). unfold nested. cbn [fst snd].
  split; [lia|]. split; [lia|]. intros all H. destruct (R2 all H) as (new & -> & Q1 & Q2). exists (n :: new). split; [now rewrite <- app_assoc|].
  unfold forest_depth in *. cbn [map list_max fold_right]. unfold total in *. cbn [map fold_right]. change (fold_right Nat.max 0%nat (map node_depth new)) with (list_max (map node_depth new)). lia.
Qed.

Lemma ber_parse_run_lower p masks bytes : bytes_ok bytes -> roomy p (len bytes) -> at_least bytes [] (ber_parse_run p masks bytes).
Proof. intros Hb Hr. apply (ber_run_lower p masks _ [] bytes []); [lia|assumption|assumption]. Qed.

Lemma ingenico_run_lower p masks : forall fuel pre suf nodes, (List.length suf < fuel)%nat -> ascii_text (pre ++ suf) -> roomy p (len (pre ++ suf)) ->
  at_least suf nodes (ingenico_run fuel p masks (pre ++ suf) (len pre) nodes).
Proof.
  unfold at_least. induction fuel as [|f IH]; intros pre suf nodes Hf Ha Hr; [lia|]. destruct suf as [|b suf].
  { rewrite ingenico_run_end by (rewrite len_app, len_nil; lia). cbn [fst snd]. split; [reflexivity|]. split; [reflexivity|]. intros all H. injection H as <-. exists []. rewrite app_nil_r. split; [reflexivity|]. cbn; lia. }
  cbn [ingenico_run]. rewrite (proj2 (N.ltb_lt _ _)) by (rewrite len_app, len_cons; lia). rewrite ingenico_head_spec by (try assumption; discriminate).
  assert (St : len (pre ++ b :: suf) - len pre = len (b :: suf)) by (rewrite len_app; lia).
  destruct (inext masks (b :: suf)) as [[e rest]| | |] eqn:En; [|cbn [snd fst]; rewrite St; (split; [lia|]; split; [lia|]; discriminate)..].
  assert (As : ascii_text (b :: suf)) by now apply ascii_app in Ha.
  destruct (inext_size _ _ _ _ En) as (fl & E & Hfl & Hd).
  assert (L : len (b :: suf) = len fl + len rest) by (rewrite E, !len_app; lia).
  cbn [fst snd]. set (ty := type_of (first_byte (ie_tag e))). set (cl := class_of (first_byte (ie_tag e))).
  set (child := match ty, ie_data e with Constructed, Normal d => _ | _, _ => _ end).
  assert (R : forall nodes', exists rest', len rest <= len rest' + 1 /\
    at_least rest' nodes' (ingenico_run f p masks (pre ++ b :: suf) (len pre + (len (b :: suf) - len rest) + 1) nodes')).
  { intros nodes'. replace (len pre + (len (b :: suf) - len rest) + 1) with (len pre + len fl + 1) by lia. assert (F : (List.length rest < f)%nat) by (unfold len in *; lia). rewrite E. destruct rest as [|sep rest].
    - exists []. split; [rewrite !len_nil; lia|]. destruct f as [|f]; [cbn in F; lia|]. rewrite ingenico_run_end by (rewrite app_nil_r, len_app; lia).
      split; [reflexivity|]. split; [reflexivity|]. intros all H. cbn [fst] in H. injection H as <-. exists []. rewrite app_nil_r. split; [reflexivity|]. cbn; lia.
    - exists rest. split; [rewrite len_cons; lia|]. rewrite E in Ha, Hr. replace (pre ++ fl ++ sep :: rest) with ((pre ++ fl ++ [sep]) ++ rest) in * by (rewrite <- !app_assoc; reflexivity).
      replace (len pre + len fl + 1) with (len (pre ++ fl ++ [sep])) by (rewrite !len_app; change (len [sep]) with 1; lia). cbn [List.length] in F. apply IH; [lia|assumption|assumption]. }
  unfold at_least in R.
  destruct (negb (ie_type e =? tag_type_emv)).
  { destruct (R nodes) as (rest' & Q & R0 & R1 & R2). set (r := ingenico_run f _ _ _ _ _) in *. clearbody r. unfold nested. cbn [fst snd].
    split; [lia|]. split; [lia|]. intros all H. destruct (R2 all H) as (new & -> & Q1 & Q2). exists new. split; [reflexivity|lia]. }
  destruct (get_child_block _ _ _) as [c| | |] eqn:G.
  2-4: unfold nested; cbn [fst snd]; rewrite St; (split; [lia|]; split; [lia|]; discriminate).
  set (n := RawNode _ c).
  assert (Sub : reread n <= fst child /\ N.of_nat (node_depth n) <= 1 + snd child).
  { unfold child, n. cbn [reread rt_type rt_data node_depth]. destruct ty; [cbn [get_child_block] in G; injection G as <-; cbn; lia|]. destruct (ie_data e) as [v|] eqn:Ed; [|cbn [get_child_block] in G; injection G as <-; cbn; lia].
    destruct (inext_bytes masks _ _ _ v As En Ed) as [Bv Lv].
    assert (C : at_least v [] (ber_parse_run p masks v)) by (apply ber_parse_run_lower; [assumption|]; apply (roomy_le _ _ _ Hr); rewrite len_app; lia).
    destruct C as (C0 & C1 & C2). cbn [get_child_block] in G. destruct (fst (ber_parse_run p masks v)) as [ns|er| |] eqn:F; try discriminate.
    - injection G as <-. destruct (C2 ns eq_refl) as (new & -> & Q1 & Q2). cbn [app]. unfold forest_depth in Q2. lia.
    - injection G as <-. cbn [map]. change (total []) with 0. change (list_max []) with 0%nat. lia. }
  clearbody child. destruct Sub as [Sub1 Sub2]. destruct (R (nodes ++ [n])) as (rest' & Q & R0 & R1 & R2).
  set (r := ingenico_run f _ _ _ _ _) in *. clearbody r. clearbody n. unfold nested. cbn [fst snd].
  split; [lia|]. split; [lia|]. intros all H. destruct (R2 all H) as (new & -> & Q1 & Q2). exists (n :: new). split; [now rewrite <- app_assoc|].
  unfold forest_depth in *. cbn [map list_max fold_right]. unfold total in *. cbn [map fold_right]. change (fold_right Nat.max 0%nat (map node_depth new)) with (list_max (map node_depth new)). lia.
Qed.

(** ** Objects in one another *)

Lemma be_bytes_len n : len (be_bytes n) <= 4.
Proof. unfold be_bytes. repeat match goal with |- context[if ?b then _ else _] => destruct b end; cbn; lia. Qed.
Lemma std_len_len n : 1 <= len (std_len n) <= 5.
Proof. unfold std_len. destruct (n <? 128); [cbn; lia|]. rewrite len_cons. pose proof (be_bytes_len n). lia. Qed.
Lemma chain_size d : 2 * N.of_nat d <= len (std_forest (chain d)) <= 6 * N.of_nat d.
Proof.
  induction d as [|d IH]; [cbn; lia|]. cbn [chain]. unfold std_forest at 1 2. cbn [flat_map std_encode]. rewrite app_nil_r. fold (std_forest (chain d)). unfold std_object.
  rewrite !len_app. change (len [0x6F]) with 1. pose proof (std_len_len (len (std_forest (chain d)))). lia.
Qed.
Lemma chain_ok d : 6 * N.of_nat d < 2 ^ 32 -> forall x, In x (chain d) -> tlv_ok x.
Proof.
  induction d as [|d IH]; [intros _ x []|]. intros H x [<-|[]]. apply tlv_ok_cons.
  - repeat constructor.
  - constructor. discriminate.
  - reflexivity.
  - apply IH. lia.
  - pose proof (chain_size d). lia.
Qed.
Lemma chain_reread d : N.of_nat d * N.of_nat d <= N.of_nat d + total (map reread (map std_node (chain d))).
Proof.
  induction d as [|d IH]; [cbn; lia|]. cbn [chain map std_node reread rt_type rt_data]. unfold total at 1. cbn [fold_right]. pose proof (chain_size d). lia.
Qed.
Lemma chain_depth d : forest_depth (map std_node (chain d)) = d.
Proof. induction d as [|d IH]; [reflexivity|]. cbn [chain map std_node]. unfold forest_depth in *. cbn [map node_depth list_max fold_right]. change (fold_right Nat.max 0%nat ?l) with (list_max l). rewrite IH. lia. Qed.
