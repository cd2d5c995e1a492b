(** The property of the columns and characters shown. *)

From Coq Require Import ZArith NArith String List Bool Lia ZifyN ZifyBool ZifyNat Permutation Sorting.
From Verif Require Import Base ModelUtil ModelEnums ModelBitflag ModelSchemas ModelTags ModelTlv ModelValues ModelProcess ModelDisplay
  SpecUtil SpecCodes SpecValues SpecTlv SpecIngenico SpecTags SpecProcess SpecDisplay
  ProofsUtil ProofsGrammar ProofsBer ProofsIngenico ProofsValues PropertiesValues
  PropertiesBer PropertiesIngenico ProofsProcess PropertiesProcess ProofsDisplay ProofsDiagram ProofsScreens ProofsLayout PropertiesDisplay
  SpecPictures ProofsPictures ModelMain SpecMain ProofsMain PropertiesMain ModelCli SpecCli ProofsCli PropertiesCli PropertiesPictures
  SpecReading PropertiesReading ModelTerminal SpecTerminal ProofsTerminal PropertiesTerminal SpecTells ProofsTells PropertiesTells SpecCost ProofsCost PropertiesCost PropertiesSize PropertiesScope SpecQuiet PropertiesQuiet PropertiesTerminal SpecTerminal SpecColumns.
Import ListNotations.
Local Open Scope N_scope.

(** ** Values *)

Definition narrow (ls : list line) : Prop := Forall (fun l => width l <= 122) ls.
Lemma width_row i sp : width (row i sp) = len (flat_map snd sp).
Proof. reflexivity. Qed.
Lemma dec_short n : n < 2 ^ 64 -> len (dec n) <= 20.
Proof.
  intros H. destruct (C73_decimal n) as (_ & _ & S & L). destruct (N.lt_ge_cases n 10) as [Q|Q]; [specialize (S Q); unfold len; lia|]. specialize (L Q).
  destruct (N.le_gt_cases (len (dec n)) 20) as [K|K]; [assumption|]. assert (10 ^ 20 <= 10 ^ (len (dec n) - 1)) by (apply N.pow_le_mono_r; lia). assert (2 ^ 64 < 10 ^ 20) by reflexivity. lia.
Qed.
Lemma dec_small k n : n < 10 ^ k -> 1 <= k -> len (dec n) <= k.
Proof.
  intros H Hk. destruct (C73_decimal n) as (_ & _ & S & L). destruct (N.lt_ge_cases n 10) as [Q|Q]; [specialize (S Q); unfold len; lia|]. specialize (L Q).
  destruct (N.le_gt_cases (len (dec n)) k) as [K|K]; [assumption|]. assert (10 ^ k <= 10 ^ (len (dec n) - 1)) by (apply N.pow_le_mono_r; lia). lia.
Qed.
(* The longest texts for the codes of a field. *)
Definition kind_columns (k : kind) : N := match k with Flag => 0 | Number => 3 | GenAc1 | GenAc2 => 43 | Format => 8 | Version => 17 | Method => 66 | Condition => 73 end.
Definition fits_columns {A} (k : N) (table : list (N * A * string)) : bool := forallb (fun r => len (lit (snd r)) <=? k) table.
Lemma find_code_columns {A} k (table : list (N * A * string)) c a s : find_code table c = Some (a, s) -> fits_columns k table = true -> len (lit s) <= k.
Proof.
  intros E H. revert H E. unfold fits_columns. induction table as [|[[b a'] s'] t IH]; cbn [find_code forallb snd]; [discriminate|]. intros H. apply andb_prop in H. destruct H as [H1 H2]. destruct (b =? c); [|now apply IH].
  intros E. injection E as _ <-. now apply N.leb_le.
Qed.
Lemma decode_columns k c v s : c < 256 -> decode k c = Some (v, s) -> len s <= kind_columns k.
Proof.
  intros Hc. destruct k; cbn [decode kind_columns]; unfold coded, optional.
  - intros H. injection H as _ <-. cbn. lia.
  - intros H. injection H as _ <-. apply dec_small; [|lia]. change (10 ^ 3) with 1000. lia.
  - destruct (find_code gen_ac1_codes c) as [[a t]|] eqn:E; [|discriminate]. intros H. injection H as _ <-. apply (find_code_columns 43 _ _ _ _ E ltac:(vm_compute; reflexivity)).
  - destruct (find_code gen_ac2_codes c) as [[a t]|] eqn:E; [|discriminate]. intros H. injection H as _ <-. apply (find_code_columns 43 _ _ _ _ E ltac:(vm_compute; reflexivity)).
  - destruct (find_code format_code_codes c) as [[a t]|] eqn:E; [|discriminate]. intros H. injection H as _ <-. apply (find_code_columns 8 _ _ _ _ E ltac:(vm_compute; reflexivity)).
  - destruct (find_code cryptogram_version_codes c) as [[a t]|] eqn:E; [|discriminate]. intros H. injection H as _ <-. apply (find_code_columns 17 _ _ _ _ E ltac:(vm_compute; reflexivity)).
  - destruct (find_code cv_method_codes c) as [[a t]|] eqn:E; intros H; injection H as _ <-; [apply (find_code_columns 66 _ _ _ _ E ltac:(vm_compute; reflexivity))|vm_compute; discriminate].
  - destruct (find_code cvm_condition_codes c) as [[a t]|] eqn:E; intros H; injection H as _ <-; [apply (find_code_columns 73 _ _ _ _ E ltac:(vm_compute; reflexivity))|vm_compute; discriminate].
Qed.
(* The columns of the explanation of a range in a diagram of [n] bytes. *)
Definition range_columns (n offset text : N) : N := let k := 8 * n - offset in k + (k - 1) / 8 + 1 + text.
Definition field_columns (n : N) (e : bit_field) : N := range_columns n (8 * (n - e_byte e) + (e_hi e - 1)) (len (lit (e_label e)) + kind_columns (e_kind e)).
Definition table_fits (n : N) (t : list bit_field) : bool := forallb (fun e => (field_columns n e <=? 122) && (e_hi e <=? 8) && (1 <=? e_lo e) && (e_lo e <=? e_hi e)) t.
Lemma bits_of_small b hi lo : hi <= 8 -> 1 <= lo -> bits_of b hi lo < 256.
Proof. intros H L. unfold bits_of. eapply N.lt_le_trans; [apply N.mod_lt; now apply N.pow_nonzero|]. change 256 with (2 ^ 8). apply N.pow_le_mono_r; lia. Qed.
Lemma shown_columns n t d : table_fits n t = true -> Forall (fun r => range_columns n (r_offset r) (len (r_text r)) <= 122) (all_shown n t d).
Proof.
  unfold table_fits, all_shown. induction t as [|e t IH]; [constructor|]. cbn [forallb flat_map]. intros H. apply andb_prop in H. destruct H as [H Ht]. apply Forall_app. split; [|now apply IH].
  apply andb_prop in H. destruct H as [H H4]. apply andb_prop in H. destruct H as [H H3]. apply andb_prop in H. destruct H as [H1 H2]. apply N.leb_le in H1, H2, H3, H4.
  unfold field_columns in H1. assert (B : field_bits e d < 256) by now apply bits_of_small.
  assert (G : forall s : str, len s <= len (lit (e_label e)) + kind_columns (e_kind e) -> range_columns n (8 * (n - e_byte e) + (e_hi e - 1)) (len s) <= 122) by (intros s Hs; unfold range_columns in *; lia).
  unfold field_shown. destruct (e_kind e) eqn:K.
  1: { destruct (field_bits e d =? 1); [|constructor]. constructor; [|constructor]. cbn [r_offset r_text]. apply G. lia. }
  all: match goal with |- context [decode ?k ?v] => pose proof (decode_columns k v) as D; destruct (decode k v) as [[x s]|]; [|constructor] end;
    constructor; [|constructor]; cbn [r_offset r_text]; apply G; rewrite len_app; specialize (D x s B eq_refl); lia.
Qed.
Lemma diagram_narrow n raw rs i show : n <= 5 -> Forall (fun r => range_columns n (r_offset r) (len (r_text r)) <= 122) rs -> narrow (diagram n raw rs i show).
Proof.
  intros Hn H. unfold narrow, diagram. constructor.
  { unfold width, bold_row. cbn [l_spans flat_map snd]. rewrite app_nil_r, draw_length. pose proof (N.div_le_upper_bound (8 * n - 1) 8 5 ltac:(lia) ltac:(lia)). lia. }
  apply Forall_app. split.
  { destruct (existsb _ rs); [|constructor]. constructor; [|constructor]. rewrite width_row. cbn [flat_map snd]. rewrite app_nil_r, draw_length.
    pose proof (N.div_le_upper_bound (8 * n - last_low rs - 1) 8 5 ltac:(lia) ltac:(lia)). lia. }
  apply Forall_map. apply Forall_rev. eapply Forall_impl; [|exact H]. intros r Hr. unfold width. cbn [l_spans flat_map snd]. rewrite app_nil_r, !len_app, draw_length. unfold range_columns in Hr.
  change (len [32]) with 1. lia.
Qed.
Lemma bits_narrow n t used d q i show : n <= 5 -> table_fits n t = true -> bits_picture n t used d = Some q -> narrow (q i show).
Proof.
  unfold bits_picture. intros Hn F H. destruct (_ && _); [|discriminate]. assert (E : q = diagram n (keep_bits d used) (all_shown n t d)) by congruence. rewrite E. clear H E.
  apply diagram_narrow; [assumption|]. now apply shown_columns.
Qed.
Lemma heading_narrow i s : len s <= 122 -> width (heading_row i s) <= 122.
Proof. intros H. unfold width, heading_row. cbn [l_spans flat_map snd]. now rewrite app_nil_r. Qed.
Lemma titled_width i st a b : width (titled i st a b) = len a + len b.
Proof. unfold titled. rewrite width_row. cbn [flat_map snd]. now rewrite app_nil_r, len_app. Qed.
Lemma action_narrow sentence d q i show : len (lit sentence) <= 122 -> action_picture sentence d = Some q -> narrow (q i show).
Proof.
  unfold action_picture. intros L. destruct (bits_picture 5 tvr_bits tvr_used d) as [r|] eqn:E; [|discriminate]. cbn [option_map]. intros H.
  assert (Q : q = fun i _ => heading_row i (lit sentence) :: r i false) by congruence. subst q. constructor; [now apply heading_narrow|].
  apply (bits_narrow 5 tvr_bits tvr_used d r i false); [lia|vm_compute; reflexivity|assumption].
Qed.
Lemma code_narrow {A} (table : list (N * A * string)) d q i show : fits_columns 122 table = true -> code_picture table d = Some q -> narrow (q i show).
Proof.
  unfold code_picture. intros F. destruct d as [|b [|]]; try discriminate. destruct (find_code table b) as [[a s]|] eqn:E; [|discriminate]. cbn [option_map]. intros H. injection H as <-.
  constructor; [|constructor]. rewrite width_row. cbn [flat_map snd]. rewrite app_nil_r. exact (find_code_columns 122 _ _ _ _ E F).
Qed.
Lemma code_text_columns k b hi lo : hi <= 8 -> 1 <= lo -> len (code_text k b hi lo) <= kind_columns k.
Proof. intros H L. unfold code_text. pose proof (bits_of_small b hi lo H L). destruct (decode k (bits_of b hi lo)) as [[v s]|] eqn:E; [now apply (decode_columns k _ v s) in E|cbn; lia]. Qed.
Lemma rules_narrow : forall d i k, k + len d < 2 ^ 64 -> narrow (rules_picture i k d).
Proof.
  induction d as [d IH] using length_ind. destruct d as [|a [|b d]]; intros i k H; cbn [rules_picture]; try constructor.
  - unfold width, bold_row. cbn [l_spans flat_map snd]. rewrite app_nil_r, !len_app. pose proof (dec_short k ltac:(lia)). change (len (lit "CVM ")) with 4. change (len (lit ":")) with 1. lia.
  - constructor; [|constructor; [|constructor]].
    + rewrite titled_width, len_cons. pose proof (code_text_columns Method a 6 1 ltac:(lia) ltac:(lia)) as C. change (kind_columns Method) with 66 in C. change (len (lit "Method:         ")) with 16. lia.
    + rewrite titled_width, len_cons. pose proof (code_text_columns Condition b 8 1 ltac:(lia) ltac:(lia)) as C. change (kind_columns Condition) with 73 in C. change (len (lit "Condition:      ")) with 16. lia.
    + rewrite titled_width. change (len (lit "If Unsuccessful:")) with 16. destruct (_ =? 1); [change (len (lit " Next CVM")) with 9|change (len (lit " Fail")) with 5]; lia.
    + apply IH; [cbn [List.length]; lia|]. rewrite !len_cons in H. lia.
Qed.
Lemma padded_len w n : len (padded w n) = N.max w (len (dec n)).
Proof. unfold padded. rewrite len_app. unfold len. rewrite repeat_length. lia. Qed.
Lemma be4 d : bytes_ok d -> be_value (firstn 4 d) < 2 ^ 32.
Proof.
  intros B. assert (F : bytes_ok (firstn 4 d)) by (rewrite <- (firstn_skipn 4 d) in B; now apply bytes_ok_app in B). pose proof (be_value_lt _ F) as G.
  eapply N.lt_le_trans; [exact G|]. change (2 ^ 32) with (256 ^ 4). apply N.pow_le_mono_r; [lia|]. rewrite firstn_length. lia.
Qed.
Lemma skipn_ok k d : bytes_ok d -> bytes_ok (skipn k d).
Proof. intros B. rewrite <- (firstn_skipn k d) in B. now apply bytes_ok_app in B. Qed.
Lemma cvm_list_narrow d q i show : bytes_ok d -> len d < 2 ^ 63 -> cvm_list_picture d = Some q -> narrow (q i show).
Proof.
  intros B L. unfold cvm_list_picture. destruct (_ && _) eqn:C; [|discriminate]. cbv zeta. intros H. pose proof (be4 d B) as Hx. pose proof (be4 (skipn 4 d) (skipn_ok 4 d B)) as Hy.
  set (x := be_value (firstn 4 d)) in *. set (y := be_value (firstn 4 (skipn 4 d))) in *. set (rs := skipn 8 d) in *.
  assert (Lr : len rs <= len d) by (unfold rs, len; rewrite skipn_length; lia). clearbody x y rs. injection H as <-.
  apply Forall_app. split; [|constructor; [apply heading_narrow; vm_compute; discriminate|apply rules_narrow; lia]].
  match goal with |- context [if ?b then _ else _] => destruct b end; [constructor|]. unfold amounts_picture.
  assert (Dx : len (dec x) <= 10) by (apply dec_small; [|lia]; eapply N.lt_trans; [exact Hx|reflexivity]). assert (Dy : len (dec y) <= 10) by (apply dec_small; [|lia]; eapply N.lt_trans; [exact Hy|reflexivity]).
  cbv zeta. set (w := N.max 3 (N.max (len (dec x)) (len (dec y)))) in *. assert (Hw : w <= 10) by (unfold w; lia). constructor; [|constructor; [|constructor]]; rewrite titled_width, !len_cons, ?len_app, padded_len.
  - change (len (lit "X Value:")) with 8. change (len (lit " (implicit decimal point based on application currency)")) with 55. lia.
  - change (len (lit "Y Value:")) with 8. lia.
Qed.
Lemma cvm_results_narrow d q i show : cvm_results_picture d = Some q -> narrow (q i show).
Proof.
  unfold cvm_results_picture. destruct d as [|a [|b [|c [|]]]]; try discriminate. destruct (find_code cvm_result_codes c) as [[r s]|] eqn:F; [|discriminate]. cbn [option_map]. intros H.
  match type of H with Some ?x = _ => assert (E : q = x) by congruence end. rewrite E. clear E H.
  apply diagram_narrow; [lia|]. apply Forall_app. split.
  - apply Forall_map. eapply Forall_impl; [|apply (shown_columns 2 cv_rule_bits [a; b]); vm_compute; reflexivity]. intros x Hx. cbn [r_offset r_text]. unfold range_columns in *.
    replace (8 * 3 - (r_offset x + 8)) with (8 * 2 - r_offset x) by lia. exact Hx.
  - constructor; [|constructor]. cbn [r_offset r_text snd]. rewrite len_app. pose proof (find_code_columns 10 _ _ _ _ F ltac:(vm_compute; reflexivity)). change (len (lit "Result: ")) with 8. unfold range_columns. change (8 * 3 - 7) with 17. change ((17 - 1) / 8) with 2. lia.
Qed.
Lemma chunk_small {A} n (l x : list A) : In x (chunks n l) -> (List.length x <= n)%nat.
Proof.
  unfold chunks. assert (G : forall f l, In x (chunks_fuel f n l) -> (List.length x <= n)%nat).
  { induction f as [|f IH]; intros [|y k]; cbn [chunks_fuel]; try (intros []; fail). intros [H|H]; [subst x; rewrite firstn_length; lia|now apply IH in H]. }
  apply G.
Qed.
Lemma spaced_columns l : (List.length l <= 16)%nat -> len (spaced (map byte_text l)) <= 47.
Proof. intros H. destruct l as [|b l]; [cbn; lia|]. pose proof (spaced_bytes_length (b :: l) ltac:(discriminate)) as S. unfold len. lia. Qed.
Lemma hex_dump_narrow i d : narrow (hex_dump i d).
Proof.
  unfold hex_dump. apply Forall_map, Forall_forall. intros x H. apply chunk_small in H. rewrite width_row. cbn [flat_map snd]. rewrite app_nil_r. pose proof (spaced_columns x H). lia.
Qed.
Lemma wide_dump_narrow i d : narrow (wide_dump i d).
Proof.
  unfold wide_dump. apply Forall_map, Forall_forall. intros x H. apply chunk_small in H. rewrite width_row. cbn [flat_map snd]. rewrite app_nil_r, len_app, len_map. pose proof (spaced_columns x H) as S.
  unfold pad_right. rewrite len_app. unfold len in *. rewrite repeat_length. lia.
Qed.
Lemma iad_narrow d q i show : iad_picture d = Some q -> narrow (q i show).
Proof.
  unfold iad_picture. cbv zeta. destruct (_ && _) eqn:C; [|discriminate]. intros H.
  match type of H with Some ?x = _ => assert (E : q = x) by congruence end. rewrite E. clear H E C.
  constructor; [apply heading_narrow; vm_compute; discriminate|]. apply Forall_app. split; [apply diagram_narrow; [lia|]; apply shown_columns; vm_compute; reflexivity|].
  constructor; [rewrite titled_width; change (len (lit "Derivation Key Index:")) with 21; rewrite len_app; change (len (lit " 0x")) with 3; unfold byte_text, len; cbn [List.length]; lia|].
  constructor; [apply heading_narrow; vm_compute; discriminate|]. apply Forall_app. split; [apply diagram_narrow; [lia|]; apply shown_columns; vm_compute; reflexivity|].
  constructor; [apply heading_narrow; vm_compute; discriminate|]. apply Forall_app. split; [apply hex_dump_narrow|].
  constructor; [apply heading_narrow; vm_compute; discriminate|]. apply hex_dump_narrow.
Qed.
Lemma of_digit_columns l k w : forallb (fun x => len (lit x) <=? w) l = true -> len (of_digit l k) <= w.
Proof.
  intros H. unfold of_digit. rewrite forallb_forall in H. destruct (nth_in_or_default (N.to_nat k) l EmptyString) as [I| ->]; [now apply N.leb_le, H|cbn; lia].
Qed.
Lemma service_narrow n i show : n <= 999 -> narrow (service_picture n i show).
Proof.
  intros Hn. unfold service_picture. cbv zeta. assert (D : len (dec n) <= 3) by (apply dec_small; [|lia]; change (10 ^ 3) with 1000; lia).
  constructor; [unfold width, bold_row; cbn [l_spans flat_map snd]; rewrite app_nil_r, padded_len; lia|].
  assert (G : forall arms (title : string) text, len arms <= 3 -> len (lit title) + len text <= 118 -> width (row i [(None, arms ++ [32]); (bold, lit title); (None, text)]) <= 122).
  { intros arms title text H1 H2. rewrite width_row. cbn [flat_map snd]. rewrite app_nil_r, !len_app. change (len [32]) with 1. lia. }
  repeat constructor; apply G; try (cbn; lia); rewrite len_app;
    match goal with |- context [of_digit ?l ?k] => pose proof (of_digit_columns l k 88 ltac:(vm_compute; reflexivity)); set (z := of_digit l k) in * end; vm_compute (len (lit _)); lia.
Qed.
Lemma same_bytes_find {A} (f : A -> list N) (x : A) l t : find (fun r => same_bytes (f r) t) l = Some x -> In x l.
Proof. intros H. now apply find_some in H. Qed.
Lemma picture_narrow t d q i show : bytes_ok d -> len d < 2 ^ 63 -> picture_of t d = Some q -> narrow (q i show).
Proof.
  intros B L. unfold picture_of, SpecPictures.lookup. destruct (find _ pictures) as [[t' f]|] eqn:F; [|discriminate]. cbn [option_map snd]. intros H. apply find_some in F. destruct F as [I _].
  unfold pictures in I. cbn [In] in I.
  repeat (destruct I as [I|I]; [assert (E : f = snd (t', f)) by reflexivity; rewrite <- I in E; cbn [snd] in E; subst f; clear I|]); [..|destruct I].
  - unfold service_data_picture in H. destruct d as [|a [|b [|]]]; try discriminate. destruct (_ && _) eqn:C; [|discriminate]. match type of H with Some ?x = _ => assert (E : q = x) by congruence end. rewrite E. clear E H.
    apply andb_prop in C. destruct C as [C C3]. apply andb_prop in C. destruct C as [C1 C2]. apply N.ltb_lt in C1, C2, C3. apply service_narrow. lia.
  - unfold response_picture in H. destruct (find _ arc_codes) as [r|] eqn:E; [|discriminate]. apply find_some in E. destruct E as [E _]. cbn [option_map] in H. match type of H with Some ?x = _ => assert (Q : q = x) by congruence end. rewrite Q. clear Q H.
    constructor; [|constructor]. rewrite width_row. cbn [flat_map snd]. rewrite app_nil_r.
    assert (G : forallb (fun r => len (lit (snd r)) <=? 70) arc_codes = true) by (vm_compute; reflexivity). rewrite forallb_forall in G. apply G in E. apply N.leb_le in E. set (z := len (lit (snd r))) in *. lia.
  - now apply (cvm_list_narrow d).
  - apply (bits_narrow _ _ _ _ _ i show) in H; [exact H|lia|vm_compute; reflexivity].
  - apply (bits_narrow _ _ _ _ _ i show) in H; [exact H|lia|vm_compute; reflexivity].
  - apply (code_narrow _ _ _ i show) in H; [exact H|vm_compute; reflexivity].
  - apply (action_narrow _ _ _ i show) in H; [exact H|vm_compute; discriminate].
  - apply (action_narrow _ _ _ i show) in H; [exact H|vm_compute; discriminate].
  - apply (action_narrow _ _ _ i show) in H; [exact H|vm_compute; discriminate].
  - now apply (iad_narrow d).
  - apply (bits_narrow _ _ _ _ _ i show) in H; [exact H|lia|vm_compute; reflexivity].
  - now apply (cvm_results_narrow d).
  - apply (code_narrow _ _ _ i show) in H; [exact H|vm_compute; reflexivity].
  - apply (code_narrow _ _ _ i show) in H; [exact H|vm_compute; reflexivity].
  - apply (bits_narrow _ _ _ _ _ i show) in H; [exact H|lia|vm_compute; reflexivity].
Qed.

(** ** Trees *)

Lemma name_columns t : len (name_of t) <= 58.
Proof.
  unfold name_of. destruct (find _ emv_tag_names) as [[n x]|] eqn:E; [|vm_compute; discriminate]. apply find_some in E. destruct E as [E _].
  assert (G : forallb (fun r => len (lit (snd r)) <=? 58) emv_tag_names = true) by (vm_compute; reflexivity). rewrite forallb_forall in G. apply G in E. now apply N.leb_le in E.
Qed.
Lemma title_columns t : len (tag_title t) <= 75.
Proof.
  unfold tag_title. destruct (rt_data t) as [d|]; [|pose proof (name_columns (rt_tag t)); lia]. pose proof (name_columns (rt_tag t)) as N.
  destruct (picture_of (rt_tag t) d); [lia|]. unfold SpecPictures.lookup. destruct (find _ unrecognised_names) as [[n x]|] eqn:E; cbn [option_map snd]; [|lia]. apply find_some in E. destruct E as [E _].
  assert (G : forallb (fun r => len (lit (snd r)) <=? 75) unrecognised_names = true) by (vm_compute; reflexivity). rewrite forallb_forall in G. apply G in E. now apply N.leb_le in E.
Qed.
Lemma byte_text_len l : len (flat_map byte_text l) = 2 * len l.
Proof. induction l as [|b l IH]; [reflexivity|]. cbn [flat_map byte_text app]. rewrite !len_cons, IH. lia. Qed.
Definition tag_sound (t : raw_tag) : Prop := match rt_data t with Normal d => bytes_ok d /\ len d < 2 ^ 63 | Masked => True end.
Lemma tag_row_columns i t : tag_sound t -> width (tag_row i t (tag_title t)) <= 114 + 2 * len (rt_tag t).
Proof.
  intros S. unfold tag_row. rewrite width_row. cbn [flat_map snd]. rewrite app_nil_r, !len_app, byte_text_len. pose proof (title_columns t) as T. set (z := tag_title t) in *. clearbody z.
  assert (L : len (length_text (rt_data t)) <= 26).
  { unfold length_text, tag_sound in *. destruct (rt_data t) as [d|]; [|vm_compute; discriminate]. rewrite len_app. pose proof (dec_short (len d) ltac:(lia)). destruct (len d =? 1); [change (len (lit " byte")) with 5|change (len (lit " bytes")) with 6]; lia. }
  change (len (lit "Tag:")) with 4. change (len (lit " 0x")) with 3. change (len (lit " - ")) with 3. lia.
Qed.
Lemma blank_narrow : width blank <= 122.
Proof. vm_compute. discriminate. Qed.
Lemma in_separated (l : list (list line)) x : In x (separated l) -> x = blank \/ exists y, In y l /\ In x y.
Proof.
  induction l as [|a l IH]; [intros []|]. rewrite separated_cons, in_app_iff. intros [H|H]; [right; exists a; split; [now left|assumption]|]. destruct l as [|b l]; [destruct H|]. destruct H as [<-|H]; [now left|].
  destruct (IH H) as [->|(y & Hy & Hx)]; [now left|]. right. exists y. split; [now right|assumption].
Qed.
Lemma tag_lines_columns t i show l : tag_sound t -> In l (tag_lines t i show) -> width l <= 122 \/ l = tag_row i t (tag_title t).
Proof.
  intros S. unfold tag_lines. intros [H|H]; [now right|left]. revert H. apply (proj1 (Forall_forall (fun l => width l <= 122) _)). apply Forall_app. unfold tag_sound in S. split.
  - unfold data_lines. destruct (rt_data t) as [[|b d]|]; [constructor| |].
    + constructor; [apply heading_narrow; vm_compute; discriminate|apply wide_dump_narrow].
    + constructor; [apply heading_narrow; vm_compute; discriminate|constructor].
  - unfold meaning_lines. destruct (rt_data t) as [d|]; [|constructor]. destruct (picture_of (rt_tag t) d) as [q|] eqn:Q; [|constructor]. constructor; [apply heading_narrow; vm_compute; discriminate|].
    destruct S as [S1 S2]. now apply (picture_narrow (rt_tag t) d).
Qed.
Lemma tree_columns show : forall n i l, Forall tag_sound (preorder n) -> In l (tree_lines show n i) -> width l <= 122 \/ exists t, In t (preorder n) /\ width l <= 114 + 2 * len (rt_tag t).
Proof.
  fix IH 1. intros [t c] i l S H. cbn [tree_lines preorder] in *. pose proof (Forall_inv S) as St. pose proof (Forall_inv_tail S) as Sc. clear S. apply in_app_iff in H. destruct H as [H|H].
  { apply (tag_lines_columns t i show l St) in H. destruct H as [H|H]; [now left|]. right. exists t. split; [now left|]. subst l. now apply tag_row_columns. }
  assert (G : forall c, Forall tag_sound (flat_map preorder c) -> forall y, In y (map (fun n => tree_lines show n (i + 1)) c) -> In l y -> width l <= 122 \/ exists t, In t (flat_map preorder c) /\ width l <= 114 + 2 * len (rt_tag t)).
  { clear - IH. induction c as [|n c IHc]; [intros _ y []|]. cbn [flat_map map]. intros S y Hy Hl. apply Forall_app in S. destruct S as [S1 S2]. destruct Hy as [<-|Hy].
    - destruct (IH n (i + 1) l S1 Hl) as [K|(t & K1 & K2)]; [now left|]. right. exists t. split; [apply in_app_iff; now left|assumption].
    - destruct (IHc S2 y Hy Hl) as [K|(t & K1 & K2)]; [now left|]. right. exists t. split; [apply in_app_iff; now right|assumption]. }
  specialize (G c Sc). destruct c as [|n c]; [destruct H|]. destruct H as [<-|H]; [left; apply heading_narrow; vm_compute; discriminate|].
  apply in_separated in H. destruct H as [->|(y & Hy & Hl)]; [left; apply blank_narrow|]. destruct (G y Hy Hl) as [K|(t0 & K1 & K2)]; [now left|]. right. exists t0. split; [now right|assumption].
Qed.
Lemma forest_columns show ns i l : Forall tag_sound (flat_map preorder ns) -> In l (forest_lines ns i show) -> width l <= 122 \/ exists t, In t (flat_map preorder ns) /\ width l <= 114 + 2 * len (rt_tag t).
Proof.
  intros S H. unfold forest_lines in H. apply in_separated in H. destruct H as [->|(y & Hy & Hl)]; [left; apply blank_narrow|]. apply in_map_iff in Hy. destruct Hy as (n & <- & Hn).
  assert (Sn : Forall tag_sound (preorder n)) by (apply Forall_forall; intros t Ht; rewrite Forall_forall in S; apply S, in_flat_map; exists n; auto).
  destruct (tree_columns show n i l Sn Hl) as [K|(t & K1 & K2)]; [now left|]. right. exists t. split; [apply in_flat_map; exists n; auto|assumption].
Qed.

(* The columns beyond 122, summed up. *)
Definition excess (l : line) : N := width l - 122.
Definition tag_weight (ns : list raw_node) : N := total (map (fun t => len (rt_tag t)) (flat_map preorder ns)).
Lemma total_app l l' : total (l ++ l') = total l + total l'.
Proof. unfold total. induction l; cbn [app fold_right]; lia. Qed.
Lemma narrow_excess ls : narrow ls -> total (map excess ls) = 0.
Proof. unfold total, excess. induction 1; cbn [map fold_right]; lia. Qed.
Lemma separated_excess (l : list (list line)) : total (map excess (separated l)) = total (map (fun x => total (map excess x)) l).
Proof.
  induction l as [|a l IH]; [reflexivity|]. rewrite separated_cons, map_app, total_app. cbn [map]. change (total (?x :: ?y)) with (x + total y). f_equal. rewrite <- IH. destruct l as [|b l]; [reflexivity|].
  cbn [map]. change (total (excess blank :: map excess (separated (b :: l)))) with (excess blank + total (map excess (separated (b :: l)))). change (excess blank) with 0. lia.
Qed.
Lemma tree_excess show : forall n i, Forall tag_sound (preorder n) -> total (map excess (tree_lines show n i)) <= 2 * total (map (fun t => len (rt_tag t)) (preorder n)).
Proof.
  fix IH 1. intros [t c] i S. cbn [tree_lines preorder] in *. pose proof (Forall_inv S) as St. pose proof (Forall_inv_tail S) as Sc. clear S.
  assert (G : forall c, Forall tag_sound (flat_map preorder c) -> total (map (fun x => total (map excess x)) (map (fun n => tree_lines show n (i + 1)) c)) <= 2 * total (map (fun t => len (rt_tag t)) (flat_map preorder c))).
  { clear - IH. induction c as [|n c IHc]; [intros _; cbn; lia|]. cbn [flat_map map]. intros S. apply Forall_app in S. destruct S as [S1 S2]. rewrite map_app, total_app. specialize (IH n (i + 1) S1). specialize (IHc S2).
    match goal with |- total (?x :: ?y) <= _ => change (total (x :: y)) with (x + total y) end. lia. }
  specialize (G c Sc). rewrite map_app, total_app. cbn [map]. change (total (?x :: ?y)) with (x + total y).
  assert (T : total (map excess (tag_lines t i show)) <= 2 * len (rt_tag t)).
  { unfold tag_lines. cbn [map]. change (total (?x :: ?y)) with (x + total y). rewrite narrow_excess.
    - unfold excess. pose proof (tag_row_columns i t St). lia.
    - apply Forall_forall. intros l Hl. clear G Sc IH. revert Hl. apply (proj1 (Forall_forall (fun l => width l <= 122) _)). apply Forall_app. unfold tag_sound in St. split.
      + unfold data_lines. destruct (rt_data t) as [[|b d]|]; [constructor| |].
        * constructor; [apply heading_narrow; vm_compute; discriminate|apply wide_dump_narrow].
        * constructor; [apply heading_narrow; vm_compute; discriminate|constructor].
      + unfold meaning_lines. destruct (rt_data t) as [d|]; [|constructor]. destruct (picture_of (rt_tag t) d) as [q|] eqn:Q; [|constructor]. constructor; [apply heading_narrow; vm_compute; discriminate|].
        destruct St as [S1 S2]. now apply (picture_narrow (rt_tag t) d). }
  destruct c as [|n c]; [cbn [map]; change (total []) with 0 in *; lia|]. cbn [map] in *. change (total (?x :: ?y)) with (x + total y).
  rewrite separated_excess. assert (H0 : excess (heading_row i (lit "Constructed Data Object's Child Tags:")) = 0) by (vm_compute; reflexivity). rewrite H0. cbn [map]. lia.
Qed.

(** ** Arguments *)

Lemma total_cons x y : total (x :: y) = x + total y.
Proof. reflexivity. Qed.
Lemma total_nil : total [] = 0.
Proof. reflexivity. Qed.

Lemma ber_weight masks : forall bytes objs ns, ber_objects bytes objs [] -> ber_trees masks objs ns -> tag_weight ns <= len bytes.
Proof.
  unfold tag_weight. induction bytes as [bytes IH] using length_ind. intros objs ns O T. inversion O as [|b t v mid objs' r Ob Os]; subst; inversion T as [|o n os ns' Tn Ts]; subst; [cbn; lia|].
  inversion Ob as [t' l v' rest Bt Bl _]; subst. assert (Lt : 1 <= len t) by (destruct Bt; rewrite len_cons; lia). assert (Ll : 1 <= len l) by (destruct Bl; rewrite len_cons; lia).
  rewrite !len_app. cbn [flat_map]. rewrite map_app, total_app.
  assert (Hr : total (map (fun t => len (rt_tag t)) (flat_map preorder ns')) <= len mid) by (apply (IH mid) with objs'; try assumption; unfold len in *; rewrite !app_length; lia).
  assert (Hn : total (map (fun t => len (rt_tag t)) (preorder n)) <= len t + len v).
  { inversion Tn as [t1 v1 d R _|t1 v1 objs1 ch _ _ O1 T1]; subst; cbn [preorder map rt_tag flat_map]; rewrite total_cons; [cbn [map]; rewrite ?total_nil; lia|].
    assert (total (map (fun t => len (rt_tag t)) (flat_map preorder ch)) <= len v); [|lia]. apply (IH v) with objs1; try assumption. unfold len in *. rewrite !app_length. lia. }
  lia.
Qed.
Lemma ing_weight masks : forall s es, ing_text masks s es -> forall ns, ing_nodes masks es ns -> tag_weight ns <= len s.
Proof.
  assert (Field : forall f e n, ing_field masks f e -> ing_node masks (ie_tag e) (ie_data e) n -> total (map (fun t => len (rt_tag t)) (preorder n)) <= len f).
  { intros f e n F H. destruct F as [ty td tag ld k fmt txt d Td _ D]. cbn [ie_tag ie_data] in H. rewrite len_cons, !len_app, !len_cons, !len_app, !len_cons.
    assert (Lt : len tag <= len td).
    { destruct Td as (_ & z & E & _). assert (Q : (List.length (bytes_of_digits td) <= List.length td)%nat) by (rewrite bytes_of_digits_length; apply Nat.div2_decr; lia). rewrite E, app_length in Q. unfold len. lia. }
    assert (Ld : match d with Normal d0 => len d0 | Masked => 0 end <= len txt).
    { destruct D as [txt d _ [[_ ->]|[_ ->]]|txt _ _|txt _ _ _]; try lia. unfold len. rewrite bytes_of_digits_length. pose proof (Nat.div2_decr (List.length txt) (List.length txt)). lia. }
    inversion H as [d' _ |v objs ch _ O T]; subst; cbn [preorder map rt_tag flat_map]; rewrite total_cons; [cbn [map]; rewrite ?total_nil; lia|].
    pose proof (ber_weight masks v objs ch O T) as W. unfold tag_weight in W. lia. }
  unfold tag_weight. induction 1 as [|f e F|f e sep rest es F T IH]; intros ns H.
  - inversion H. cbn. lia.
  - inversion H as [|e' es' ns' _ H'|e' es' n ns' _ H1 H']; subst; inversion H'; subst; [cbn; lia|].
    cbn [flat_map]. rewrite app_nil_r. now apply (Field f e n F H1).
  - rewrite len_app, len_cons. inversion H as [|e' es' ns' _ H'|e' es' n ns' _ H1 H']; subst; specialize (IH _ H'); [lia|].
    cbn [flat_map]. rewrite map_app, total_app. pose proof (Field f e n F H1). lia.
Qed.
Lemma block_weight masks op s f ns : tlv_block masks op s f ns -> tag_weight ns <= len s.
Proof.
  intros B. assert (Bb : ber_block masks s ns -> tag_weight ns <= len s) by (intros (objs & Ob & T); pose proof (ber_weight masks _ _ _ Ob T); pose proof (hex_bytes_len s); lia).
  assert (Bi : ingenico_block masks s ns -> tag_weight ns <= len s) by (intros (_ & es & T & Ns); exact (ing_weight masks s es T ns Ns)). inversion B; auto.
Qed.
Lemma block_sound p masks op s f ns : text64 p s -> tlv_block masks op s f ns -> Forall tag_sound (flat_map preorder ns).
Proof.
  intros T B. pose proof (tlv_data_ok p masks op s f ns T B) as D. unfold forest_data_ok in D. rewrite Forall_forall in *. intros t Ht. specialize (D t Ht). unfold tag_sound, data_ok in *.
  destruct (rt_data t) as [d|] eqn:E; [|exact I]. split; [assumption|]. pose proof (value_size masks op s f ns t d B Ht E). destruct T. lia.
Qed.
Lemma format_narrow f : narrow (format_lines f).
Proof. destruct f as [[]|]; repeat constructor; vm_compute; discriminate. Qed.
Lemma identify_lines t q i show : identify_picture t = Some q -> exists a b c, q i show = a :: row i [(heading, lit "Tag:"); (None, lit "              0x"); (bold, flat_map byte_text t)] :: b :: c /\ narrow (a :: b :: c).
Proof.
  unfold identify_picture. destruct t as [|x t]; [discriminate|]. intros H. match type of H with Some ?y = _ => assert (Q : q = y) by congruence end. rewrite Q. clear Q H. do 3 eexists. split; [reflexivity|]. unfold narrow. apply Forall_cons; [|apply Forall_cons; [|apply Forall_cons; [|apply Forall_nil]]]; rewrite titled_width, len_app.
  - pose proof (name_columns (x :: t)). set (z := name_of (x :: t)) in *. change (len (lit "Name:")) with 5. change (len (lit "             ")) with 13. lia.
  - change (len (lit "Class:")) with 6. change (len (lit "            ")) with 12.
    pose proof (of_digit_columns ["Universal"; "Application"; "Context-Specific"; "Private"]%string (x / 64) 20 ltac:(vm_compute; reflexivity)) as O. unfold of_digit in O. lia.
  - destruct (N.testbit x 5); vm_compute; discriminate.
Qed.
(* Lines of values. *)
Lemma value_narrow p op s f q i show : text64 p s -> In (op, f) byte_operations -> f (hex_bytes s) = Some q -> op <> OpIdentify -> narrow (q i show).
Proof.
  intros T I E N. pose proof (hex_input64 p s T) as (_ & B & L). rewrite <- hex_bytes_eq in B, L. unfold byte_operations in I. cbn [In] in I.
  repeat (destruct I as [I|I]; [assert (F : f = snd (op, f)) by reflexivity; assert (O : op = fst (op, f)) by reflexivity; rewrite <- I in F, O; cbn [fst snd] in F, O; subst f; clear I|]); [..|destruct I].
  1, 3, 4: apply (bits_narrow _ _ _ _ _ i show) in E; [exact E|lia|vm_compute; reflexivity].
  - now apply (iad_narrow (hex_bytes s)).
  - now apply (cvm_results_narrow (hex_bytes s)).
  - now apply (cvm_list_narrow (hex_bytes s)).
  - contradiction.
Qed.
Lemma identify_only s f q : In (OpIdentify, f) byte_operations -> f (hex_bytes s) = Some q -> identify_picture (hex_bytes s) = Some q.
Proof.
  intros I E. unfold byte_operations in I. cbn [In] in I. repeat (destruct I as [I|I]; [first [discriminate I|assert (F : f = snd (OpIdentify, f)) by reflexivity; rewrite <- I in F; cbn [snd] in F; subst f; exact E]|]). destruct I.
Qed.
Lemma op_cases op : op = OpIdentify \/ op <> OpIdentify.
Proof. destruct op; (now left) || (right; discriminate). Qed.

(** C105: columns and characters. *)
(* No line has more than 122 columns right of its tabs, unless it shows a tag of more than four bytes. *)
Theorem C105_width : forall p masks sort op s ls l, text64 p s -> sheet masks sort op s ls -> In l ls ->
  width l <= 122 \/ exists t, shows_tag masks op s t /\ 4 < len t /\ width l <= 114 + 2 * len t.
Proof.
  intros p masks sort op s ls l T H Hl. inversion H as [f q I E|n O D N|f ns ns' B N A]; subst.
  - destruct (op_cases op) as [->|O].
    + apply (identify_only s f q I) in E. destruct (identify_lines _ _ 0 true E) as (a & b & c & Q & Nr). rewrite Q in Hl. clear Q E I. inversion Nr as [|x y Ha Hbc]; subst.
      destruct Hl as [<-|[<-|Hl]]; [now left| |left; rewrite Forall_forall in Hbc; now apply Hbc].
      rewrite width_row. cbn [flat_map snd]. rewrite app_nil_r, !len_app, byte_text_len. change (len (lit "Tag:")) with 4. change (len (lit "              0x")) with 16.
      destruct (N.le_gt_cases (len (hex_bytes s)) 4); [left; lia|]. right. exists (hex_bytes s). split; [constructor|]. split; [assumption|lia].
    + left. pose proof (value_narrow p op s f q 0 true T I E O) as Nr. unfold narrow in Nr. rewrite Forall_forall in Nr. now apply Nr.
  - left. pose proof (service_narrow n 0 true N) as Nr. unfold narrow in Nr. rewrite Forall_forall in Nr. now apply Nr.
  - apply in_app_iff in Hl. destruct Hl as [Hl|Hl]; [left; pose proof (format_narrow f) as Nr; unfold narrow in Nr; rewrite Forall_forall in Nr; now apply Nr|].
    assert (Hl' : In l (forest_lines ns 0 true)) by (destruct sort; [apply (Permutation_in l (Permutation_sym (in_order_lines ns ns' A 0 true)) Hl)|now subst]).
    destruct (forest_columns true ns 0 l (block_sound p masks op s f ns T B) Hl') as [K|(t & K1 & K2)]; [now left|]. destruct (N.le_gt_cases (len (rt_tag t)) 4); [left; lia|].
    right. exists (rt_tag t). split; [now apply (shows_in_block masks op s f ns t)|]. split; assumption.
Qed.
Lemma total_perm_excess ls ls' : Permutation ls ls' -> total (map excess ls) = total (map excess ls').
Proof. intros P. now apply total_perm, Permutation_map. Qed.
Lemma sheet_excess p masks sort op s ls : text64 p s -> sheet masks sort op s ls -> total (map excess ls) <= 2 * len s.
Proof.
  intros T H. inversion H as [f q I E|n O D N|f ns ns' B N A]; subst.
  - destruct (op_cases op) as [->|O].
    + apply (identify_only s f q I) in E. destruct (identify_lines _ _ 0 true E) as (a & b & c & Q & Nr). rewrite Q. clear Q E I. pose proof (narrow_excess _ Nr) as X. cbn [map] in *. rewrite !total_cons in *.
      set (r := row 0 _). assert (R : excess r <= 2 * len (hex_bytes s)).
      { unfold r, excess. rewrite width_row. cbn [flat_map snd]. rewrite app_nil_r, !len_app, byte_text_len. change (len (lit "Tag:")) with 4. change (len (lit "              0x")) with 16. lia. }
      change (excess a + (excess r + (excess b + total (map excess c))) <= 2 * len s). pose proof (hex_bytes_len s). lia.
    + rewrite narrow_excess by (now apply (value_narrow p op s f q 0 true T I E O)). lia.
  - rewrite narrow_excess by (now apply service_narrow). lia.
  - rewrite map_app, total_app, (narrow_excess _ (format_narrow f)). pose proof (block_weight masks op s f ns B) as W.
    assert (X : total (map excess (forest_lines ns' 0 true)) = total (map excess (forest_lines ns 0 true))) by (destruct sort; [symmetry; apply total_perm_excess; now apply in_order_lines|now subst]).
    rewrite X. unfold forest_lines. rewrite separated_excess. pose proof (block_sound p masks op s f ns T B) as S. unfold tag_weight in W.
    assert (G : total (map (fun x => total (map excess x)) (map (fun n => tree_lines true n 0) ns)) <= 2 * total (map (fun t => len (rt_tag t)) (flat_map preorder ns))); [|lia].
    clear - S. induction ns as [|n ns IH]; [cbn; lia|]. cbn [flat_map map] in *. apply Forall_app in S. destruct S as [S1 S2]. rewrite map_app, total_app. specialize (IH S2). pose proof (tree_excess true n 0 S1).
    rewrite total_cons. lia.
Qed.
Lemma characters_excess ls : characters ls <= 378 * len ls + total (map excess ls).
Proof.
  unfold characters. induction ls as [|l ls IH]; [cbn; lia|]. cbn [flat_map map]. rewrite total_cons, !len_app. change (len [10]) with 1. rewrite len_cons. set (z := len (flat_map _ ls)) in *. unfold line_text. rewrite len_app.
  assert (len (repeat 9 (N.to_nat (l_tabs l mod 256))) <= 255) by (unfold len; rewrite repeat_length; pose proof (N.mod_lt (l_tabs l) 256); lia).
  set (r := total (map excess ls)) in *. unfold excess, width. lia.
Qed.
(* The characters of a sheet: at most quadratic in the argument. *)
Theorem C105_characters : forall p masks sort op s ls, text64 p s -> sheet masks sort op s ls ->
  characters ls <= 378 * len ls + 2 * len s /\ characters ls <= 378 * (len s * len s + 34 * len s + 64) + 2 * len s.
Proof.
  intros p masks sort op s ls T H. pose proof (characters_excess ls) as C. pose proof (sheet_excess p masks sort op s ls T H) as E. pose proof (C88_lines masks sort op s ls H) as L. split; lia.
Qed.
Lemma render_text ls : map snd (render ls) = flat_map (fun l => line_text l ++ [10]) ls.
Proof.
  unfold render. induction ls as [|l ls IH]; [reflexivity|]. cbn [flat_map]. rewrite map_app, IH. f_equal.
  unfold render_line, line_text. rewrite !map_app, ink_text. cbn [map snd]. rewrite <- app_assoc. do 2 f_equal.
  induction (l_spans l) as [|sp sps IH']; [reflexivity|]. cbn [flat_map]. now rewrite map_app, IH', ink_text.
Qed.
(* The characters the program writes, whatever becomes of the run. *)
Theorem C105_program : forall p e m st op s, load_settings e m = Ok st -> chosen m op s -> text64 p s ->
  len (text_of (o_stdout (run_main p e m))) <= 378 * (len s * len s + 34 * len s + 64) + 2 * len s.
Proof.
  intros p e m st op s L C T. rewrite (main_chosen p e m st op s L C). destruct (run_one_first p st op s T) as [(ls & k & B & _ & rest & R)|(er & _ & _ & _ & E & _)].
  - apply (C73_sheet p _ _ _ _ ls k T) in B. destruct B as [B _]. pose proof (proj2 (C105_characters p _ _ op s ls T B)) as H. unfold characters in H. rewrite <- render_text, R, map_app, len_app in H. unfold text_of. lia.
  - rewrite E. cbn. lia.
Qed.
Lemma utf8_len s : len (utf8 s) <= 4 * len s.
Proof.
  unfold utf8. induction s as [|c s IH]; [cbn; lia|]. cbn [flat_map]. rewrite len_app, len_cons. assert (len (utf8_char c) <= 4); [|lia].
  unfold utf8_char. destruct (c <? 0x80); [|destruct (c <? 0x800); [|destruct (c <? 0x10000)]]; vm_compute; discriminate.
Qed.
(* The bytes sent to a device that gets no colours. *)
Theorem C105_bytes : forall p e m st op s v, load_settings e m = Ok st -> chosen m op s -> text64 p s -> should_attempt_color v (set_colour st) = false ->
  len (stdout_bytes v st (run_main p e m)) <= 1512 * (len s * len s + 34 * len s + 64) + 8 * len s.
Proof.
  intros p e m st op s v L C T W. pose proof (C105_program p e m st op s L C T) as H. unfold stdout_bytes. rewrite W, (write_plain _ None). pose proof (utf8_len (map snd (screen None (o_stdout (run_main p e m))))) as U. unfold text_of in H. lia.
Qed.
(* The bound of 122 columns is reached: a terminal type. *)
Example C105_example : exists ls l, text64 p64 (lit "9F350115") /\ sheet [] false OpBer (lit "9F350115") ls /\ In l ls /\ width l = 122 /\ characters ls = 226.
Proof.
  set (n := RawNode (mkRawTag [0x9F; 0x35] TagClass_ContextSpecific Primitive (Normal [0x15])) []). exists (forest_lines [n] 0 true), (nth 4 (forest_lines [n] 0 true) blank).
  assert (T : text64 p64 (lit "9F350115")) by (split; vm_compute; reflexivity). split; [exact T|split; [|split; [|split]]].
  - apply (sheet_block [] false OpBer _ None [n]); [|repeat constructor|reflexivity].
    + apply (tlv_settles p64 [] OpBer (lit "9F350115") _ T eq_refl). vm_compute. reflexivity.
    + intros e (d & D & R). cbn in D. injection D as <-. inversion R as [t k d I L|d L|a b U|d L|d L1 L2|a b c L|b L|b L]; subst; [|apply (L TerminalType_UnattendedOfflineWithOnlineCapabilitiesFinancialInstitution); eexists; cbn [terminal_type_codes In]; tauto].
      cbn [fixed_lengths In] in I. repeat (destruct I as [I|I]; [first [discriminate I|injection I as <-; now apply L]|]). destruct I.
  - vm_compute. tauto.
  - vm_compute. reflexivity.
  - vm_compute. reflexivity.
Qed.
