(** Proofs about the display of values and blocks. *)

From Coq Require Import ZArith NArith List String Ascii Bool Lia ZifyN ZifyBool ZifyNat.
From Verif Require Import Base ModelUtil ModelEnums ModelBitflag ModelSchemas ModelTags ModelTlv ModelValues ModelProcess ModelDisplay
  SpecUtil SpecCodes SpecValues SpecDisplay ProofsUtil ProofsBer ProofsValues PropertiesValues ProofsDisplay ProofsDiagram.
Import ListNotations.
Local Open Scope N_scope.

(** ** Bit fields *)

Definition field_in_byte (e : bit_field) : bool := (1 <=? e_lo e) && (e_lo e <=? e_hi e) && (e_hi e <=? 8).
Lemma shown_in_byte n e raw r : field_in_byte e = true -> In r (field_shown n e raw) -> in_one_byte r.
Proof.
  unfold field_in_byte, field_shown, in_one_byte. intros H Hr.
  assert (G : e_hi e - e_lo e + 1 <= (8 * (n - e_byte e) + (e_hi e - 1)) mod 8 + 1) by lia.
  destruct (e_kind e); [destruct (field_bits e raw =? 1); [|destruct Hr]|..];
    try (destruct (decode _ (field_bits e raw)) as [[v' s]|]; [|destruct Hr]);
    (destruct Hr as [<-|[]]; exact G).
Qed.
Lemma all_shown_in_byte n t raw : forallb field_in_byte t = true -> Forall in_one_byte (all_shown n t raw).
Proof.
  intros H. apply Forall_forall. intros r Hr. unfold all_shown in Hr. apply in_flat_map in Hr. destruct Hr as (e & He & Hr).
  rewrite forallb_forall in H. exact (shown_in_byte n e raw r (H e He) Hr).
Qed.
Lemma bit_value_tables parse sch n t m : In (parse, sch, n, t, m) all_bit_values -> forallb field_in_byte t = true /\ 1 <= n /\ n <= 8 /\ len m = n.
Proof.
  intros H. unfold all_bit_values, bit_values in H. cbn [app In] in H.
  repeat (destruct H as [H|H]; [injection H as <- <- <- <- <-; split; [vm_compute; reflexivity|split; [|split]]; [lia|lia|reflexivity]|]). destruct H.
Qed.
Lemma keep_bits_bytes raw : forall m, bytes_ok raw -> bytes_ok (keep_bits raw m).
Proof.
  induction raw as [|b raw IH]; intros m H; [constructor|]. destruct m as [|x m]; [constructor|]. cbn [keep_bits].
  apply bytes_ok_cons in H. destruct H as [Hb H]. apply bytes_ok_cons. split; [|now apply IH].
  unfold is_byte in *. assert (N.land b x <= b); [|lia]. clear. apply N.ldiff_le. apply N.bits_inj. intros i.
  rewrite N.ldiff_spec, N.land_spec, N.bits_0. now destruct (N.testbit b i), (N.testbit x i).
Qed.
Lemma bit_value_facts parse sch n t m raw v : In (parse, sch, n, t, m) bit_values -> bytes_ok raw -> parse raw = Ok v ->
  s_count sch = n /\ 1 <= n /\ n <= 8 /\ len (bf_repr sch v) = n /\ bytes_ok (bf_repr sch v)
  /\ left_to_right (8 * n) (bf_ranges sch v) /\ Forall in_one_byte (bf_ranges sch v).
Proof.
  intros H Hb P. pose proof (bit_values_all _ H) as Ha. destruct (all_bit_values_ok _ _ _ _ _ Ha) as (E & En & M).
  destruct (bit_value_tables _ _ _ _ _ Ha) as (T & L1 & L8 & Lm). split; [assumption|]. split; [assumption|]. split; [assumption|].
  rewrite (C41_serialise_masks _ _ _ _ _ raw v H P). split.
  { assert (Lr : len raw = n). { rewrite E in P. apply (bf_parse_ok sch t m M) in P. destruct P. congruence. }
    unfold len in *. rewrite keep_bits_length by lia. lia. }
  split; [now apply keep_bits_bytes|]. split.
  - now apply (C44_ranges_left_to_right parse sch n t m raw v).
  - rewrite (C44_ranges _ _ _ _ _ raw v Ha P). now apply all_shown_in_byte.
Qed.
Lemma bits_shows p parse sch n t m raw v i show : In (parse, sch, n, t, m) bit_values -> bytes_ok raw -> parse raw = Ok v ->
  shows_lines (display_bitflag p sch v (i mod 256) show) (bits_diagram n sch v i show).
Proof.
  intros H Hb P. destruct (bit_value_facts _ _ _ _ _ raw v H Hb P) as (En & L1 & L8 & Lr & Br & L & B).
  unfold display_bitflag, bits_diagram. rewrite En. now apply display_bits_shows.
Qed.
Ltac bit_value := cbn [bit_values In]; repeat (try (left; reflexivity); right).
Lemma tvr_shows p d x i show : bytes_ok d -> tvr_try_from d = Ok x -> shows_lines (display_bitflag p tvr_schema x (i mod 256) show) (bits_diagram 5 tvr_schema x i show).
Proof. apply (bits_shows p tvr_try_from tvr_schema 5 tvr_bits tvr_used). bit_value. Qed.
Lemma tsi_shows p d x i show : bytes_ok d -> tsi_try_from d = Ok x -> shows_lines (display_bitflag p tsi_schema x (i mod 256) show) (bits_diagram 2 tsi_schema x i show).
Proof. apply (bits_shows p tsi_try_from tsi_schema 2 tsi_bits tsi_used). bit_value. Qed.
Lemma termcap_shows p d x i show : bytes_ok d -> termcap_try_from d = Ok x -> shows_lines (display_bitflag p termcap_schema x (i mod 256) show) (bits_diagram 3 termcap_schema x i show).
Proof. apply (bits_shows p termcap_try_from termcap_schema 3 termcap_bits termcap_used). bit_value. Qed.
Lemma addtermcap_shows p d x i show : bytes_ok d -> addtermcap_try_from d = Ok x -> shows_lines (display_bitflag p addtermcap_schema x (i mod 256) show) (bits_diagram 5 addtermcap_schema x i show).
Proof. apply (bits_shows p addtermcap_try_from addtermcap_schema 5 addtermcap_bits addtermcap_used). bit_value. Qed.
Lemma cvr_shows p d x i show : bytes_ok d -> cvr_try_from d = Ok x -> shows_lines (display_bitflag p cvr_schema x (i mod 256) show) (bits_diagram 5 cvr_schema x i show).
Proof. apply (bits_shows p cvr_try_from cvr_schema 5 cvr_bits cvr_used). bit_value. Qed.
Lemma cci_shows p d x i show : bytes_ok d -> cci_try_from d = Ok x -> shows_lines (display_bitflag p cci_schema x (i mod 256) show) (bits_diagram 1 cci_schema x i show).
Proof. apply (bits_shows p cci_try_from cci_schema 1 cci_bits cci_used). bit_value. Qed.

Lemma rule_repr_bytes b0 b1 v : is_byte b0 -> is_byte b1 -> cv_rule_try_from [b0; b1] = Ok v ->
  exists x y, bf_repr cv_rule_schema v = [x; y] /\ is_byte x /\ is_byte y.
Proof.
  intros H0 H1 P. destruct (C46_rule_representation b0 b1 v H0 H1 P) as (m & c & E & M1 & M2 & C1 & C2). exists ((if N.testbit b0 6 then 64 else 0) + m), c.
  split; [assumption|]. assert (Dm : m < 64).
  { assert (D : known_method (b0 mod 64) \/ ~ known_method (b0 mod 64)).
    { unfold known_method. rewrite find_known by reflexivity. destruct (find_code _ _); [left; eauto|right; intros [y Y]; discriminate]. }
    destruct D as [K|K]; [rewrite (M1 K); lia|rewrite (M2 K); lia]. }
  assert (Dc : is_byte c).
  { assert (D : known_condition b1 \/ ~ known_condition b1).
    { unfold known_condition. rewrite find_known by reflexivity. destruct (find_code _ _); [left; eauto|right; intros [y Y]; discriminate]. }
    destruct D as [K|K]; [now rewrite (C1 K)|rewrite (C2 K); reflexivity]. }
  split; [unfold is_byte; destruct (N.testbit b0 6); lia|assumption].
Qed.
Lemma cvm_results_shows p d x i show : bytes_ok d -> cvm_results_try_from d = Ok x ->
  shows_lines (display_cvm_results p x (i mod 256) show) (diagram 3 (cvm_results_repr x) (cvm_result_ranges x) i show).
Proof.
  intros Hb P. unfold display_cvm_results. rewrite (cvm_results_ranges_ok p d x Hb P). cbn [dlet]. fold (cvm_result_ranges x).
  destruct (C47_representation d x Hb P) as (b0 & b1 & b2 & -> & R). destruct (C47_ranges p b0 b1 b2 x Hb P) as (l & E & L & El).
  rewrite (cvm_results_ranges_ok p _ x Hb P) in E. assert (El' : cvm_result_ranges x = l) by (injection E as E; exact E). clear E.
  pose proof (proj1 (cvm_results_iff _ x Hb) P) as (c0 & c1 & c2 & Ec & Rr & _). injection Ec as <- <- <-.
  apply bytes_ok_cons in Hb. destruct Hb as [B0 Hb]. apply bytes_ok_cons in Hb. destruct Hb as [B1 Hb]. apply bytes_ok_cons in Hb. destruct Hb as [B2 _].
  destruct (rule_repr_bytes b0 b1 (cr_rule x) B0 B1 Rr) as (y & z & Er & By & Bz).
  apply display_bits_shows.
  - lia.
  - lia.
  - rewrite R, Er. reflexivity.
  - rewrite R, Er. now repeat constructor.
  - rewrite El'. exact L.
  - rewrite El', El. apply Forall_app. split.
    + apply Forall_map. assert (S : Forall in_one_byte (all_shown 2 cv_rule_bits [b0; b1])) by (apply all_shown_in_byte; vm_compute; reflexivity).
      eapply Forall_impl; [|exact S]. unfold in_one_byte. cbn. intros a Ha. lia.
    + constructor; [|constructor]. unfold in_one_byte. cbn. lia.
Qed.

(** ** Hex dumps *)

Lemma shows_map {A} (l : list A) f g : (forall x, In x l -> shows_lines (f x) [g x]) -> shows_lines (dfor l f) (map g l).
Proof. intros H. rewrite map_flat_map. now apply shows_dfor. Qed.
Lemma chunks_fuel_bytes fuel n : forall l c, bytes_ok l -> In c (chunks_fuel fuel n l) -> bytes_ok c.
Proof.
  induction fuel as [|f IH]; intros l c H Hin; [destruct l; destruct Hin|]. cbn [chunks_fuel] in Hin. destruct l as [|x l]; [destruct Hin|].
  rewrite <- (firstn_skipn n (x :: l)) in H. apply bytes_ok_app in H. destruct Hin as [<-|Hin]; [apply H|]. apply (IH (skipn n (x :: l))); [apply H|assumption].
Qed.
Lemma chunks_bytes n l c : bytes_ok l -> In c (chunks n l) -> bytes_ok c.
Proof. apply chunks_fuel_bytes. Qed.
Lemma chunks_fuel_length {A} fuel n : (0 < n)%nat -> forall (l : list A) c, In c (chunks_fuel fuel n l) -> (1 <= List.length c <= n)%nat.
Proof.
  intros Hn. induction fuel as [|f IH]; intros l c Hin; [destruct l; destruct Hin|]. cbn [chunks_fuel] in Hin. destruct l as [|x l]; [destruct Hin|].
  destruct Hin as [<-|Hin]; [rewrite firstn_length; cbn [List.length]; lia|now apply (IH (skipn n (x :: l)))].
Qed.
Lemma chunks_length {A} n (l : list A) c : (0 < n)%nat -> In c (chunks n l) -> (1 <= List.length c <= n)%nat.
Proof. intros Hn. now apply chunks_fuel_length. Qed.

Lemma print_bytes_line i l : bytes_ok l ->
  shows_lines (print_indentation (i mod 256) >>> dtxt (hex_line l) >>> dln []) [row i [(None, spaced (map byte_text l))]].
Proof.
  intros Hb. apply shows_line. unfold render_line. cbn [l_tabs l_spans l_end flat_map fst snd]. apply prints_then; [apply prints_tabs|].
  rewrite hex_line_spaced by assumption. eapply prints_eq; [apply writes_prints; apply writes_then; [apply writes_txt|apply writes_ln]|].
  rewrite ink_app, app_nil_r. reflexivity.
Qed.
Lemma hex_dump_shows d i : bytes_ok d -> shows_lines (print_bytes d 16 (i mod 256)) (hex_dump i d).
Proof.
  intros Hb. unfold print_bytes, hex_dump. cbn [N.eqb]. change (N.to_nat 16) with 16%nat. apply shows_map.
  intros l Hl. apply print_bytes_line. now apply (chunks_bytes 16 d).
Qed.
Lemma spaced_length l : l <> [] -> (forall x : list N, In x l -> List.length x = 2%nat) -> (List.length (spaced l) + 1 = 3 * List.length l)%nat.
Proof.
  induction l as [|x l IH]; intros Hne H; [congruence|]. destruct l as [|y l]; [cbn; rewrite (H x); [reflexivity|now left]|].
  change (spaced (x :: y :: l)) with (x ++ 32 :: spaced (y :: l)). rewrite app_length. rewrite (H x) by now left. cbn [List.length]. assert (Q : (List.length (spaced (y :: l)) + 1 = 3 * List.length (y :: l))%nat).
  { apply IH; [discriminate|]. intros z Hz. apply H. now right. } cbn [List.length] in Q. lia.
Qed.
Lemma spaced_bytes_length l : l <> [] -> (List.length (spaced (map byte_text l)) + 1 = 3 * List.length l)%nat.
Proof.
  intros H. rewrite spaced_length.
  - now rewrite map_length.
  - destruct l; [congruence|discriminate].
  - intros x Hx. apply in_map_iff in Hx. destruct Hx as (b & <- & _). reflexivity.
Qed.
Lemma concat_repeat3 n : List.concat (repeat (lit "   ") n) = repeat 32 (3 * n).
Proof. induction n as [|n IH]; [reflexivity|]. cbn [repeat List.concat]. rewrite IH. replace (3 * S n)%nat with (3 + 3 * n)%nat by lia. reflexivity. Qed.
Lemma pretty_line i w l : bytes_ok l -> (1 <= List.length l <= N.to_nat w)%nat ->
  shows_lines (print_indentation (i mod 256) >>> dtxt (hex_line l) >>> dtxt (List.concat (repeat (lit "   ") (N.to_nat w - List.length l)))
               >>> dtxt (lit "  ") >>> dtxt (map printable_char l) >>> dln [])
    [row i [(None, pad_right (3 * w + 1) (spaced (map byte_text l)) ++ map readable l)]].
Proof.
  intros Hb Hl. apply shows_line. unfold render_line. cbn [l_tabs l_spans l_end flat_map fst snd]. apply prints_then; [apply prints_tabs|].
  rewrite hex_line_spaced by assumption. eapply prints_eq.
  { apply writes_prints. apply writes_then; [apply writes_txt|]. apply writes_then; [apply writes_txt|]. apply writes_then; [apply writes_txt|].
    apply writes_then; [apply writes_txt|apply writes_ln]. }
  assert (E : spaced (map byte_text l) ++ List.concat (repeat (lit "   ") (N.to_nat w - List.length l)) ++ lit "  " = pad_right (3 * w + 1) (spaced (map byte_text l))).
  { unfold pad_right. f_equal. rewrite concat_repeat3. change (lit "  ") with (repeat 32 2). rewrite <- repeat_app. f_equal.
    assert (Q : (List.length (spaced (map byte_text l)) + 1 = 3 * List.length l)%nat) by (apply spaced_bytes_length; destruct l; [cbn in Hl; lia|discriminate]). lia. }
  assert (M : map printable_char l = map readable l) by reflexivity.
  rewrite <- E, M, !ink_app, app_nil_r, <- !app_assoc. reflexivity.
Qed.
Lemma wide_dump_shows d i : bytes_ok d -> shows_lines (print_bytes_pretty d 16 (i mod 256)) (wide_dump i d).
Proof.
  intros Hb. unfold print_bytes_pretty, wide_dump. cbn [N.eqb]. apply shows_map.
  intros l Hl. apply (pretty_line i 16 l); [now apply (chunks_bytes 16 d)|]. apply (chunks_length 16 d); [lia|exact Hl].
Qed.

(** ** Other values *)

Lemma shows_cons d1 d2 x y : shows_lines d1 [x] -> shows_lines d2 y -> shows_lines (d1 >>> d2) (x :: y).
Proof. intros H1 H2. exact (shows_then d1 d2 [x] y H1 H2). Qed.
Lemma titled_cons i c s t d ls : shows_lines d ls -> shows_lines (label (i mod 256) c s >>> dln t >>> d) (row i [(Some c, s); (None, t)] :: ls).
Proof. intros H. rewrite <- then_assoc. apply shows_cons; [apply titled_shows|exact H]. Qed.
Lemma nil_then d : dnil >>> d = d.
Proof. now destruct d. Qed.
Lemma shows_eq d x y : shows_lines d x -> x = y -> shows_lines d y.
Proof. now intros H <-. Qed.

Lemma rule_shows p i k rule : fits p (i + 1) ->
  shows_lines (display_cv_rule_entry p (i mod 256) k rule) (rule_lines i (k + 1) rule).
Proof.
  intros F. unfold display_cv_rule_entry, rule_lines. rewrite (u8_add_one p i F). cbn [dlet].
  apply shows_cons; [apply label_ln_shows|].
  apply titled_cons. apply titled_cons.
  eapply shows_eq; [apply titled_shows|]. unfold titled. do 4 f_equal.
  destruct (get_field cv_rule_schema rule "continue_if_unsuccessful") as [[[|]| | | | | | |]|]; reflexivity.
Qed.
Lemma rules_shows p i : fits p (i + 1) -> forall rules k, shows_lines (display_cv_rules p (i mod 256) k rules) (numbered_rules i (k + 1) rules).
Proof.
  intros F. induction rules as [|r rules IH]; intros k; [apply shows_nil|]. cbn [display_cv_rules numbered_rules].
  apply shows_then; [now apply rule_shows|]. apply IH.
Qed.
Lemma rules_shows_value p i rules : (rules = [] \/ fits p (i + 1)) -> shows_lines (display_cv_rules p (i mod 256) 0 rules) (numbered_rules i 1 rules).
Proof. intros [->|F]; [apply shows_nil|]. now apply (rules_shows p i F rules 0). Qed.
Lemma references_compares r : rule_references_x_or_y r = compares_amount r.
Proof.
  unfold rule_references_x_or_y, compares_amount. destruct (get_field cv_rule_schema r "condition") as [[]|]; reflexivity.
Qed.
Lemma existsb_ext' {A} (f g : A -> bool) l : (forall x, f x = g x) -> existsb f l = existsb g l.
Proof. intros E. induction l as [|a t IH]; [reflexivity|]. cbn. now rewrite E, IH. Qed.
Lemma cvm_list_shows p d x i : cvm_list_try_from d = Ok x -> bytes_ok d -> fits p (i + value_levels (ValCvmList x)) ->
  shows_lines (display_cvm_list p x (i mod 256)) (cvm_list_lines x i).
Proof.
  intros P Hb F. apply C48_cvm_list in P. destruct P as (xs & ys & rest & -> & Lx & Ly & Ex & Ey & R).
  apply bytes_ok_app in Hb. destruct Hb as [Bx Hb]. apply bytes_ok_app in Hb. destruct Hb as [By _].
  assert (V : forall l, bytes_ok l -> List.length l = 4%nat -> be_value l < 2 ^ 32).
  { intros l Bl Ll. destruct l as [|a [|b [|c [|e [|]]]]]; try discriminate Ll. apply bytes_ok_cons in Bl. destruct Bl as [Ba Bl].
    apply bytes_ok_cons in Bl. destruct Bl as [Bb Bl]. apply bytes_ok_cons in Bl. destruct Bl as [Bc Bl]. apply bytes_ok_cons in Bl. destruct Bl as [Bd _].
    unfold is_byte in *. cbn [be_value List.length]. change (256 ^ N.of_nat 3) with 16777216. change (256 ^ N.of_nat 2) with 65536.
    change (256 ^ N.of_nat 1) with 256. change (256 ^ N.of_nat 0) with 1. change (2 ^ 32) with 4294967296. lia. }
  pose proof (V xs Bx Lx) as Vx. pose proof (V ys By Ly) as Vy. rewrite <- Ex in Vx. rewrite <- Ey in Vy. clear V.
  assert (Rs : shows_lines (display_cv_rules p (i mod 256) 0 (cl_rules x)) (numbered_rules i 1 (cl_rules x))).
  { apply rules_shows_value. cbn [value_levels] in F. destruct (cl_rules x); [now left|right]. exact F. }
  unfold display_cvm_list, cvm_list_lines. rewrite (existsb_ext' _ _ (cl_rules x) references_compares).
  destruct (negb (cl_x x =? 0) || negb (cl_y x =? 0) || existsb compares_amount (cl_rules x)).
  - cbn zeta. rewrite !dec_length by assumption.
    replace (N.max (N.max (num_dec_digits (cl_x x)) (num_dec_digits (cl_y x))) 3) with (N.max 3 (N.max (num_dec_digits (cl_x x)) (num_dec_digits (cl_y x)))) by lia.
    rewrite !then_assoc. apply titled_cons. apply titled_cons. apply shows_cons; [apply label_ln_shows|]. exact Rs.
  - rewrite nil_then. apply shows_cons; [apply label_ln_shows|exact Rs].
Qed.
Lemma iad_shows p d x i show : bytes_ok d -> iad_try_from d = Ok x -> fits p (i + 1) ->
  shows_lines (display_iad p x (i mod 256) show) (iad_lines x i show).
Proof.
  intros Hb P F. apply C49_iad_accepts in P; [|assumption]. destruct P as (cci & cvr & (E & L1 & L2 & L3) & Ec & Pc & Pv).
  rewrite E in Hb. apply bytes_ok_cons in Hb. destruct Hb as [_ Hb]. apply bytes_ok_cons in Hb. destruct Hb as [B1 Hb]. apply bytes_ok_cons in Hb. destruct Hb as [B2 Hb].
  apply bytes_ok_app in Hb. destruct Hb as [B3 Hb]. apply bytes_ok_app in Hb. destruct Hb as [B4 Hb]. apply bytes_ok_cons in Hb. destruct Hb as [_ B5].
  assert (Bc : bytes_ok [cci]) by (now repeat constructor).
  unfold display_iad, iad_lines. rewrite (u8_add_one p i F). cbn [dlet].
  apply shows_cons; [apply label_ln_shows|]. apply shows_then; [now apply (cci_shows p [cci])|].
  rewrite hex2_text by assumption. apply titled_cons. apply shows_cons; [apply label_ln_shows|]. apply shows_then; [now apply (cvr_shows p cvr)|].
  apply shows_cons; [apply label_ln_shows|]. apply shows_then; [now apply hex_dump_shows|].
  apply shows_cons; [apply label_ln_shows|]. now apply hex_dump_shows.
Qed.
Lemma iac_shows p d x i s : bytes_ok d -> tvr_try_from d = Ok x ->
  shows_lines (label_ln (i mod 256) header_colour_spec (lit s) >>> display_bitflag p tvr_schema x (i mod 256) false) (iac_lines s x i).
Proof. intros Hb P. unfold iac_lines. apply shows_cons; [apply label_ln_shows|]. now apply (tvr_shows p d). Qed.
Lemma service_entry_shows i arms title text :
  shows_lines (service_code_entry (i mod 256) arms title text) [row i [(None, arms ++ [32]); (bold, title); (None, text)]].
Proof.
  apply shows_line. unfold service_code_entry, render_line. cbn [l_tabs l_spans l_end flat_map fst snd]. apply prints_then; [apply prints_tabs|].
  eapply prints_eq.
  { apply prints_then; [apply writes_prints, writes_txt|]. rewrite <- (then_assoc (dtxt title)), <- then_assoc.
    apply prints_then; [rewrite ?then_assoc; apply prints_styled, writes_txt|apply writes_prints, writes_ln]. }
  rewrite !ink_app, app_nil_r, <- !app_assoc. reflexivity.
Qed.
Lemma service_code_shows x i : shows_lines (display_service_code x (i mod 256)) (service_code_lines x i).
Proof.
  unfold display_service_code, service_code_lines. cbn zeta. apply shows_cons; [apply label_ln_shows|].
  repeat (apply shows_cons; [apply service_entry_shows|]). apply service_entry_shows.
Qed.
Lemma display_line_shows s i : shows_lines (display_line s (i mod 256)) [row i [(None, s)]].
Proof.
  apply shows_line. unfold display_line, render_line. cbn [l_tabs l_spans l_end flat_map fst snd]. apply prints_then; [apply prints_tabs|].
  eapply prints_eq; [apply writes_prints, writes_ln|]. now rewrite ink_app, app_nil_r.
Qed.
Lemma tag_info_bytes d x : tag_info_try_from d = Ok x -> ti_tag x = d.
Proof.
  unfold tag_info_try_from. destruct (_ <? _); [discriminate|]. destruct (index d 0); try discriminate. cbn [bind].
  destruct (parse_tag_metadata _); try discriminate. cbn [bind]. intros H. now injection H as <-.
Qed.
Lemma small_writes l : bytes_ok l -> writes (print_bytes_small l) (flat_map byte_text l).
Proof. intros H. unfold print_bytes_small. rewrite flat_hex2 by assumption. apply writes_txt. Qed.
Lemma tag_info_shows x i : bytes_ok (ti_tag x) -> shows_lines (display_tag_info x (i mod 256)) (tag_info_lines x i).
Proof.
  intros Hb. unfold display_tag_info, tag_info_lines. apply titled_cons.
  assert (T : shows_lines (label (i mod 256) header_colour_spec (lit "Tag:") >>> dtxt (lit "              0x") >>> (dset bold_colour_spec >>> print_bytes_small (ti_tag x) >>> dreset) >>> dln [])
                [row i [(heading, lit "Tag:"); (None, lit "              0x"); (bold, flat_map byte_text (ti_tag x))]]).
  { apply shows_line. unfold render_line. cbn [l_tabs l_spans l_end flat_map fst snd]. eapply prints_eq.
    { apply prints_then; [apply label_prints|]. apply prints_then; [apply writes_prints, writes_txt|].
      apply prints_then; [apply prints_styled; apply small_writes; exact Hb|apply writes_prints, writes_ln]. }
    rewrite app_nil_r, <- !app_assoc. reflexivity. }
  rewrite !then_assoc in T.
  assert (R : shows_lines (label (i mod 256) header_colour_spec (lit "Class:") >>> dln (lit "            " ++ tag_class_text (ti_class x))
             >>> label (i mod 256) header_colour_spec (lit "Data Object Type:") >>> dln (32 :: data_object_type_text (ti_type x)))
            [titled i heading (lit "Class:") (lit "            " ++ class_word (ti_class x));
             titled i heading (lit "Data Object Type:") (lit " " ++ type_word (ti_type x))]).
  { replace (tag_class_text (ti_class x)) with (class_word (ti_class x)) by (destruct (ti_class x); reflexivity).
    replace (data_object_type_text (ti_type x)) with (type_word (ti_type x)) by (destruct (ti_type x); reflexivity).
    apply titled_cons. apply titled_shows. }
  pose proof (shows_cons _ _ _ _ T R) as S. rewrite !then_assoc in S. exact S.
Qed.

(** Every value. *)
Lemma value_shows p v i show : parsed_value v -> fits p (i + value_levels v) ->
  shows_lines (display_value p v (i mod 256) show) (value_lines v i show).
Proof.
  intros H F. destruct H; cbn [display_value value_lines value_levels] in *.
  - now apply (tvr_shows p d).
  - now apply (tsi_shows p d).
  - now apply (termcap_shows p d).
  - now apply (addtermcap_shows p d).
  - now apply (cvr_shows p d).
  - now apply (cvm_results_shows p d).
  - now apply (cvm_list_shows p d).
  - now apply (iad_shows p d).
  - now apply (iac_shows p d).
  - now apply (iac_shows p d).
  - now apply (iac_shows p d).
  - apply service_code_shows.
  - apply display_line_shows.
  - apply display_line_shows.
  - apply display_line_shows.
  - apply display_line_shows.
  - apply tag_info_shows. erewrite tag_info_bytes; eassumption.
Qed.

(** ** Blocks *)

Lemma tag_row_shows i r name : bytes_ok (rt_tag r) ->
  shows_lines (print_tag_name (i mod 256) (rt_tag r) (emv_data_len (rt_data r)) name) [tag_row i r (shown_name name)].
Proof.
  intros Hb. unfold print_tag_name. fold (shown_name name). apply shows_line. unfold tag_row, render_line. cbn [l_tabs l_spans l_end flat_map fst snd].
  rewrite <- (then_assoc (print_bytes_small _)), <- (then_assoc (dset _)).
  assert (L : forall s, prints (label (i mod 256) header_colour_spec (lit "Tag:") >>> dtxt (lit " 0x") >>> (dset bold_colour_spec >>> print_bytes_small (rt_tag r) >>> dreset) >>> dln s)
      (ink None (repeat 9 (N.to_nat (i mod 256))) ++ (ink heading (lit "Tag:") ++ ink None (lit " 0x") ++ ink bold (flat_map byte_text (rt_tag r)) ++ ink None s ++ []) ++ [(None, 10)])).
  { intros s. eapply prints_eq.
    { apply prints_then; [apply label_prints|]. apply prints_then; [apply writes_prints, writes_txt|].
      apply prints_then; [apply prints_styled; apply small_writes; exact Hb|apply writes_prints, writes_ln]. }
    rewrite ink_app, app_nil_r, <- !app_assoc. reflexivity. }
  unfold length_text. destruct (rt_data r) as [d|]; cbn [emv_data_len].
  - assert (E : lit " - " ++ (dec (len d) ++ (if len d =? 1 then lit " byte" else lit " bytes")) ++ lit " - " ++ shown_name name
              = lit " - " ++ dec (len d) ++ lit " byte" ++ (if len d =? 1 then [] else lit "s") ++ lit " - " ++ shown_name name).
    { rewrite <- !app_assoc. destruct (len d =? 1); reflexivity. }
    rewrite E. apply L.
  - apply L.
Qed.
Definition data_levels (r : raw_tag) : N := match rt_data r with Normal (_ :: _) => 1 | _ => 0 end.
Lemma raw_shows p r i : match rt_data r with Normal d => bytes_ok d | Masked => True end -> fits p (i + data_levels r) ->
  shows_lines (display_raw_tag p r (i mod 256)) (data_lines i r).
Proof.
  intros Hd F. unfold display_raw_tag, data_lines, data_levels in *. destruct (rt_data r) as [[|b d]|]; [apply shows_nil| |apply label_ln_shows].
  rewrite (u8_add_one p i F). cbn [dlet]. apply shows_cons; [apply label_ln_shows|]. now apply wide_dump_shows.
Qed.
Lemma ptag_shows p t i show : good_ptag t -> fits p (i + ptag_levels t) -> shows_lines (display_ptag p t (i mod 256) show) (ptag_lines t i show).
Proof.
  intros G F. destruct t as [r|s r|s v r]; cbn [good_ptag display_ptag ptag_lines] in *.
  - apply shows_cons; [apply (tag_row_shows i r None); apply G|]. apply raw_shows; [apply G|exact F].
  - apply shows_cons; [apply (tag_row_shows i r (Some s)); apply G|]. apply raw_shows; [apply G|exact F].
  - destruct G as (_ & Gv & Gt & Gd). cbn [ptag_levels] in F. fold (data_levels r) in F.
    apply shows_cons; [now apply (tag_row_shows i r (Some s))|]. apply shows_then; [apply raw_shows; [assumption|apply (fits_le p _ _ F); lia]|].
    apply shows_cons; [apply label_ln_shows|]. rewrite u8_add_one by (apply (fits_le p _ _ F); lia). cbn [dlet].
    apply value_shows; [assumption|]. apply (fits_le p _ _ F). lia.
Qed.

Fixpoint pnode_tree_ind (P : pnode -> Prop) (H : forall t c, Forall P c -> P (PNode t c)) (n : pnode) : P n :=
  match n with
  | PNode t c => H t c ((fix go l : Forall P l := match l with [] => Forall_nil P | x :: l => Forall_cons x (pnode_tree_ind P H x) (go l) end) c)
  end.
Lemma max_in l x : In x l -> x <= fold_right N.max 0 l.
Proof. induction l as [|y l IH]; intros []; cbn [fold_right]; [subst; lia|]. specialize (IH H). lia. Qed.
Lemma dln_nil_shows : shows_lines (dln []) [blank].
Proof. split; [reflexivity|]. split; reflexivity. Qed.
Lemma nodes_shows f g : forall l first, Forall (fun n => shows_lines (f n) (g n)) l ->
  shows_lines (display_nodes f first l) (match l with [] => [] | _ => (if first then [] else [blank]) ++ separated (map g l) end).
Proof.
  induction l as [|n l IH]; intros first H; [apply shows_nil|]. inversion H as [|? ? Hn Hl]; subst. cbn [display_nodes].
  apply shows_then; [destruct first; [apply shows_nil|apply dln_nil_shows]|].
  specialize (IH false Hl). destruct l as [|m l]; [|apply (shows_then _ _ _ _ Hn IH)].
  cbn [map separated]. eapply shows_eq; [apply (shows_then _ _ _ [] Hn); apply shows_nil|]. apply app_nil_r.
Qed.
Lemma node_shows p show n : forall i, good_node n -> fits p (i + node_levels n) ->
  shows_lines (display_pnode p show n (i mod 256)) (node_lines show n i).
Proof.
  induction n as [t c IH] using pnode_tree_ind. intros i G F. inversion G as [? ? Gt Gc]; subst. cbn [display_pnode node_lines node_levels] in *.
  apply shows_then; [apply ptag_shows; [assumption|apply (fits_le p _ _ F); lia]|].
  destruct c as [|x c']; [apply shows_nil|]. remember (x :: c') as c eqn:Ec. apply shows_cons; [apply label_ln_shows|].
  rewrite u8_add_one by (apply (fits_le p _ _ F); lia). cbn [dlet].
  eapply shows_eq; [apply (nodes_shows _ (fun n => node_lines show n (i + 1)))|destruct c; [discriminate|reflexivity]].
  rewrite Forall_forall in *. intros n Hn. apply IH; [assumption|now apply Gc|]. apply (fits_le p _ _ F).
  pose proof (max_in (map node_levels c) (node_levels n) (in_map _ _ _ Hn)). lia.
Qed.
Lemma block_shows p l i show : Forall good_node l -> fits p (i + block_levels l) ->
  shows_lines (display_block p l (i mod 256) show) (block_lines l i show).
Proof.
  intros G F. unfold display_block, block_lines. eapply shows_eq; [apply (nodes_shows _ (fun n => node_lines show n i))|destruct l; reflexivity].
  rewrite Forall_forall in *. intros n Hn. apply node_shows; [now apply G|]. apply (fits_le p _ _ F).
  pose proof (max_in (map node_levels l) (node_levels n) (in_map _ _ _ Hn)). unfold block_levels. lia.
Qed.

(** ** When the indentation overflows *)

Lemma u8_add_255 p : overflow_checks p = true -> u8_add p 255 1 = Panic.
Proof. intros H. unfold u8_add, checked. now rewrite H. Qed.
Lemma dead_r a b : dead b = true -> dead (a >>> b) = true.
Proof. intros H. rewrite dead_then, H. apply orb_true_r. Qed.
Lemma dead_l a b : dead a = true -> dead (a >>> b) = true.
Proof. intros H. now rewrite dead_then, H. Qed.
Lemma value_overflows p v show : overflow_checks p = true -> value_levels v = 1 -> dead (display_value p v 255 show) = true.
Proof.
  intros Hp L. destruct v; cbn [value_levels display_value] in *; try discriminate L.
  - destruct (cl_rules v) as [|r rules] eqn:E; [discriminate L|]. unfold display_cvm_list. apply dead_r, dead_r. rewrite E. cbn [display_cv_rules].
    apply dead_l. unfold display_cv_rule_entry. rewrite u8_add_255 by assumption. apply dead_r. apply dead_l. reflexivity.
  - unfold display_iad. rewrite u8_add_255 by assumption. apply dead_r, dead_l. reflexivity.
Qed.
Lemma value_levels_le v : value_levels v <= 1.
Proof. destruct v; cbn; try lia. destruct (cl_rules v); lia. Qed.
Lemma raw_overflows p r : overflow_checks p = true -> data_levels r = 1 -> dead (display_raw_tag p r 255) = true.
Proof.
  intros Hp L. unfold display_raw_tag, data_levels in *. destruct (rt_data r) as [[|b d]|]; try discriminate L.
  rewrite u8_add_255 by assumption. apply dead_r. reflexivity.
Qed.
Lemma data_levels_le r : data_levels r <= 1.
Proof. unfold data_levels. destruct (rt_data r) as [[|]|]; lia. Qed.
Lemma u8_add_small p i : i < 255 -> u8_add p i 1 = Ok (i + 1).
Proof. intros H. unfold u8_add, checked. destruct (N.ltb_spec (i + 1) 256); [reflexivity|lia]. Qed.
Lemma ptag_overflows p t i show : overflow_checks p = true -> i < 256 -> 256 <= i + ptag_levels t -> dead (display_ptag p t i show) = true.
Proof.
  intros Hp Hi L. destruct t as [r|s r|s v r]; cbn [display_ptag ptag_levels] in *; fold (data_levels r) in L; pose proof (data_levels_le r).
  - apply dead_r. replace i with 255 by lia. apply raw_overflows; [assumption|lia].
  - apply dead_r. replace i with 255 by lia. apply raw_overflows; [assumption|lia].
  - pose proof (value_levels_le v). apply dead_r, dead_r, dead_r. destruct (N.eq_dec i 255) as [->|N5].
    + rewrite u8_add_255 by assumption. reflexivity.
    + rewrite u8_add_small by lia. cbn [dlet]. replace (i + 1) with 255 by lia. apply value_overflows; [assumption|lia].
Qed.
Lemma nodes_dead f : forall l first n, In n l -> dead (f n) = true -> dead (display_nodes f first l) = true.
Proof.
  induction l as [|x l IH]; intros first n Hin D; [destruct Hin|]. cbn [display_nodes]. destruct Hin as [->|Hin].
  - apply dead_r, dead_l, D.
  - apply dead_r, dead_r. now apply (IH false n).
Qed.
Lemma max_reached l m : m <= fold_right N.max 0 l -> 0 < m -> exists x, In x l /\ m <= x.
Proof.
  induction l as [|y l IH]; cbn [fold_right]; intros H H0; [lia|]. destruct (N.le_gt_cases m y); [exists y; split; [now left|assumption]|].
  destruct IH as (x & Hx & L); [lia|assumption|]. exists x. split; [now right|assumption].
Qed.
Lemma node_overflows p show n : forall i, overflow_checks p = true -> i < 256 -> 256 <= i + node_levels n -> dead (display_pnode p show n i) = true.
Proof.
  induction n as [t c IH] using pnode_tree_ind. intros i Hp Hi L. cbn [display_pnode node_levels] in *.
  destruct (N.le_gt_cases 256 (i + ptag_levels t)) as [Lt|Lt]; [apply dead_l; now apply ptag_overflows|]. apply dead_r.
  destruct c as [|x c']; [lia|]. remember (x :: c') as c eqn:Ec. apply dead_r. destruct (N.eq_dec i 255) as [->|N5]; [rewrite u8_add_255 by assumption; reflexivity|].
  rewrite u8_add_small by lia. cbn [dlet]. rewrite Forall_forall in IH.
  destruct (max_reached (map node_levels c) (255 - i)) as (m & Hm & Lm); [lia|lia|]. apply in_map_iff in Hm. destruct Hm as (n & <- & Hn).
  apply (nodes_dead _ c true n Hn). apply IH; [assumption|assumption|lia|lia].
Qed.
Lemma block_overflows p l i show : overflow_checks p = true -> i < 256 -> 256 <= i + block_levels l -> dead (display_block p l i show) = true.
Proof.
  intros Hp Hi L. destruct (max_reached (map node_levels l) (256 - i)) as (m & Hm & Lm); [unfold block_levels in L; lia|lia|].
  apply in_map_iff in Hm. destruct Hm as (n & <- & Hn). apply (nodes_dead _ l true n Hn). apply node_overflows; [assumption|assumption|lia].
Qed.
