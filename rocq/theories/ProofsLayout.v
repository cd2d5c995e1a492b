(** Proofs about the layout of the output: indentation, visible text, closed colours. *)

From Coq Require Import ZArith NArith List String Ascii Bool Lia ZifyN ZifyBool ZifyNat.
From Verif Require Import Base ModelUtil ModelEnums ModelBitflag ModelSchemas ModelTags ModelTlv ModelValues ModelProcess ModelDisplay
  SpecUtil SpecCodes SpecValues SpecTags SpecProcess SpecDisplay ProofsUtil ProofsBer ProofsValues PropertiesValues
  PropertiesBer ProofsProcess PropertiesProcess ProofsDisplay ProofsDiagram ProofsScreens.
Import ListNotations.
Local Open Scope N_scope.

(** ** Visible text *)

Definition visibleb (s : str) : bool :=
  forallb (fun c => (32 <=? c) && (c <=? 126) || (c =? 0x2500) || (c =? 0x2502) || (c =? 0x2514) || (c =? 0x2518) || (c =? 0x251C)) s.
Lemma visibleb_ok s : visibleb s = true <-> visible s.
Proof. unfold visibleb, visible. rewrite forallb_forall, Forall_forall. split; intros H x Hx; specialize (H x Hx); lia. Qed.
Lemma visible_app a b : visible a -> visible b -> visible (a ++ b).
Proof. intros. apply Forall_app. auto. Qed.
Ltac vis := match goal with |- visible ?s => apply visibleb_ok; vm_compute; reflexivity end.

Lemma table_visible {A} (t : list (N * A * string)) c a s :
  forallb (fun x => visibleb (lit (snd x))) t = true -> find_code t c = Some (a, s) -> visible (lit s).
Proof.
  intros H. induction t as [|[[k b] x] t IH]; [discriminate|]. cbn [forallb snd] in H. apply andb_true_iff in H. destruct H as [H1 H2].
  cbn [find_code]. destruct (k =? c); [|now apply IH]. intros E. injection E as <- <-. now apply visibleb_ok.
Qed.
Lemma decode_visible k c v s : decode k c = Some (v, s) -> visible s.
Proof.
  destruct k; cbn [decode]; unfold coded, optional.
  - intros H. injection H as <- <-. constructor.
  - intros H. injection H as <- <-. apply dec_visible.
  - destruct (find_code gen_ac1_codes c) as [[a x]|] eqn:E; [|discriminate]. intros H. injection H as <- <-. eapply table_visible; [|exact E]. vm_compute. reflexivity.
  - destruct (find_code gen_ac2_codes c) as [[a x]|] eqn:E; [|discriminate]. intros H. injection H as <- <-. eapply table_visible; [|exact E]. vm_compute. reflexivity.
  - destruct (find_code format_code_codes c) as [[a x]|] eqn:E; [|discriminate]. intros H. injection H as <- <-. eapply table_visible; [|exact E]. vm_compute. reflexivity.
  - destruct (find_code cryptogram_version_codes c) as [[a x]|] eqn:E; [|discriminate]. intros H. injection H as <- <-. eapply table_visible; [|exact E]. vm_compute. reflexivity.
  - destruct (find_code cv_method_codes c) as [[a x]|] eqn:E; intros H; injection H as <- <-; [|vis]. eapply table_visible; [|exact E]. vm_compute. reflexivity.
  - destruct (find_code cvm_condition_codes c) as [[a x]|] eqn:E; intros H; injection H as <- <-; [|vis]. eapply table_visible; [|exact E]. vm_compute. reflexivity.
Qed.
Lemma shown_visible n e raw r : visible (lit (e_label e)) -> In r (field_shown n e raw) -> visible (r_text r).
Proof.
  unfold field_shown. intros H Hr.
  destruct (e_kind e); [destruct (field_bits e raw =? 1); [|destruct Hr]; destruct Hr as [<-|[]]; exact H|..];
    (destruct (decode _ (field_bits e raw)) as [[v' s]|] eqn:E; [|destruct Hr]; destruct Hr as [<-|[]]; apply visible_app; [exact H|eapply decode_visible; exact E]).
Qed.
Lemma all_shown_visible n t raw : forallb (fun e => visibleb (lit (e_label e))) t = true -> Forall (fun r => visible (r_text r)) (all_shown n t raw).
Proof.
  intros H. apply Forall_forall. intros r Hr. unfold all_shown in Hr. apply in_flat_map in Hr. destruct Hr as (e & He & Hr).
  rewrite forallb_forall in H. apply (shown_visible n e raw); [|exact Hr]. apply visibleb_ok. exact (H e He).
Qed.
Lemma labels_visible parse sch n t m : In (parse, sch, n, t, m) all_bit_values -> forallb (fun e => visibleb (lit (e_label e))) t = true.
Proof.
  intros H. unfold all_bit_values, bit_values in H. cbn [app In] in H.
  repeat (destruct H as [H|H]; [injection H as <- <- <- <- <-; vm_compute; reflexivity|]). destruct H.
Qed.

Lemma draw_visible n k f : (forall o, 32 <= f o /\ f o <= 126 \/ f o = 0x2500 \/ f o = 0x2502 \/ f o = 0x2514 \/ f o = 0x2518 \/ f o = 0x251C) -> visible (draw n k f).
Proof. intros H. apply Forall_map, Forall_forall. intros c _. cbn zeta. destruct (_ =? _); [lia|apply H]. Qed.
Lemma diagram_between n raw ranges i show : Forall (fun r => visible (r_text r)) ranges -> Forall (line_between i i) (diagram n raw ranges i show).
Proof.
  intros H. unfold diagram. constructor; [|apply Forall_app; split].
  - right. cbn. repeat split; try lia. constructor; [|constructor]. cbn. apply draw_visible. intros o. unfold bit_char. destruct (N.testbit _ _); lia.
  - destruct (existsb _ ranges); [|constructor]. constructor; [|constructor]. right. cbn [row l_tabs l_spans]. repeat split; try lia.
    constructor; [|constructor]. cbn [snd]. apply draw_visible. intros o. unfold arm_char. destruct (find _ _) as [r|]; [|lia]. destruct (_ =? 1); [lia|]. destruct (_ =? _); [lia|]. destruct (_ =? _); lia.
  - apply Forall_map. apply Forall_rev in H. eapply Forall_impl; [|exact H]. intros r Hr. right. cbn [l_tabs l_spans]. repeat split; try lia.
    constructor; [|constructor; [exact Hr|constructor]]. cbn [snd]. apply visible_app; [|constructor; [lia|constructor]].
    apply draw_visible. intros o. unfold elbow_char. destruct (_ =? _); [lia|]. destruct (existsb _ _); lia.
Qed.
Lemma bits_between parse sch n t m raw v i show : In (parse, sch, n, t, m) bit_values -> parse raw = Ok v ->
  Forall (line_between i i) (bits_diagram n sch v i show).
Proof.
  intros H P. pose proof (bit_values_all _ H) as Ha. apply diagram_between. rewrite (C44_ranges _ _ _ _ _ raw v Ha P).
  apply all_shown_visible. now apply (labels_visible parse sch n t m).
Qed.
Lemma between_weaken lo hi lo' hi' l : lo' <= lo -> hi <= hi' -> Forall (line_between lo hi) l -> Forall (line_between lo' hi') l.
Proof. intros H1 H2. apply Forall_impl. intros x [H|(A & B & C)]; [now left|right]. split; [lia|]. split; [lia|assumption]. Qed.
Lemma heading_between lo hi i s : lo <= i -> i <= hi -> visible s -> line_between lo hi (heading_row i s).
Proof. intros. right. cbn. repeat split; try assumption. now constructor. Qed.
Lemma bold_between lo hi i s : lo <= i -> i <= hi -> visible s -> line_between lo hi (bold_row i s).
Proof. intros. right. cbn. repeat split; try assumption. now constructor. Qed.
Lemma titled_between lo hi i st s t : lo <= i -> i <= hi -> visible s -> visible t -> line_between lo hi (titled i st s t).
Proof. intros. right. cbn. repeat split; try assumption. constructor; [assumption|]. constructor; [assumption|constructor]. Qed.
Lemma row_between lo hi i s : lo <= i -> i <= hi -> visible s -> line_between lo hi (row i [(None, s)]).
Proof. intros. right. cbn. repeat split; try assumption. now constructor. Qed.

Lemma hex_char_ge v : v < 16 -> 32 <= hex_char v /\ hex_char v <= 126.
Proof. intros H. rewrite hex_char_upper by assumption. unfold hex_digit_upper. destruct (v <? 10); lia. Qed.
Lemma byte_text_visible b : is_byte b -> visible (byte_text b).
Proof. unfold is_byte. intros H. constructor; [left; apply hex_char_ge; lia|]. constructor; [left; apply hex_char_ge; lia|constructor]. Qed.
Lemma bytes_text_visible l : bytes_ok l -> visible (flat_map byte_text l).
Proof. intros H. apply Forall_flat_map. eapply Forall_impl; [|exact H]. exact byte_text_visible. Qed.
Lemma spaced_visible l : Forall visible l -> visible (spaced l).
Proof.
  induction 1 as [|x l Hx Hl IH]; [constructor|]. destruct l as [|y l]; [exact Hx|]. change (spaced (x :: y :: l)) with (x ++ 32 :: spaced (y :: l)).
  apply visible_app; [exact Hx|]. constructor; [lia|exact IH].
Qed.
Lemma spaced_bytes_visible l : bytes_ok l -> visible (spaced (map byte_text l)).
Proof. intros H. apply spaced_visible, Forall_map. eapply Forall_impl; [|exact H]. exact byte_text_visible. Qed.
Lemma hex_dump_between i d : bytes_ok d -> Forall (line_between i i) (hex_dump i d).
Proof.
  intros H. apply Forall_map, Forall_forall. intros l Hl. apply row_between; try lia. apply spaced_bytes_visible. now apply (chunks_bytes 16 d).
Qed.
Lemma repeat_visible c n : 32 <= c /\ c <= 126 -> visible (repeat c n).
Proof. intros H. induction n; constructor; [lia|assumption]. Qed.
Lemma wide_dump_between i d : bytes_ok d -> Forall (line_between i i) (wide_dump i d).
Proof.
  intros H. apply Forall_map, Forall_forall. intros l Hl. apply row_between; try lia. apply visible_app.
  - apply visible_app; [apply spaced_bytes_visible; now apply (chunks_bytes 16 d)|apply repeat_visible; lia].
  - apply Forall_map, Forall_forall. intros b _. unfold readable. destruct (_ && _) eqn:E; [|lia]. apply andb_true_iff in E. lia.
Qed.

Lemma fval_text_visible v : visible (fval_text v).
Proof.
  destruct v as [[|]|n|[]|[]|[]|[]|[x|]|[x|]]; cbn [fval_text]; try vis; try apply dec_visible.
  - destruct x; vis.
  - destruct x; vis.
Qed.
Lemma rule_field_visible rule s : visible (32 :: rule_field_text rule s).
Proof. constructor; [lia|]. unfold rule_field_text. destruct (get_field _ _ _); [apply fval_text_visible|constructor]. Qed.
Lemma rule_lines_between i k rule : Forall (line_between i (i + 1)) (rule_lines i k rule).
Proof.
  unfold rule_lines. constructor; [|constructor; [|constructor; [|constructor; [|constructor]]]].
  - apply bold_between; try lia. apply visible_app; [vis|]. apply visible_app; [apply dec_visible|vis].
  - apply titled_between; try lia; [vis|apply rule_field_visible].
  - apply titled_between; try lia; [vis|apply rule_field_visible].
  - apply titled_between; try lia; [vis|]. destruct (get_field _ _ _) as [[[|]| | | | | | |]|]; vis.
Qed.
Lemma rules_between i rules : forall k, Forall (line_between i (i + 1)) (numbered_rules i k rules).
Proof. induction rules as [|r rules IH]; intros k; [constructor|]. cbn [numbered_rules]. apply Forall_app. split; [apply rule_lines_between|apply IH]. Qed.
Lemma padded_visible w n : visible (padded w n).
Proof. apply visible_app; [apply repeat_visible; lia|apply dec_visible]. Qed.
Lemma cvm_list_between x i : Forall (line_between i (i + value_levels (ValCvmList x))) (cvm_list_lines x i).
Proof.
  unfold cvm_list_lines. apply Forall_app. split.
  - destruct (_ || _); [|constructor]. cbn zeta. constructor; [|constructor; [|constructor]]; apply titled_between; try lia; try vis; (constructor; [lia|]).
    + apply visible_app; [apply padded_visible|vis].
    + apply padded_visible.
  - constructor; [apply heading_between; try lia; vis|]. cbn [value_levels]. destruct (cl_rules x) as [|r rules]; [constructor|]. apply rules_between.
Qed.

Lemma services_visible x : visible (allowed_services_text x). Proof. destruct x; vis. Qed.
Lemma pin_visible x : visible (pin_requirements_text x). Proof. destruct x; vis. Qed.
Lemma auth_visible x : visible (authorisation_processing_text x). Proof. destruct x; vis. Qed.
Lemma interchange_visible x : visible (interchange_text x). Proof. destruct x; vis. Qed.
Lemma technology_visible x : visible (technology_text x). Proof. destruct x; vis. Qed.
Lemma arc_visible x : visible (authorisation_response_code_text x). Proof. destruct x; vis. Qed.
Lemma transaction_type_visible x : visible (transaction_type_text x). Proof. destruct x; vis. Qed.
Lemma terminal_type_visible x : visible (terminal_type_text x). Proof. destruct x; vis. Qed.
Lemma pos_entry_visible x : visible (pos_entry_mode_text x). Proof. destruct x; vis. Qed.
Lemma class_visible x : visible (class_word x). Proof. destruct x; vis. Qed.
Lemma type_visible x : visible (type_word x). Proof. destruct x; vis. Qed.
Lemma cvm_result_visible x : visible (cvm_result_text x). Proof. destruct x; vis. Qed.

Lemma names_visible : forallb (fun x => visibleb (lit (snd x))) tag_table = true.
Proof. vm_compute. reflexivity. Qed.
Lemma identify_visible t s : identify_tag t = Some s -> visible s.
Proof.
  unfold identify_tag. destruct (lookup_tag t tag_table) as [x|] eqn:L; [|discriminate]. cbn [option_map]. intros H. injection H as <-.
  apply lookup_in in L. pose proof names_visible as V. rewrite forallb_forall in V. apply visibleb_ok. exact (V (t, x) L).
Qed.

Lemma value_between v i show : parsed_value v -> Forall (line_between i (i + value_levels v)) (value_lines v i show).
Proof.
  intros H. destruct H; cbn [value_lines value_levels]; rewrite ?N.add_0_r.
  - apply (bits_between tvr_try_from tvr_schema 5 tvr_bits tvr_used d); [bit_value|assumption].
  - apply (bits_between tsi_try_from tsi_schema 2 tsi_bits tsi_used d); [bit_value|assumption].
  - apply (bits_between termcap_try_from termcap_schema 3 termcap_bits termcap_used d); [bit_value|assumption].
  - apply (bits_between addtermcap_try_from addtermcap_schema 5 addtermcap_bits addtermcap_used d); [bit_value|assumption].
  - apply (bits_between cvr_try_from cvr_schema 5 cvr_bits cvr_used d); [bit_value|assumption].
  - apply diagram_between. destruct (C47_representation d x H H0) as (b0 & b1 & b2 & -> & _).
    destruct (C47_ranges p64 b0 b1 b2 x H H0) as (l & E & _ & El). rewrite (cvm_results_ranges_ok p64 _ x H H0) in E. fold (cvm_result_ranges x) in E.
    assert (El' : cvm_result_ranges x = l) by (injection E as E; exact E). rewrite El', El. apply Forall_app. split.
    + apply Forall_map. cbn [r_text]. apply all_shown_visible. vm_compute. reflexivity.
    + constructor; [|constructor]. cbn [r_text]. apply visible_app; [vis|apply cvm_result_visible].
  - apply cvm_list_between.
  - pose proof (proj1 (C49_iad_accepts d x H) H0) as (cci & cvr & (E & _ & _ & _) & _ & Pc & Pv). rewrite E in H.
    apply bytes_ok_cons in H. destruct H as [_ Hb]. apply bytes_ok_cons in Hb. destruct Hb as [B1 Hb]. apply bytes_ok_cons in Hb. destruct Hb as [B2 Hb].
    apply bytes_ok_app in Hb. destruct Hb as [B3 Hb]. apply bytes_ok_app in Hb. destruct Hb as [B4 Hb]. apply bytes_ok_cons in Hb. destruct Hb as [_ B5].
    unfold iad_lines. constructor; [apply heading_between; try lia; vis|]. apply Forall_app. split.
    { apply (between_weaken (i + 1) (i + 1)); try lia. apply (bits_between cci_try_from cci_schema 1 cci_bits cci_used [cci]); [bit_value|assumption]. }
    constructor; [apply titled_between; try lia; [vis|]; apply visible_app; [vis|now apply byte_text_visible]|].
    constructor; [apply heading_between; try lia; vis|]. apply Forall_app. split.
    { apply (between_weaken (i + 1) (i + 1)); try lia. apply (bits_between cvr_try_from cvr_schema 5 cvr_bits cvr_used cvr); [bit_value|assumption]. }
    constructor; [apply heading_between; try lia; vis|]. apply Forall_app. split.
    { apply (between_weaken (i + 1) (i + 1)); try lia. now apply hex_dump_between. }
    constructor; [apply heading_between; try lia; vis|]. apply (between_weaken (i + 1) (i + 1)); try lia. now apply hex_dump_between.
  - constructor; [apply heading_between; try lia; vis|]. apply (bits_between tvr_try_from tvr_schema 5 tvr_bits tvr_used d); [bit_value|assumption].
  - constructor; [apply heading_between; try lia; vis|]. apply (bits_between tvr_try_from tvr_schema 5 tvr_bits tvr_used d); [bit_value|assumption].
  - constructor; [apply heading_between; try lia; vis|]. apply (bits_between tvr_try_from tvr_schema 5 tvr_bits tvr_used d); [bit_value|assumption].
  - unfold service_code_lines. cbn zeta. constructor; [apply bold_between; try lia; apply padded_visible|].
    assert (E : forall arms title text, visible arms -> visible title -> visible text -> line_between i i (row i [(None, arms); (bold, title); (None, text)])).
    { intros arms title text A B C. right. cbn [row l_tabs l_spans]. repeat split; try lia. constructor; [exact A|]. constructor; [exact B|]. constructor; [exact C|constructor]. }
    constructor; [|constructor; [|constructor; [|constructor; [|constructor; [|constructor]]]]]; (apply E; [vis|vis|apply visible_app; [vis|]]).
    + apply services_visible.
    + apply pin_visible.
    + apply auth_visible.
    + apply interchange_visible.
    + apply technology_visible.
  - constructor; [|constructor]. apply row_between; try lia. apply arc_visible.
  - constructor; [|constructor]. apply row_between; try lia. apply transaction_type_visible.
  - constructor; [|constructor]. apply row_between; try lia. apply terminal_type_visible.
  - constructor; [|constructor]. apply row_between; try lia. apply pos_entry_visible.
  - pose proof (tag_info_bytes d x H0) as Et. unfold tag_info_lines. constructor; [|constructor; [|constructor; [|constructor; [|constructor]]]].
    + apply titled_between; try lia; [vis|]. apply visible_app; [vis|]. unfold shown_name. destruct (ti_name x) eqn:En; [|vis].
      apply (identify_visible (ti_tag x)). rewrite Et. revert H0 En. clear. unfold tag_info_try_from. destruct (_ <? _); [discriminate|]. destruct (index d 0); try discriminate. cbn [bind].
      destruct (parse_tag_metadata _); try discriminate. cbn [bind]. intros H. injection H as <-. intros E. exact E.
    + right. cbn [row l_tabs l_spans]. repeat split; try lia. constructor; [cbn [snd]; vis|]. constructor; [cbn [snd]; vis|]. constructor; [|constructor]. cbn [snd]. rewrite Et. now apply bytes_text_visible.
    + apply titled_between; try lia; [vis|]. apply visible_app; [vis|apply class_visible].
    + apply titled_between; try lia; [vis|]. apply visible_app; [vis|apply type_visible].
Qed.

Lemma tag_row_between i r name : bytes_ok (rt_tag r) -> visible name -> line_between i i (tag_row i r name).
Proof.
  intros Hb Hn. right. cbn [tag_row row l_tabs l_spans]. repeat split; try lia. constructor; [cbn [snd]; vis|]. constructor; [cbn [snd]; vis|].
  constructor; [cbn [snd]; now apply bytes_text_visible|]. constructor; [|constructor]. cbn [snd]. apply visible_app; [vis|]. apply visible_app; [|apply visible_app; [vis|exact Hn]].
  unfold length_text. destruct (rt_data r); [|vis]. apply visible_app; [apply dec_visible|]. destruct (_ =? 1); vis.
Qed.
Lemma data_between i r : match rt_data r with Normal d => bytes_ok d | Masked => True end -> Forall (line_between i (i + data_levels r)) (data_lines i r).
Proof.
  unfold data_lines, data_levels. destruct (rt_data r) as [[|b d]|]; intros H; [constructor| |constructor; [apply heading_between; try lia; vis|constructor]].
  constructor; [apply heading_between; try lia; vis|]. apply (between_weaken (i + 1) (i + 1)); try lia. now apply wide_dump_between.
Qed.
Lemma ptag_between t i show : good_ptag t -> Forall (line_between i (i + ptag_levels t)) (ptag_lines t i show).
Proof.
  assert (R : forall r name k, bytes_ok (rt_tag r) -> match rt_data r with Normal d => bytes_ok d | Masked => True end -> visible name -> data_levels r <= k ->
              Forall (line_between i (i + k)) (tag_row i r name :: data_lines i r)).
  { intros r name k Hb Hd Hn Hk. apply (between_weaken i (i + data_levels r)); try lia. constructor; [|now apply data_between].
    assert (T : Forall (line_between i i) [tag_row i r name]) by (constructor; [now apply tag_row_between|constructor]).
    apply (between_weaken i i i (i + data_levels r)) in T; [now inversion T|lia|lia]. }
  intros G. destruct t as [r|s r|s v r]; cbn [good_ptag ptag_lines ptag_levels] in *.
  - apply R; [apply G|apply G|vis|unfold data_levels; lia].
  - apply R; [apply G|apply G|apply G|unfold data_levels; lia].
  - fold (data_levels r). rewrite app_comm_cons. apply Forall_app. split; [apply R; [apply G|apply G|apply G|lia]|].
    constructor; [apply heading_between; try lia; vis|]. apply (between_weaken (i + 1) (i + 1 + value_levels v)); try lia. apply value_between. apply G.
Qed.
Lemma separated_Forall (P : line -> Prop) ls : P blank -> Forall (Forall P) ls -> Forall P (separated ls).
Proof.
  intros Hb. induction 1 as [|x l Hx Hl IH]; [constructor|]. destruct l as [|y l]; [exact Hx|].
  change (separated (x :: y :: l)) with (x ++ blank :: separated (y :: l)). apply Forall_app. split; [exact Hx|]. constructor; [exact Hb|exact IH].
Qed.
Lemma node_between show n : forall i, good_node n -> Forall (line_between i (i + node_levels n)) (node_lines show n i).
Proof.
  induction n as [t c IH] using pnode_tree_ind. intros i G. inversion G as [? ? Gt Gc]; subst. cbn [node_lines node_levels]. apply Forall_app. split.
  - apply (between_weaken i (i + ptag_levels t)); try lia. now apply ptag_between.
  - destruct c as [|x c']; [constructor|]. remember (x :: c') as c eqn:Ec. constructor; [apply heading_between; try lia; vis|].
    apply separated_Forall; [now left|]. apply Forall_map. rewrite Forall_forall in *. intros n Hn.
    apply (between_weaken (i + 1) (i + 1 + node_levels n)); try lia; [|apply IH; [assumption|now apply Gc]].
    pose proof (max_in (map node_levels c) (node_levels n) (in_map _ _ _ Hn)). lia.
Qed.
Lemma block_between l i show : Forall good_node l -> Forall (line_between i (i + block_levels l)) (block_lines l i show).
Proof.
  intros G. unfold block_lines. apply separated_Forall; [now left|]. apply Forall_map. rewrite Forall_forall in *. intros n Hn.
  apply (between_weaken i (i + node_levels n)); try lia; [|apply node_between; now apply G].
  pose proof (max_in (map node_levels l) (node_levels n) (in_map _ _ _ Hn)). unfold block_levels. lia.
Qed.

(** ** Processed blocks are good *)

Lemma rmap_inv {A B} (f : A -> B) r b : rmap f r = Ok b -> exists a, r = Ok a /\ b = f a.
Proof. apply rmap_ok. Qed.
Lemma good_parsed name raw f pt : visible name -> tag_ok raw -> (forall d v, bytes_ok d -> f d = Ok v -> parsed_value v) ->
  parse_raw name raw f = Ok pt -> good_ptag pt.
Proof.
  intros Hn [Ht Hd] Hf. unfold parse_raw, data_ok in *. destruct (rt_data raw) as [d|] eqn:E.
  - destruct (f d) as [v| | |] eqn:F; try discriminate. cbn [bind]. intros H. injection H as <-. cbn. rewrite E. repeat split; try assumption. now apply (Hf d).
  - intros H. injection H as <-. cbn. rewrite E. auto.
Qed.
Lemma good_unrecognised name other raw f soft pt : visible name -> visible other -> tag_ok raw -> (forall d v, bytes_ok d -> f d = Ok v -> parsed_value v) ->
  parse_raw_unrecognised name other raw f soft = Ok pt -> good_ptag pt.
Proof.
  intros Hn Ho [Ht Hd] Hf. unfold parse_raw_unrecognised, data_ok in *. destruct (rt_data raw) as [d|] eqn:E.
  - destruct (f d) as [v|e| |] eqn:F; try discriminate.
    + intros H. injection H as <-. cbn. rewrite E. repeat split; try assumption. now apply (Hf d).
    + destruct (soft e); [|discriminate]. intros H. injection H as <-. cbn. rewrite E. auto.
  - intros H. injection H as <-. cbn. rewrite E. auto.
Qed.
Lemma service_from_bytes d x : service_code_try_from_bytes d = Ok x -> exists n, service_code_try_from_u16 n = Ok x.
Proof.
  unfold service_code_try_from_bytes. destruct (negb _); [discriminate|]. destruct (bytes_to_str d); try discriminate. cbn [bind].
  destruct (parse_str_to_u16 _) as [n| | |]; try discriminate. cbn [bind]. eauto.
Qed.
Lemma good_processed_tag raw pt : tag_ok raw -> process_emv_tag raw = Ok pt -> good_ptag pt.
Proof.
  intros H. unfold process_emv_tag. destruct (identify_tag (rt_tag raw)) as [name|] eqn:I.
  2:{ intros E. injection E as <-. cbn. exact H. }
  pose proof (identify_visible _ _ I) as V. cbn zeta. clear I.
  repeat (match goal with |- (if ?b then _ else _) = _ -> _ => destruct b end;
    [first [eapply good_parsed; [exact V|exact H|] | eapply good_unrecognised; [first [exact V|vis]|vis|exact H|]];
     intros d v Hd E; apply rmap_inv in E; destruct E as (x & E & ->);
     first [apply service_from_bytes in E; destruct E as [n E]; econstructor; eassumption | econstructor; eassumption | constructor]|]).
  intros E. injection E as <-. cbn. destruct H. auto.
Qed.
Lemma good_processed_node n : Forall tag_ok (preorder n) -> forall pn, process_node n = Ok pn -> good_node pn.
Proof.
  induction n as [t c IH] using raw_tree_ind. cbn [preorder]. intros H pn. inversion H as [|? ? Ht Hc]; subst. rewrite process_node_eq.
  destruct (process_emv_tag t) as [pt| | |] eqn:P; try discriminate. cbn [bind]. destruct (mapM process_node c) as [pc| | |] eqn:M; try discriminate.
  cbn [bind]. intros E. injection E as <-. constructor; [now apply (good_processed_tag t)|]. clear H P Ht pt t. revert pc M Hc.
  induction IH as [|n c Hn _ IHc]; intros pc M Hc; [injection M as <-; constructor|]. rewrite mapM_cons in M. cbn [flat_map] in Hc. apply Forall_app in Hc. destruct Hc as [H1 H2].
  destruct (process_node n) as [y| | |] eqn:Y; try discriminate. cbn [bind] in M. destruct (mapM process_node c) as [ys| | |] eqn:Z; try discriminate. cbn [bind] in M.
  injection M as <-. constructor; [now apply Hn|now apply IHc].
Qed.
Lemma good_processed l r : forest_ok l -> process_block l = Ok r -> Forall good_node r.
Proof.
  unfold forest_ok, process_block. revert r. induction l as [|n l IH]; intros r H M; [injection M as <-; constructor|]. rewrite mapM_cons in M.
  cbn [flat_map] in H. apply Forall_app in H. destruct H as [H1 H2].
  destruct (process_node n) as [y| | |] eqn:Y; try discriminate. cbn [bind] in M. destruct (mapM process_node l) as [ys| | |] eqn:Z; try discriminate. cbn [bind] in M.
  injection M as <-. constructor; [now apply (good_processed_node n)|now apply IH].
Qed.

(** ** Colours *)

Definition cl (d : disp) : Prop := closed (evs d).
Lemma closed_app a b : closed a -> closed b -> closed (a ++ b).
Proof.
  intros Ha Hb. induction Ha as [|s l _ IH|c texts l _ IH]; cbn [app]; [assumption|now constructor|]. rewrite <- app_assoc. cbn [app]. now constructor.
Qed.
Lemma cl_then a b : cl a -> cl b -> cl (a >>> b).
Proof. unfold cl, dthen. intros Ha Hb. destruct (dead a); [assumption|]. now apply closed_app. Qed.
Lemma cl_nil : cl dnil. Proof. constructor. Qed.
Lemma cl_txt s : cl (dtxt s). Proof. constructor. constructor. Qed.
Lemma cl_ln s : cl (dln s). Proof. constructor. constructor. Qed.
Lemma cl_style c s rest : cl rest -> cl (dset c >>> dtxt s >>> dreset >>> rest).
Proof. unfold cl. intros H. exact (closed_style c [s] (evs rest) H). Qed.
Lemma cl_style_ln c s rest : cl rest -> cl (dset c >>> dln s >>> dreset >>> rest).
Proof. unfold cl. intros H. exact (closed_style c [s ++ [10]] (evs rest) H). Qed.
Lemma cl_style_both c s t rest : cl rest -> cl (dset c >>> dtxt s >>> dln t >>> dreset >>> rest).
Proof. unfold cl. intros H. exact (closed_style c [s; t ++ [10]] (evs rest) H). Qed.
Lemma cl_style_end c s : cl (dset c >>> dtxt s >>> dreset).
Proof. exact (closed_style c [s] [] closed_nil). Qed.
Lemma cl_style_ln_end c s : cl (dset c >>> dln s >>> dreset).
Proof. exact (closed_style c [s ++ [10]] [] closed_nil). Qed.
Lemma cl_let {A} (r : res A) k : (forall a, cl (k a)) -> cl (dlet r k).
Proof. intros H. destruct r; cbn [dlet]; try apply H; constructor. Qed.
Lemma cl_for {A} (l : list A) f : (forall x, cl (f x)) -> cl (dfor l f).
Proof. intros H. induction l as [|x l IH]; [apply cl_nil|]. apply cl_then; [apply H|exact IH]. Qed.
Lemma cl_indent i : cl (print_indentation i). Proof. apply cl_txt. Qed.
Lemma cl_label i c s : cl (label i c s).
Proof. apply cl_then; [apply cl_indent|apply cl_style_end]. Qed.
Lemma cl_label_ln i c s : cl (label_ln i c s).
Proof. apply cl_then; [apply cl_indent|apply cl_style_ln_end]. Qed.
Lemma cl_dead : cl (mkDisp [] true). Proof. constructor. Qed.
Ltac cl_step :=
  lazymatch goal with
  | |- cl (dset _ >>> print_bytes_small _ >>> dreset >>> _) => apply cl_style
  | |- cl (dset _ >>> dtxt _ >>> dreset >>> _) => apply cl_style
  | |- cl (dset _ >>> dln _ >>> dreset >>> _) => apply cl_style_ln
  | |- cl (dset _ >>> dtxt _ >>> dln _ >>> dreset >>> _) => apply cl_style_both
  | |- cl (dset _ >>> dtxt _ >>> dreset) => apply cl_style_end
  | |- cl (dset _ >>> dln _ >>> dreset) => apply cl_style_ln_end
  | |- cl (_ >>> _) => apply cl_then
  | |- cl dnil => apply cl_nil
  | |- cl (dtxt _) => apply cl_txt
  | |- cl (dln _) => apply cl_ln
  | |- cl (print_indentation _) => apply cl_indent
  | |- cl (label _ _ _) => apply cl_label
  | |- cl (label_ln _ _ _) => apply cl_label_ln
  | |- cl (mkDisp [] true) => apply cl_dead
  | |- cl (dlet _ _) => apply cl_let; intros ?
  | |- cl (dfor _ _) => apply cl_for; intros ?
  | |- cl (if ?b then _ else _) => destruct b
  | |- cl (match ?b with Some _ => _ | None => _ end) => destruct b
  end.
Lemma cl_header_arms p n l : forall c, cl (header_arms p n l c).
Proof. induction l as [|r l IH]; intros c; cbn [header_arms]; repeat cl_step; apply IH. Qed.
Lemma cl_display_bits p n raw ranges ind show : cl (display_bits p n raw ranges ind show).
Proof. unfold display_bits. repeat cl_step; try apply cl_header_arms. unfold explanation_line. repeat cl_step. Qed.
Lemma cl_print_bytes l w i : cl (print_bytes l w i).
Proof. unfold print_bytes. repeat cl_step. Qed.
Lemma cl_print_bytes_pretty l w i : cl (print_bytes_pretty l w i).
Proof. unfold print_bytes_pretty. repeat cl_step. Qed.
Lemma cl_rules p i l : forall k, cl (display_cv_rules p i k l).
Proof. induction l as [|r l IH]; intros k; cbn [display_cv_rules]; [apply cl_nil|]. apply cl_then; [|apply IH]. unfold display_cv_rule_entry. repeat cl_step. Qed.
Lemma cl_value p v i show : cl (display_value p v i show).
Proof.
  destruct v; cbn [display_value]; try apply cl_display_bits.
  - unfold display_cvm_results. apply cl_let. intros r. apply cl_display_bits.
  - unfold display_cvm_list. cbn zeta. repeat cl_step; apply cl_rules.
  - unfold display_iad. repeat cl_step; try apply cl_display_bits; apply cl_print_bytes.
  - unfold display_iac_default. repeat cl_step. apply cl_display_bits.
  - unfold display_iac_denial. repeat cl_step. apply cl_display_bits.
  - unfold display_iac_online. repeat cl_step. apply cl_display_bits.
  - unfold display_service_code, service_code_entry. repeat cl_step.
  - unfold display_line. repeat cl_step.
  - unfold display_line. repeat cl_step.
  - unfold display_line. repeat cl_step.
  - unfold display_line. repeat cl_step.
  - unfold display_tag_info. repeat cl_step.
Qed.
Lemma cl_ptag p t i show : cl (display_ptag p t i show).
Proof.
  assert (R : forall r, cl (display_raw_tag p r i)).
  { intros r. unfold display_raw_tag. destruct (rt_data r) as [[|]|]; repeat cl_step. apply cl_print_bytes_pretty. }
  assert (N : forall a b c, cl (print_tag_name i a b c)).
  { intros a b c. unfold print_tag_name. cbn zeta. repeat cl_step. }
  destruct t; cbn [display_ptag]; repeat (apply cl_then; [first [apply N|apply R|apply cl_label_ln]|]); try apply R. apply cl_let. intros. apply cl_value.
Qed.
Lemma cl_nodes f l : Forall (fun n => cl (f n)) l -> forall first, cl (display_nodes f first l).
Proof. induction 1 as [|n l Hn _ IH]; intros first; cbn [display_nodes]; [apply cl_nil|]. repeat cl_step; try assumption; apply IH. Qed.
Lemma cl_node p show n : forall i, cl (display_pnode p show n i).
Proof.
  induction n as [t c IH] using pnode_tree_ind. intros i. cbn [display_pnode]. apply cl_then; [apply cl_ptag|]. destruct c as [|x c']; [apply cl_nil|].
  remember (x :: c') as c eqn:Ec. repeat cl_step. apply cl_nodes. eapply Forall_impl; [|exact IH]. intros n Hn. apply Hn.
Qed.
Lemma cl_block p l i show : cl (display_block p l i show).
Proof. apply cl_nodes, Forall_forall. intros n _. apply cl_node. Qed.
Lemma closed_final l : closed l -> style_after None l = None.
Proof.
  induction 1 as [|s l _ IH|c texts l _ IH]; cbn; [reflexivity|exact IH|]. rewrite style_after_app. cbn. exact IH.
Qed.
