(** Which masking characters matter: those that stand twice in a row in the data. *)

From Coq Require Import NArith String List Bool PeanoNat Lia ZifyN ZifyBool ZifyNat.
From Verif Require Import Base ModelUtil ModelEnums ModelTlv ModelValues ModelProcess ModelDisplay ModelCli ModelWords ModelEnv ModelTerminal ModelFiles SpecUtil SpecTlv SpecIngenico SpecDisplay SpecCli SpecWords
  ProofsUtil ProofsGrammar ProofsBer ProofsIngenico PropertiesBer
  ModelMain SpecMain ProofsMain PropertiesMain ProofsCli PropertiesCli ProofsWords PropertiesWords SpecPictures PropertiesPictures SpecScope PropertiesScope SpecBuilds ProofsBuilds SpecWidth ProofsWidth SpecMatters.
Import ListNotations.
Local Open Scope N_scope.

(** ** The parsers *)
Definition agree (masks masks' l : list N) : Prop := forall a c b, l = a ++ c :: c :: b -> (In c masks <-> In c masks').
Lemma agree_part masks masks' a l b : agree masks masks' (a ++ l ++ b) -> agree masks masks' l.
Proof. intros H x c y ->. apply (H (a ++ x) c (y ++ b)). rewrite <- !app_assoc. reflexivity. Qed.
Lemma agree_sym masks masks' l : agree masks masks' l -> agree masks' masks l.
Proof. intros H a c b E. specialize (H a c b E). tauto. Qed.
Lemma all_of masks masks' l : agree masks masks' l -> 2 <= len l -> existsb (fun m => forallb (fun b => b =? m) l) masks = true -> existsb (fun m => forallb (fun b => b =? m) l) masks' = true.
Proof.
  intros A L H. apply existsb_exists in H. destruct H as (m & I & F). apply existsb_exists. exists m. split; [|assumption].
  destruct l as [|x [|y l]]; [cbn in L; lia|cbn in L; lia|]. cbn [forallb] in F. apply andb_true_iff in F. destruct F as [Fx F]. apply andb_true_iff in F. destruct F as [Fy _].
  apply N.eqb_eq in Fx, Fy. subst x y. now apply (A [] m l eq_refl).
Qed.
Lemma all_same masks masks' l : agree masks masks' l -> 2 <= len l -> existsb (fun m => forallb (fun b => b =? m) l) masks = existsb (fun m => forallb (fun b => b =? m) l) masks'.
Proof.
  intros A L. apply eq_iff_eq_true. split; apply all_of; try assumption. now apply agree_sym.
Qed.
Lemma masked_u8_same masks masks' l : agree masks masks' l -> is_masked_u8 l masks = is_masked_u8 l masks'.
Proof. intros A. unfold is_masked_u8, masking_char_minimum. destruct (N.ltb_spec (len l) 2); [reflexivity|]. now apply all_same. Qed.
Lemma masked_str_same masks masks' s : ascii_text s -> agree masks masks' s -> is_masked_str s masks = is_masked_str s masks'.
Proof.
  intros A H. unfold is_masked_str, masking_char_minimum, str_len. rewrite utf8_ascii by assumption. destruct (N.ltb_spec (len s) 2); [reflexivity|]. now apply all_same.
Qed.
Lemma ber_loop_masks p masks masks' : forall fuel bytes i nodes, agree masks masks' bytes -> ber_loop fuel p masks bytes i nodes = ber_loop fuel p masks' bytes i nodes.
Proof.
  induction fuel as [|fuel IH]; intros bytes i nodes A; [reflexivity|]. cbn [ber_loop]. destruct (i <? len bytes); [|reflexivity].
  apply bind_same; [reflexivity|]. intros t0 _. apply bind_same; [reflexivity|]. intros meta _. apply bind_same; [reflexivity|]. intros te _.
  apply bind_same; [reflexivity|]. intros li _. apply if_same. intros _. apply bind_same; [reflexivity|]. intros [n d] _.
  apply bind_same; [reflexivity|]. intros de _. apply bind_same; [reflexivity|]. intros lim _. apply if_same. intros _. apply bind_same; [reflexivity|]. intros de2 _.
  apply bind_same; [reflexivity|]. intros data Sl. apply slice_split in Sl. destruct Sl as (x & y & -> & _). pose proof (agree_part _ _ _ _ _ A) as Ad. cbv zeta.
  unfold from_u8_check_for_masked. rewrite <- (masked_u8_same masks masks' data Ad). destruct (is_masked_u8 data masks).
  - apply bind_same; [apply child_eq; discriminate|]. intros ch _. apply bind_same; [reflexivity|]. intros tag _. apply bind_same; [reflexivity|]. intros i' _. now apply IH.
  - apply bind_same; [apply child_eq; intros z Z; assert (z = data) by congruence; subst z; now apply IH|]. intros ch _. apply bind_same; [reflexivity|]. intros tag _. apply bind_same; [reflexivity|]. intros i' _. now apply IH.
Qed.
Theorem C101_ber : forall p masks masks' bytes, (forall a c b, bytes = a ++ c :: c :: b -> (In c masks <-> In c masks')) ->
  ber_parse p masks bytes = ber_parse p masks' bytes.
Proof. intros p masks masks' bytes A. apply ber_loop_masks. exact A. Qed.

Definition agree_digits (masks masks' s : list N) : Prop := forall a x y x' y' b c, s = a ++ [x; y; x'; y'] ++ b -> Forall is_hex_digit [x; y; x'; y'] ->
  16 * hex_value x + hex_value y = c -> 16 * hex_value x' + hex_value y' = c -> (In c masks <-> In c masks').
Lemma digits_agree masks masks' : forall n ds u v, (List.length ds <= n)%nat -> Forall is_hex_digit ds -> agree_digits masks masks' (u ++ ds ++ v) -> agree masks masks' (bytes_of_digits ds).
Proof.
  induction n as [|n IH]; intros ds u v L F A a c b E.
  - destruct ds; [|cbn in L; lia]. destruct a; discriminate E.
  - destruct ds as [|x [|y ds]]; [destruct a; discriminate E|destruct a; discriminate E|]. cbn [bytes_of_digits] in E. cbn [List.length] in L.
    pose proof F as F0. apply Forall_cons_iff in F. destruct F as [Fx F]. apply Forall_cons_iff in F. destruct F as [Fy F]. destruct a as [|z a].
    + cbn [app] in E. assert (E1 : 16 * hex_value x + hex_value y = c) by congruence. assert (E2 : bytes_of_digits ds = c :: b) by congruence. clear E.
      destruct ds as [|x' [|y' ds]]; try discriminate E2. cbn [bytes_of_digits] in E2. assert (E3 : 16 * hex_value x' + hex_value y' = c) by congruence.
      apply (A u x y x' y' (ds ++ v) c); [reflexivity| |assumption|assumption]. apply Forall_cons_iff in F. destruct F as [? F]. apply Forall_cons_iff in F. destruct F as [? _]. repeat (constructor; [assumption|]). constructor.
    + cbn [app] in E. assert (E2 : bytes_of_digits ds = a ++ c :: c :: b) by congruence. refine (IH ds (u ++ [x; y]) v _ F _ a c b E2); [lia|]. now rewrite <- app_assoc.
Qed.
Lemma ingenico_data_masks p masks masks' data n i : ascii_text data -> agree masks masks' data -> agree_digits masks masks' data ->
  ingenico_data p masks data n i = ingenico_data p masks' data n i
  /\ forall x j, ingenico_data p masks data n i = Ok (Normal x, j) -> agree masks masks' x.
Proof.
  intros A G D. unfold ingenico_data. destruct (index data i) as [fm| | |]; [|split; [reflexivity|discriminate]..]. cbn [bind]. destruct (fm =? data_format_ascii); [|destruct (fm =? data_format_hex)].
  - destruct (uadd p i 1) as [i1| | |]; [|split; [reflexivity|discriminate]..]. cbn [bind].
    destruct (uadd p i1 n) as [e| | |]; [|split; [reflexivity|discriminate]..]. cbn [bind]. destruct (len data <? e); [split; [reflexivity|discriminate]|].
    destruct (str_slice data i1 e) as [s| | |] eqn:S; [|split; [reflexivity|discriminate]..]. cbn [bind].
    pose proof (str_slice_ok _ _ _ _ A S) as (_ & As & _). apply (str_slice_parts _ _ _ _ A) in S. destruct S as (u & v & E & _).
    assert (Gs : agree masks masks' s) by (apply (agree_part _ _ u s v); now rewrite <- E). rewrite <- (masked_str_same masks masks' s As Gs). split; [reflexivity|].
    intros x j K. apply ok_pair in K. destruct K as [K _]. destruct (is_masked_str s masks); [discriminate|]. rewrite utf8_ascii in K by assumption. assert (x = s) by congruence. now subst x.
  - destruct (umul p n 2) as [k| | |]; [|split; [reflexivity|discriminate]..]. cbn [bind]. destruct (uadd p i 1) as [i1| | |]; [|split; [reflexivity|discriminate]..]. cbn [bind].
    destruct (uadd p i1 k) as [e| | |]; [|split; [reflexivity|discriminate]..]. cbn [bind]. destruct (len data <? e); [split; [reflexivity|discriminate]|].
    destruct (str_slice data i1 e) as [s| | |] eqn:S; [|split; [reflexivity|discriminate]..]. cbn [bind].
    pose proof (str_slice_ok _ _ _ _ A S) as (_ & As & _). apply (str_slice_parts _ _ _ _ A) in S. destruct S as (u & v & E & _).
    assert (Gs : agree masks masks' s) by (apply (agree_part _ _ u s v); now rewrite <- E). rewrite <- (masked_str_same masks masks' s As Gs). split; [reflexivity|].
    intros x j K. destruct (is_masked_str s masks); [discriminate|]. rewrite strict_map_err in K. destruct (all_hex s) eqn:Ah; [|discriminate]. cbn [bind] in K.
    apply ok_pair in K. destruct K as [K _]. assert (x = bytes_of_digits s) by congruence. subst x. apply (digits_agree _ _ _ s u v (le_n _)); [now apply all_hex_iff|now rewrite <- E].
  - split; [reflexivity|discriminate].
Qed.
Lemma ingenico_loop_masks p masks masks' data : ascii_text data -> agree masks masks' data -> agree_digits masks masks' data -> forall fuel i nodes,
  ingenico_loop fuel p masks data i nodes = ingenico_loop fuel p masks' data i nodes.
Proof.
  intros A G D. induction fuel as [|fuel IH]; intros i nodes; [reflexivity|]. cbn [ingenico_loop]. destruct (i <? len data); [|reflexivity].
  apply bind_same; [reflexivity|]. intros ty _. apply bind_same; [reflexivity|]. intros i1 _. apply if_same. intros _. apply bind_same; [reflexivity|]. intros c _.
  apply bind_same; [reflexivity|]. intros ts _. apply bind_same; [reflexivity|]. intros tb _. cbv zeta. apply bind_same; [reflexivity|]. intros i2 _. apply if_same. intros _.
  apply bind_same; [reflexivity|]. intros t0 _. apply bind_same; [reflexivity|]. intros meta _. apply bind_same; [reflexivity|]. intros c' _.
  apply bind_same; [reflexivity|]. intros ls _. apply bind_same; [reflexivity|]. intros lb _. apply if_same. intros _. apply bind_same; [reflexivity|]. intros n _. cbv zeta.
  apply bind_same; [reflexivity|]. intros i3 _. apply if_same. intros _. destruct (ingenico_data_masks p masks masks' data (n mod usize_limit p) i3 A G D) as [E X].
  apply bind_same; [exact E|]. intros [d j] K. apply bind_same; [reflexivity|]. intros i4 _. destruct (negb (ty =? tag_type_emv)); [apply IH|].
  apply bind_same; [|intros ch _; apply IH]. apply child_eq. intros x Hx. subst d. apply C101_ber. exact (X x j K).
Qed.
Lemma ingenico_masks p masks masks' s : agree masks masks' s -> agree_digits masks masks' s -> ingenico_parse p masks s = ingenico_parse p masks' s.
Proof. intros G D. unfold ingenico_parse. destruct (is_ascii s) eqn:A; cbn [negb]; [|reflexivity]. apply is_ascii_iff in A. now apply ingenico_loop_masks. Qed.
Lemma text_masks p masks masks' op s : op = OpIngenico \/ op = OpAuto -> agree_on masks masks' op s -> ingenico_parse p masks s = ingenico_parse p masks' s.
Proof.
  intros O H. apply ingenico_masks.
  - intros a c b E. apply H. exact (repeated_text c op s a b O E).
  - intros a x y x' y' b c E F V V'. apply H. exact (repeated_digits c op s a x y x' y' b O E F V V').
Qed.
Lemma bytes_masks p masks masks' op s : op = OpBer \/ op = OpAuto -> agree_on masks masks' op s -> ber_parse p masks (parse_hex_str s) = ber_parse p masks' (parse_hex_str s).
Proof. intros O H. apply C101_ber. rewrite parse_hex_str_spec. intros a c b E. apply H. exact (repeated_bytes c op s a b O E). Qed.
Theorem C101_ingenico : forall p masks masks' s, agree_on masks masks' OpIngenico s -> ingenico_parse p masks s = ingenico_parse p masks' s.
Proof. intros p masks masks' s H. apply (text_masks p masks masks' OpIngenico s); [now left|assumption]. Qed.
Theorem C101_auto : forall p masks masks' s, agree_on masks masks' OpAuto s -> auto_parse p masks s = auto_parse p masks' s.
Proof.
  intros p masks masks' s H. unfold auto_parse. destruct s as [|c s]; [reflexivity|].
  rewrite (text_masks p masks masks' OpAuto (c :: s)), (bytes_masks p masks masks' OpAuto (c :: s)) by (try assumption; now right). reflexivity.
Qed.

(** ** The program *)
Lemma run_masks p st st' op s : set_sort st = set_sort st' -> agree_on (set_masking st) (set_masking st') op s -> run_one p st op s = run_one p st' op s.
Proof.
  intros O H. assert (E : tlv_result p (set_masking st) op s = tlv_result p (set_masking st') op s).
  { destruct op; cbn [tlv_result].
    8:{ rewrite (C101_auto p _ _ s H). reflexivity. }
    8:{ rewrite (bytes_masks p _ _ OpBer s (or_introl eq_refl) H). reflexivity. }
    8:{ rewrite (C101_ingenico p _ _ s H). reflexivity. }
    all: reflexivity. }
  unfold run_one. rewrite E, O. reflexivity.
Qed.
Theorem C101_program : forall p e m st e' m' st', load_settings e m = Ok st -> load_settings e' m' = Ok st' -> same_operations m m' -> set_sort st = set_sort st' ->
  (forall op s, chosen m op s -> agree_on (set_masking st) (set_masking st') op s) -> run_main p e m = run_main p e' m'.
Proof.
  intros p e m st e' m' st' L L' S O H. destruct (chosen_or_none m) as [(op & s & C)|N].
  - rewrite (main_chosen p e m st op s L C), (main_chosen p e' m' st' op s L' (same_chosen _ _ _ _ S C)). apply run_masks; [assumption|]. now apply H.
  - rewrite (main_none p e m st L N), (main_none p e' m' st' L'); [reflexivity|]. intros o. now rewrite <- S.
Qed.
(* The order of the masking characters, and characters given again, do not matter. *)
Theorem C101_set : forall p e m st e' m' st', load_settings e m = Ok st -> load_settings e' m' = Ok st' -> same_operations m m' -> set_sort st = set_sort st' ->
  (forall c, In c (set_masking st) <-> In c (set_masking st')) -> run_main p e m = run_main p e' m'.
Proof. intros p e m st e' m' st' L L' S O H. apply (C101_program p e m st e' m' st' L L' S O). intros op s _ c _. apply H. Qed.
(* A further masking character matters only if it stands twice in a row. *)
Theorem C101_added : forall p e m st e' m' st' op s c, load_settings e m = Ok st -> load_settings e' m' = Ok st' -> chosen m op s -> same_operations m m' -> set_sort st = set_sort st' ->
  set_masking st' = c :: set_masking st -> ~ repeated c op s -> run_main p e m = run_main p e' m'.
Proof.
  intros p e m st e' m' st' op s c L L' C S O M N. rewrite (main_chosen p e m st op s L C), (main_chosen p e' m' st' op s L' (same_chosen _ _ _ _ S C)). apply run_masks; [assumption|].
  intros x X. rewrite M. split; [now right|]. intros [K|K]; [subst x; contradiction|exact K].
Qed.
(* It matters, too, if it is only spelt in hex digits, in a template. *)
Theorem C101_text_refuted : exists s c, (forall a b, s <> a ++ c :: c :: b) /\ text64 p64 s /\ ingenico_parse p64 [] s <> ingenico_parse p64 [c] s.
Proof.
  exists (lit "TE1:04:h5A022A2A"), 42. split; [|split; [split; reflexivity|vm_compute; intros K; discriminate K]].
  intros a b E. vm_compute in E. do 16 (destruct a as [|? a]; [discriminate E|injection E as _ E]). destruct a; discriminate E.
Qed.
Example C101_example : let m := with_ber (lit "9B 02 F8 00 5A 02 2A 2A") in
  load_settings plain_env m = Ok (mkSettings TAuto [42] true) /\ chosen m OpBer (lit "9B 02 F8 00 5A 02 2A 2A")
  /\ agree_on [42] [35; 42; 42] OpBer (lit "9B 02 F8 00 5A 02 2A 2A") /\ repeated 42 OpBer (lit "9B 02 F8 00 5A 02 2A 2A").
Proof.
  cbv zeta. split; [vm_compute; reflexivity|]. split; [apply only_chosen; split; [reflexivity|intros []; try reflexivity; contradiction]|]. split.
  - intros c H. assert (E : hex_bytes (lit "9B 02 F8 00 5A 02 2A 2A") = [0x9B; 2; 0xF8; 0; 0x5A; 2; 42; 42]) by (vm_compute; reflexivity).
    inversion H as [op s a b O Hb|op s a b O Hb|op s a x y x' y' b O]; subst; try (destruct O; discriminate). rewrite E in Hb.
    do 6 (destruct a as [|? a]; [exfalso; cbn [app] in Hb; congruence|injection Hb as _ Hb]). destruct a as [|? a]; [injection Hb as <- _; cbn; tauto|injection Hb as _ Hb].
    destruct a as [|? a]; [exfalso; cbn [app] in Hb; congruence|injection Hb as _ Hb]. destruct a; discriminate Hb.
  - apply (repeated_bytes 42 OpBer _ [0x9B; 2; 0xF8; 0; 0x5A; 2] []); [now left|vm_compute; reflexivity].
Qed.
