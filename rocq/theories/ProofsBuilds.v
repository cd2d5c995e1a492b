(** Lemmas about builds of the program. *)

From Coq Require Import NArith String List Bool PeanoNat Lia ZifyN ZifyBool ZifyNat.
From Verif Require Import Base ModelUtil ModelEnums ModelBitflag ModelTlv ModelValues ModelProcess ModelDisplay SpecUtil SpecTlv SpecIngenico ProofsUtil ProofsBer ProofsIngenico ModelMain SpecMain SpecBuilds.
Import ListNotations.
Local Open Scope N_scope.

Lemma limit32 p : build p -> 2 ^ 32 <= usize_limit p.
Proof. intros H. unfold usize_limit. apply N.pow_le_mono_r; [lia|exact H]. Qed.
Lemma limit_r64 : usize_limit release64 = 2 ^ 64.
Proof. reflexivity. Qed.
Lemma build_r64 : build release64.
Proof. unfold build, release64. cbn. lia. Qed.
Lemma uadd32 p a b : build p -> a + b < 2 ^ 32 -> uadd p a b = Ok (a + b).
Proof. intros B H. unfold uadd. apply checked_ok. pose proof (limit32 p B). lia. Qed.
Lemma same_refl {A} (r : res A) : same_or_crash r r.
Proof. now right. Qed.
Lemma same_bind {A B} (r r' : res A) (k k' : A -> res B) : same_or_crash r r' -> (forall a, r = Ok a -> same_or_crash (k a) (k' a)) -> same_or_crash (bind r k) (bind r' k').
Proof. intros [->| ->] H; [now left|]. destruct r' as [a| | |]; cbn [bind]; [now apply H|now right..]. Qed.

Lemma tag_loop32 p bytes : build p -> fits32 bytes -> forall fuel c i, i < len bytes ->
  ber_tag_loop fuel p bytes c i = ber_tag_loop fuel release64 bytes c i
  /\ forall e, ber_tag_loop fuel p bytes c i = Ok e -> e < len bytes.
Proof.
  intros B F. unfold fits32 in F. induction fuel as [|fuel IH]; intros c i H; cbn [ber_tag_loop]; destruct c; try (split; [reflexivity|]; intros e E; congruence).
  rewrite (uadd32 p), (uadd32 release64) by (try apply build_r64; try assumption; lia). cbn [bind].
  destruct (N.leb_spec (len bytes) (i + 1)) as [L|L]; [split; [reflexivity|discriminate]|].
  destruct (index bytes (i + 1)) as [b| | |]; try (split; [reflexivity|discriminate]). cbn [bind]. now apply IH.
Qed.
Lemma u32_bound l v : bytes_ok l -> byte_slice_to_u32 l = Ok v -> v < 2 ^ 32.
Proof.
  intros B. unfold byte_slice_to_u32. destruct (Nat.le_gt_cases (List.length l) 4) as [L|L].
  - rewrite byte_slice_to_uint_ok by assumption. intros H. injection H as <-. pose proof (be_value_lt l B) as X.
    eapply N.lt_le_trans; [exact X|]. transitivity (256 ^ 4); [apply N.pow_le_mono_r; lia|cbn; lia].
  - intros H. exfalso. unfold byte_slice_to_uint in H. destruct (Nat.leb_spec (List.length l) 4); [lia|discriminate].
Qed.
Lemma slice_part {A} (l : list A) a b r : slice l a b = Ok r -> a <= b <= len l /\ r = firstn (N.to_nat (b - a)) (skipn (N.to_nat a) l).
Proof. unfold slice. destruct ((a <=? b) && (b <=? len l)) eqn:E; [|discriminate]. intros H. injection H as <-. split; [lia|reflexivity]. Qed.
Lemma slice_len {A} (l : list A) a b r : slice l a b = Ok r -> len r <= len l.
Proof. intros H. apply slice_part in H. destruct H as [_ ->]. unfold len. rewrite firstn_length, skipn_length. lia. Qed.
Lemma slice_bytes (l : list N) a b r : bytes_ok l -> slice l a b = Ok r -> bytes_ok r.
Proof.
  intros B H. apply slice_part in H. destruct H as [_ ->]. unfold bytes_ok in *. rewrite Forall_forall in *. intros x I. apply B.
  assert (J : In x (skipn (N.to_nat a) l)) by (rewrite <- (firstn_skipn (N.to_nat (b - a)) (skipn (N.to_nat a) l)); apply in_or_app; now left).
  rewrite <- (firstn_skipn (N.to_nat a) l). apply in_or_app. now right.
Qed.
Lemma index_byte l i b : bytes_ok l -> index l i = Ok b -> b < 256.
Proof. intros B. unfold index. destruct (nth_error l (N.to_nat i)) as [x|] eqn:E; [|discriminate]. intros H. injection H as <-. apply nth_error_In in E. unfold bytes_ok, is_byte in B. rewrite Forall_forall in B. now apply B. Qed.
Lemma land7F x : N.land 0x7F x < 128.
Proof. rewrite N.land_comm. change 0x7F with (N.ones 7). rewrite N.land_ones. apply N.mod_lt. discriminate. Qed.
Lemma ok_pair {A B} (a c : A) (b d : B) : Ok (a, b) = Ok (c, d) -> a = c /\ b = d.
Proof. intros H. injection H. auto. Qed.
Lemma ber_length32 p bytes i : build p -> bytes_ok bytes -> fits32 bytes -> i < len bytes ->
  ber_length p bytes i = ber_length release64 bytes i
  /\ forall n d, ber_length p bytes i = Ok (n, d) -> n < 2 ^ 32 /\ d <= len bytes.
Proof.
  intros B O F H. unfold fits32 in F. assert (F' : len bytes < 2147483648) by exact F. unfold ber_length. destruct (index bytes i) as [l0| | |] eqn:E; try (split; [reflexivity|discriminate]). cbn [bind].
  pose proof (index_byte _ _ _ O E) as B0. destruct (0 <? N.land 0x80 l0) eqn:Hi.
  - pose proof (land7F l0) as C7. destruct (N.ltb_spec 4 (N.land 0x7F l0)) as [L|L]; [split; [reflexivity|discriminate]|]. set (count := N.land 0x7F l0) in *.
    rewrite !(uadd32 p), !(uadd32 release64) by (try apply build_r64; try assumption; change (2 ^ 32) with 4294967296; lia). cbn [bind].
    rewrite !(uadd32 p), !(uadd32 release64) by (try apply build_r64; try assumption; change (2 ^ 32) with 4294967296; lia). cbn [bind].
    destruct (N.leb_spec (len bytes) (i + (1 + count))) as [L'|L']; [split; [reflexivity|discriminate]|].
    destruct (slice_incl bytes (i + 1) (i + count)) as [s| | |] eqn:S; try (split; [reflexivity|discriminate]). cbn [bind].
    destruct (byte_slice_to_u32 s) as [v| | |] eqn:V; try (split; [reflexivity|discriminate]). cbn [bind].
    assert (Hv : v < 2 ^ 32) by (apply (u32_bound s); [exact (slice_bytes _ _ _ _ O S)|assumption]).
    rewrite !N.mod_small; [|rewrite limit_r64; change (2 ^ 64) with 18446744073709551616; change (2 ^ 32) with 4294967296 in Hv; lia|pose proof (limit32 p B); lia].
    split; [reflexivity|]. intros n d K. apply ok_pair in K. destruct K as [<- <-]. split; [assumption|lia].
  - rewrite (uadd32 p), (uadd32 release64) by (try apply build_r64; try assumption; change (2 ^ 32) with 4294967296; lia). cbn [bind].
    split; [reflexivity|]. intros n d K. apply ok_pair in K. destruct K as [<- <-]. split; [change (2 ^ 32) with 4294967296; lia|lia].
Qed.
Lemma child_same (parse parse' : list N -> res (list raw_node)) t d :
  (forall data, d = Normal data -> same_or_crash (parse data) (parse' data)) -> same_or_crash (get_child_block parse t d) (get_child_block parse' t d).
Proof.
  intros H. unfold get_child_block. destruct t; [now right|]. destruct d as [data|]; [|now right]. destruct (H data eq_refl) as [->| ->]; [now left|now right].
Qed.
Lemma normal_data data masks x : from_u8_check_for_masked data masks = Normal x -> x = data.
Proof. unfold from_u8_check_for_masked. destruct (is_masked_u8 data masks); [discriminate|]. congruence. Qed.
Lemma slice_backwards {A} (l : list A) a b : b < a -> slice l a b = Panic.
Proof. intros H. unfold slice. destruct (N.leb_spec a b); [lia|reflexivity]. Qed.
(* A sum that does not fit: a crash, or something smaller than the first part. *)
Lemma uadd_wraps p a b : build p -> a < usize_limit p -> b < usize_limit p -> usize_limit p <= a + b -> uadd p a b = Panic \/ exists c, uadd p a b = Ok c /\ c < a.
Proof.
  intros B A Hb L. pose proof (limit32 p B). unfold uadd, checked. destruct (N.ltb_spec (a + b) (usize_limit p)); [lia|]. destruct (overflow_checks p); [now left|right].
  eexists. split; [reflexivity|]. assert (E : (a + b) mod usize_limit p = a + b - usize_limit p); [|lia].
  rewrite <- (N.mod_small (a + b - usize_limit p) (usize_limit p)) by lia. rewrite <- (N.mod_add (a + b - usize_limit p) 1 (usize_limit p)) by lia. f_equal. lia.
Qed.
Lemma ber_loop_same p masks : build p -> forall fuel bytes i nodes, bytes_ok bytes -> fits32 bytes ->
  same_or_crash (ber_loop fuel p masks bytes i nodes) (ber_loop fuel release64 masks bytes i nodes).
Proof.
  intros B. induction fuel as [|fuel IH]; intros bytes i nodes O F; [now right|]. cbn [ber_loop]. assert (F' : len bytes < 2147483648) by exact F.
  destruct (N.ltb_spec i (len bytes)) as [H|H]; [|now right]. destruct (index bytes i) as [t0| | |]; [|now right..]. cbn [bind].
  destruct (parse_tag_metadata t0) as [meta| | |]; [|now right..]. cbn [bind].
  destruct (tag_loop32 p bytes B F (List.length bytes) (N.land 0x1F t0 =? 0x1F) i H) as [T Tb]. rewrite <- T.
  destruct (ber_tag_loop (List.length bytes) p bytes (N.land 0x1F t0 =? 0x1F) i) as [te| | |]; [|now right..]. cbn [bind]. specialize (Tb te eq_refl).
  rewrite (uadd32 p te), (uadd32 release64 te) by (try apply build_r64; try assumption; change (2 ^ 32) with 4294967296; lia). cbn [bind].
  destruct (N.leb_spec (len bytes) (te + 1)) as [L|L]; [now right|]. destruct (ber_length32 p bytes (te + 1) B O F L) as [E Bd]. rewrite <- E.
  destruct (ber_length p bytes (te + 1)) as [[n d]| | |]; [|now right..]. cbn [bind]. destruct (Bd n d eq_refl) as [Hn Hd].
  rewrite (uadd32 p (len bytes)), (uadd32 release64 (len bytes)) by (try apply build_r64; try assumption; change (2 ^ 32) with 4294967296; lia).
  destruct (N.lt_ge_cases (d + n) (usize_limit p)) as [Fit|Over].
  - assert (E1 : uadd p d n = Ok (d + n)) by (apply checked_ok; assumption).
    assert (E2 : uadd release64 d n = Ok (d + n)) by (apply checked_ok; rewrite limit_r64; change (2 ^ 64) with 18446744073709551616; change (2 ^ 32) with 4294967296 in Hn; lia).
    rewrite E1, E2. cbn [bind]. destruct (len bytes + 1 <=? d + n); [now right|]. destruct (slice bytes d (d + n)) as [data| | |] eqn:S; [|now right..]. cbn [bind].
    apply same_bind.
    + apply child_same. intros x X. apply normal_data in X. subst x. apply IH; [exact (slice_bytes _ _ _ _ O S)|]. unfold fits32. pose proof (slice_len _ _ _ _ S). lia.
    + intros ch _. apply same_bind; [now right|]. intros tag _. now apply IH.
  - left. pose proof (limit32 p B) as Lm. change (2 ^ 32) with 4294967296 in Lm, Hn. destruct (uadd_wraps p d n B) as [U|(c & U & Hc)]; try assumption; [lia|lia|rewrite U; reflexivity|].
    rewrite U. cbn [bind]. destruct (N.leb_spec (len bytes + 1) c); [lia|]. now rewrite slice_backwards.
Qed.
Lemma ber_parse_same p masks bytes : build p -> bytes_ok bytes -> fits32 bytes -> same_or_crash (ber_parse p masks bytes) (ber_parse release64 masks bytes).
Proof. intros B O F. now apply ber_loop_same. Qed.

Lemma skip_ascii s i r : ascii_text s -> str_skip s i = Ok r -> i + len r = len s /\ ascii_text r.
Proof.
  revert i. induction s as [|c s IH]; intros i A; cbn [str_skip]; destruct (N.eqb_spec i 0) as [->|N].
  - intros H. injection H as <-. split; [reflexivity|assumption].
  - discriminate.
  - intros H. injection H as <-. split; [reflexivity|assumption].
  - apply ascii_cons in A. destruct A as [Hc A]. rewrite utf8_char_ascii by assumption. change (len [c]) with 1. destruct (N.leb_spec 1 i); [|discriminate].
    intros H1. apply (IH _ A) in H1. rewrite len_cons. split; [lia|apply H1].
Qed.
Lemma take_ascii s i r : ascii_text s -> str_take s i = Ok r -> i = len r /\ len r <= len s /\ ascii_text r.
Proof.
  revert i r. induction s as [|c s IH]; intros i r A; cbn [str_take]; destruct (N.eqb_spec i 0) as [->|N].
  - intros H. injection H as <-. repeat split; [unfold len; cbn; lia|constructor].
  - discriminate.
  - intros H. injection H as <-. repeat split; [unfold len; cbn; lia|constructor].
  - apply ascii_cons in A. destruct A as [Hc A]. rewrite utf8_char_ascii by assumption. change (len [c]) with 1. destruct (N.leb_spec 1 i); [|discriminate].
    destruct (str_take s (i - 1)) as [r'| | |] eqn:T; try discriminate. cbn [bind]. intros K. injection K as <-. apply (IH _ _ A) in T. rewrite !len_cons.
    split; [lia|]. split; [lia|]. apply ascii_cons. tauto.
Qed.
Lemma find_bound s c k : ascii_text s -> str_find s c = Some k -> k < len s.
Proof.
  revert k. induction s as [|x s IH]; intros k A; cbn [str_find]; [discriminate|]. apply ascii_cons in A. destruct A as [Hx A]. rewrite len_cons.
  destruct (x =? c); [intros H; injection H as <-; lia|]. destruct (str_find s c) as [j|]; [|discriminate]. rewrite utf8_char_ascii by assumption. change (len [x]) with 1.
  intros H. assert (E : 1 + j = k) by congruence. specialize (IH j A eq_refl). lia.
Qed.
Lemma colon32 p data i : build p -> ascii_text data -> fits32 data ->
  find_colon p data i = find_colon release64 data i /\ forall c, find_colon p data i = Ok c -> i <= c < len data.
Proof.
  intros B A F. assert (F' : len data < 2147483648) by exact F. unfold find_colon, str_slice_from. destruct (str_skip data i) as [r| | |] eqn:S; try (split; [reflexivity|discriminate]). cbn [bind].
  apply (skip_ascii _ _ _ A) in S. destruct S as [L Ar]. destruct (str_find r tag_field_separator) as [k|] eqn:K; [|split; [reflexivity|discriminate]].
  apply (find_bound _ _ _ Ar) in K. rewrite (uadd32 p), (uadd32 release64) by (try apply build_r64; try assumption; change (2 ^ 32) with 4294967296; lia).
  split; [reflexivity|]. intros c H. assert (E : i + k = c) by congruence. lia.
Qed.
Lemma str_slice_ok data a b s : ascii_text data -> str_slice data a b = Ok s -> len s <= len data /\ ascii_text s /\ b <= len data.
Proof.
  intros A. unfold str_slice. destruct (a <=? b); [|discriminate]. destruct (str_take data b) as [t| | |] eqn:T; try discriminate. cbn [bind]. intros S.
  apply (take_ascii _ _ _ A) in T. destruct T as (-> & L & At). apply (skip_ascii _ _ _ At) in S. split; [lia|]. split; [apply S|assumption].
Qed.
Lemma str_slice_backwards data a b : b < a -> str_slice data a b = Panic.
Proof. intros H. unfold str_slice. destruct (N.leb_spec a b); [lia|reflexivity]. Qed.

Lemma strict_data s b : map_err (parse_hex_str_strict s) NonCompliant = Ok b -> bytes_ok b /\ len b <= len s.
Proof.
  rewrite strict_map_err. destruct (all_hex s) eqn:E; [|discriminate]. intros H. injection H as <-. split; [now apply bytes_of_digits_bytes, all_hex_forall|].
  unfold len. rewrite bytes_of_digits_length. pose proof (Nat.div2_decr (List.length s) (List.length s)). lia.
Qed.
Lemma data32 p masks data n i : build p -> doubling_safe p -> ascii_text data -> fits32 data -> n < 2 ^ 32 -> i < len data ->
  same_or_crash (ingenico_data p masks data n i) (ingenico_data release64 masks data n i)
  /\ forall d j, ingenico_data p masks data n i = Ok (d, j) -> j <= len data /\ forall x, d = Normal x -> bytes_ok x /\ fits32 x.
Proof.
  intros B Sf A F Hn Hi. assert (F' : len data < 2147483648) by exact F. assert (Hn' : n < 4294967296) by exact Hn. assert (Lm : 4294967296 <= usize_limit p) by exact (limit32 p B).
  assert (Lr : usize_limit release64 = 18446744073709551616) by reflexivity.
  unfold ingenico_data. destruct (index data i) as [fm| | |]; [|split; [now right|discriminate]..]. cbn [bind]. destruct (fm =? data_format_ascii); [|destruct (fm =? data_format_hex)].
  - rewrite (uadd32 p i), (uadd32 release64 i) by (try apply build_r64; try assumption; change (2 ^ 32) with 4294967296; lia). cbn [bind].
    destruct (N.lt_ge_cases (i + 1 + n) (usize_limit p)) as [Fit|Over].
    + assert (E1 : uadd p (i + 1) n = Ok (i + 1 + n)) by (apply checked_ok; assumption).
      assert (E2 : uadd release64 (i + 1) n = Ok (i + 1 + n)) by (apply checked_ok; rewrite Lr; lia). rewrite E1, E2. cbn [bind].
      destruct (N.ltb_spec (len data) (i + 1 + n)); [split; [now right|discriminate]|]. destruct (str_slice data (i + 1) (i + 1 + n)) as [s| | |] eqn:S; [|split; [now right|discriminate]..]. cbn [bind].
      split; [now right|]. intros d j K. apply ok_pair in K. destruct K as [<- <-]. split; [assumption|]. intros x X. destruct (is_masked_str s masks); [discriminate|].
      assert (E : utf8 s = x) by congruence. subst x. apply (str_slice_ok _ _ _ _ A) in S. destruct S as (Ls & As & _). rewrite utf8_ascii by assumption. split; [now apply ascii_bytes|unfold fits32; change (2 ^ 31) with 2147483648; lia].
    + destruct (uadd_wraps p (i + 1) n B) as [U|(c & U & Hc)]; try lia; rewrite U; cbn [bind]; [split; [now left|discriminate]|].
      destruct (N.ltb_spec (len data) c); [lia|]. rewrite str_slice_backwards by assumption. split; [now left|discriminate].
  - assert (D : umul p n 2 = Panic \/ umul p n 2 = Ok (n * 2) /\ n * 2 < usize_limit p).
    { unfold umul, checked. destruct (N.ltb_spec (n * 2) (usize_limit p)); [now right|]. destruct Sf as [->|Wd]; [now left|]. exfalso.
      assert (2 ^ 33 <= usize_limit p) by (unfold usize_limit; apply N.pow_le_mono_r; [lia|exact Wd]). change (2 ^ 33) with 8589934592 in *. lia. }
    destruct D as [D|[D Hm]]; rewrite D; cbn [bind]; [split; [now left|discriminate]|].
    assert (D2 : umul release64 n 2 = Ok (n * 2)) by (apply checked_ok; rewrite Lr; lia). rewrite D2. cbn [bind]. set (m := n * 2) in *. assert (Hm2 : m < 8589934592) by (unfold m; lia).
    rewrite (uadd32 p i), (uadd32 release64 i) by (try apply build_r64; try assumption; change (2 ^ 32) with 4294967296; lia). cbn [bind].
    destruct (N.lt_ge_cases (i + 1 + m) (usize_limit p)) as [Fit|Over].
    + assert (E1 : uadd p (i + 1) m = Ok (i + 1 + m)) by (apply checked_ok; assumption).
      assert (E2 : uadd release64 (i + 1) m = Ok (i + 1 + m)) by (apply checked_ok; rewrite Lr; lia). rewrite E1, E2. cbn [bind].
      destruct (N.ltb_spec (len data) (i + 1 + m)); [split; [now right|discriminate]|]. destruct (str_slice data (i + 1) (i + 1 + m)) as [s| | |] eqn:S; [|split; [now right|discriminate]..]. cbn [bind].
      split; [now right|]. intros d j K. destruct (is_masked_str s masks).
      * apply ok_pair in K. destruct K as [<- <-]. split; [assumption|]. discriminate.
      * destruct (map_err (parse_hex_str_strict s) NonCompliant) as [b| | |] eqn:H1; try discriminate. cbn [bind] in K. apply ok_pair in K. destruct K as [<- <-]. split; [assumption|].
        intros x X. assert (E : b = x) by congruence. subst x. apply strict_data in H1. apply (str_slice_ok _ _ _ _ A) in S. split; [apply H1|unfold fits32; change (2 ^ 31) with 2147483648; lia].
    + destruct (uadd_wraps p (i + 1) m B) as [U|(c & U & Hc)]; try lia; rewrite U; cbn [bind]; [split; [now left|discriminate]|].
      destruct (N.ltb_spec (len data) c); [lia|]. rewrite str_slice_backwards by assumption. split; [now left|discriminate].
  - split; [now right|discriminate].
Qed.
Lemma mod32 p n : build p -> n < 2 ^ 32 -> n mod usize_limit p = n.
Proof. intros B H. apply N.mod_small. pose proof (limit32 p B). lia. Qed.
Lemma same_uadd {A} p a b (k k' : N -> res A) : build p -> a + b < 2 ^ 32 -> same_or_crash (k (a + b)) (k' (a + b)) ->
  same_or_crash (bind (uadd p a b) k) (bind (uadd release64 a b) k').
Proof. intros B H K. rewrite (uadd32 p a b B H), (uadd32 release64 a b build_r64 H). exact K. Qed.
Lemma same_colon {A} p data i (k k' : N -> res A) : build p -> ascii_text data -> fits32 data ->
  (forall c, i <= c < len data -> same_or_crash (k c) (k' c)) -> same_or_crash (bind (find_colon p data i) k) (bind (find_colon release64 data i) k').
Proof. intros B A0 F H. destruct (colon32 p data i B A0 F) as [E Bd]. apply same_bind; [right; exact E|]. intros c K. apply H. now apply Bd. Qed.
Lemma same_if {A} (b : bool) (x y y' : res A) : (b = false -> same_or_crash y y') -> same_or_crash (if b then x else y) (if b then x else y').
Proof. intros H. destruct b; [now right|now apply H]. Qed.
Lemma ingenico_loop_same p masks data : build p -> doubling_safe p -> ascii_text data -> fits32 data -> forall fuel i nodes,
  same_or_crash (ingenico_loop fuel p masks data i nodes) (ingenico_loop fuel release64 masks data i nodes).
Proof.
  intros B Sf A F. assert (F' : len data < 2147483648) by exact F. induction fuel as [|fuel IH]; intros i nodes; [now right|]. cbn [ingenico_loop].
  destruct (N.ltb_spec i (len data)) as [H|H]; [|apply same_refl]. apply same_bind; [apply same_refl|]. intros ty _. cbv beta.
  apply same_uadd; [assumption|change (2 ^ 32) with 4294967296; lia|]. apply same_if. intros _. apply same_colon; try assumption. intros c Hc.
  apply same_bind; [apply same_refl|]. intros ts _. cbv beta. apply same_bind; [apply same_refl|]. intros tb _. cbv beta zeta.
  apply same_uadd; [assumption|change (2 ^ 32) with 4294967296; lia|]. apply same_if. intros _. apply same_bind; [apply same_refl|]. intros t0 _. cbv beta.
  apply same_bind; [apply same_refl|]. intros meta _. cbv beta. apply same_colon; try assumption. intros c' Hc'.
  apply same_bind; [apply same_refl|]. intros ls _. cbv beta. apply same_bind; [apply same_refl|]. intros lb Lb. cbv beta. apply same_if. intros _.
  apply same_bind; [apply same_refl|]. intros n Nb. cbv beta zeta. apply strict_data in Lb. assert (Hn : n < 2 ^ 32) by (apply (u32_bound lb); [apply Lb|assumption]).
  rewrite (mod32 p n B Hn), (mod32 release64 n build_r64 Hn). apply same_uadd; [assumption|change (2 ^ 32) with 4294967296; lia|]. apply same_if. intros L. apply N.leb_gt in L.
  destruct (data32 p masks data n (c' + 1) B Sf A F Hn L) as [D Db]. apply same_bind; [exact D|]. intros [d j] K. cbv beta. destruct (Db d j K) as [Hj Hd].
  apply same_uadd; [assumption|change (2 ^ 32) with 4294967296; lia|]. destruct (negb (ty =? tag_type_emv)); [apply IH|]. apply same_bind; [|intros ch _; apply IH].
  apply child_same. intros x X. destruct (Hd x X). now apply ber_parse_same.
Qed.
Lemma ingenico_parse_same p masks s : build p -> doubling_safe p -> fits32 s -> same_or_crash (ingenico_parse p masks s) (ingenico_parse release64 masks s).
Proof. intros B Sf F. unfold ingenico_parse. destruct (is_ascii s) eqn:A; cbn [negb]; [|now right]. apply is_ascii_iff in A. now apply ingenico_loop_same. Qed.
Lemma hex_fits s : fits32 s -> bytes_ok (parse_hex_str s) /\ fits32 (parse_hex_str s).
Proof.
  intros F. rewrite parse_hex_str_spec. assert (X : Forall (fun c => is_hex_digitb c = true) (filter is_hex_digitb s)) by (apply Forall_forall; intros c I; now apply filter_In in I).
  split; [now apply bytes_of_digits_bytes|]. unfold fits32, len in *. rewrite bytes_of_digits_length.
  assert (L : (List.length (filter is_hex_digitb s) <= List.length s)%nat) by (clear; induction s as [|c s IH]; cbn; [lia|destruct (is_hex_digitb c); cbn; lia]).
  pose proof (Nat.div2_decr (List.length (filter is_hex_digitb s)) (List.length (filter is_hex_digitb s))). lia.
Qed.
Lemma auto_parse_same p masks s : build p -> doubling_safe p -> fits32 s -> same_or_crash (auto_parse p masks s) (auto_parse release64 masks s).
Proof.
  intros B Sf F. unfold auto_parse. destruct s as [|c s]; [now right|]. destruct (ingenico_parse_same p masks (c :: s) B Sf F) as [->| ->]; [now left|].
  destruct (ingenico_parse release64 masks (c :: s)) as [b|e| |]; [apply same_refl| |apply same_refl|apply same_refl]. destruct (hex_fits _ F) as [O F']. destruct (ber_parse_same p masks _ B O F') as [->| ->]; [now left|apply same_refl].
Qed.

(** ** Output *)
Definition dsame (d d' : disp) : Prop := dead d = true \/ d = d'.
Lemma dsame_refl d : dsame d d.
Proof. now right. Qed.
Lemma dsame_then a b a' b' : dsame a a' -> dsame b b' -> dsame (a >>> b) (a' >>> b').
Proof.
  intros [H| ->] [K| ->]; unfold dsame, dthen.
  - left. now rewrite H.
  - left. now rewrite H.
  - destruct (dead a') eqn:E; [now right|]. left. exact K.
  - now right.
Qed.
Lemma dsame_let {A} (r r' : res A) k k' : same_or_crash r r' -> (forall a, dsame (k a) (k' a)) -> dsame (dlet r k) (dlet r' k').
Proof. intros [->| ->] H; [now left|]. destruct r'; cbn [dlet]; [apply H|now right..]. Qed.
Lemma dsame_for {A} (l : list A) f f' : (forall x, dsame (f x) (f' x)) -> dsame (dfor l f) (dfor l f').
Proof. intros H. induction l as [|x l IH]; cbn [dfor]; [now right|]. apply dsame_then; [apply H|exact IH]. Qed.
Lemma dsame_if (b : bool) x y x' y' : dsame x x' -> dsame y y' -> dsame (if b then x else y) (if b then x' else y').
Proof. now destruct b. Qed.
Lemma checked_same p l v : same_or_crash (checked p l v) (checked release64 l v).
Proof. unfold checked, release64. cbn [overflow_checks]. destruct (v <? l); [now right|]. destruct (overflow_checks p); [now left|now right]. Qed.
Lemma u8_add_same p a b : same_or_crash (u8_add p a b) (u8_add release64 a b).
Proof. apply checked_same. Qed.
Lemma u8_sub_same p a b : same_or_crash (u8_sub p a b) (u8_sub release64 a b).
Proof. unfold u8_sub, release64. cbn [overflow_checks]. destruct (b <=? a); [now right|]. destruct (overflow_checks p); [now left|now right]. Qed.
Lemma shl1_same p k : same_or_crash (shl1_u64 p k) (shl1_u64 release64 k).
Proof. unfold shl1_u64, release64. cbn [overflow_checks]. destruct (k <? 64); [now right|]. destruct (overflow_checks p); [now left|now right]. Qed.
Lemma arm_bits_same p l : forall acc, same_or_crash (arm_bits p l acc) (arm_bits release64 l acc).
Proof. induction l as [|r l IH]; intros acc; cbn [arm_bits]; [now right|]. apply same_bind; [apply shl1_same|]. intros m _. apply IH. Qed.
Lemma shift_same p l : same_or_crash (shift_ranges p l) (shift_ranges release64 l).
Proof.
  induction l as [|r l IH]; cbn [shift_ranges]; [now right|]. apply same_bind; [apply u8_add_same|]. intros o _. apply same_bind; [exact IH|]. intros t _. now right.
Qed.
Ltac dsame_step :=
  first [ apply dsame_refl
        | apply dsame_then
        | apply dsame_let; [first [apply u8_add_same|apply u8_sub_same|apply shl1_same|apply arm_bits_same|apply checked_same]|intros ?]
        | apply dsame_for; intros ?
        | apply dsame_if ].
Lemma header_arms_same p n l : forall c, dsame (header_arms p n l c) (header_arms release64 n l c).
Proof.
  induction l as [|r l IH]; intros c; cbn [header_arms]; [now right|]. repeat first [apply IH|dsame_step].
Qed.
Lemma display_bits_same p n repr ranges ind show : dsame (display_bits p n repr ranges ind show) (display_bits release64 n repr ranges ind show).
Proof. unfold display_bits, explanation_line. repeat first [apply header_arms_same|dsame_step]. Qed.
Lemma display_cv_rules_same p ind l : forall i, dsame (display_cv_rules p ind i l) (display_cv_rules release64 ind i l).
Proof. induction l as [|r l IH]; intros i; cbn [display_cv_rules]; [now right|]. unfold display_cv_rule_entry. repeat first [apply IH|dsame_step]. Qed.
Lemma display_value_same p v ind show : dsame (display_value p v ind show) (display_value release64 v ind show).
Proof.
  destruct v; cbn [display_value]; unfold display_iac_default, display_iac_denial, display_iac_online, display_iad, display_cvm_list, display_bitflag;
    try (repeat first [apply display_bits_same|apply display_cv_rules_same|dsame_step]).
  unfold display_cvm_results. apply dsame_let; [|intros r; apply display_bits_same]. unfold cvm_results_ranges. apply same_bind; [apply shift_same|]. intros l _. now right.
Qed.
Lemma display_raw_same p t ind : dsame (display_raw_tag p t ind) (display_raw_tag release64 t ind).
Proof. unfold display_raw_tag. destruct (rt_data t) as [[|b d]|]; repeat dsame_step. Qed.
Lemma display_ptag_same p t ind show : dsame (display_ptag p t ind show) (display_ptag release64 t ind show).
Proof. destruct t; cbn [display_ptag]; repeat first [apply display_raw_same|apply display_value_same|dsame_step]. Qed.
Lemma display_nodes_same f f' l : Forall (fun n => dsame (f n) (f' n)) l -> forall b, dsame (display_nodes f b l) (display_nodes f' b l).
Proof. induction 1 as [|n l H _ IH]; intros b; cbn [display_nodes]; [now right|]. repeat first [exact H|apply IH|dsame_step]. Qed.
Lemma display_pnode_same p show : forall n ind, dsame (display_pnode p show n ind) (display_pnode release64 show n ind).
Proof.
  fix IH 1. intros [t c] ind. cbn [display_pnode]. apply dsame_then; [apply display_ptag_same|]. destruct c as [|n c]; [apply dsame_refl|].
  apply dsame_then; [apply dsame_refl|]. apply dsame_let; [apply u8_add_same|]. intros a. apply display_nodes_same. constructor; [apply IH|].
  induction c as [|x c IHc]; constructor; [apply IH|exact IHc].
Qed.
Lemma display_block_same p l ind show : dsame (display_block p l ind show) (display_block release64 l ind show).
Proof. apply display_nodes_same. apply Forall_forall. intros n _. apply display_pnode_same. Qed.

(** ** The program *)
Lemma run_op_same {A} (r r' : res A) k k' : same_or_crash r r' -> (forall a, dsame (k a) (k' a)) -> outcome_same_or_crash (run_op r k) (run_op r' k').
Proof.
  intros [->| ->] H; [now left|]. destruct r' as [a|e| |]; cbn [run_op]; try now right. destruct (H a) as [D| ->]; [left; exact D|right; reflexivity].
Qed.
Lemma run_main_same p e m : build p -> arguments32 m -> (doubling_safe p \/ m_auto_tlv m = None /\ m_ingenico_tlv m = None) ->
  outcome_same_or_crash (run_main p e m) (run_main release64 e m).
Proof.
  intros B A Sf. unfold run_main. destruct (load_settings e m) as [st| | |]; [|now right..].
  destruct (m_tvr m); [apply run_op_same; [now right|intros v; apply display_value_same]|].
  destruct (m_ccd_iad m); [apply run_op_same; [now right|intros v; apply display_value_same]|].
  destruct (m_ccd_cvr m); [apply run_op_same; [now right|intros v; apply display_value_same]|].
  destruct (m_tsi m); [apply run_op_same; [now right|intros v; apply display_value_same]|].
  destruct (m_cvm_results m); [apply run_op_same; [now right|intros v; apply display_value_same]|].
  destruct (m_cvm_list m); [apply run_op_same; [now right|intros v; apply display_value_same]|].
  destruct (m_identify m); [apply run_op_same; [now right|intros v; apply display_value_same]|].
  destruct (m_auto_tlv m) as [s|] eqn:E1.
  { destruct Sf as [Sf|[Sf _]]; [|discriminate]. apply run_op_same; [|intros v; apply dsame_then; [apply dsame_refl|apply display_block_same]].
    apply same_bind; [apply auto_parse_same; [assumption|assumption|exact (A OpAuto s E1)]|]. intros a _. apply same_refl. }
  destruct (m_ber_tlv m) as [s|] eqn:E2.
  { destruct (hex_fits s (A OpBer s E2)) as [O F]. apply run_op_same; [|intros v; apply display_block_same]. apply same_bind; [now apply ber_parse_same|]. intros a _. apply same_refl. }
  destruct (m_ingenico_tlv m) as [s|] eqn:E3.
  { destruct Sf as [Sf|[_ Sf]]; [|discriminate]. apply run_op_same; [|intros v; apply display_block_same]. apply same_bind; [apply ingenico_parse_same; [assumption|assumption|exact (A OpIngenico s E3)]|]. intros a _. apply same_refl. }
  destruct (m_service_code m); [apply run_op_same; [now right|intros v; apply display_value_same]|]. now right.
Qed.
