(** Lemmas about builds with 32-bit pointers and data without huge announced lengths. *)

From Coq Require Import NArith String List Bool PeanoNat Lia ZifyN ZifyBool ZifyNat.
From Verif Require Import Base ModelUtil ModelEnums ModelBitflag ModelTlv ModelValues ModelProcess ModelDisplay SpecUtil SpecTlv SpecIngenico ProofsUtil ProofsBer ProofsIngenico ModelMain SpecMain SpecBuilds ProofsBuilds SpecWidth.
Import ListNotations.
Local Open Scope N_scope.

Lemma bind_same {A B} (r r' : res A) (k k' : A -> res B) : r = r' -> (forall a, r = Ok a -> k a = k' a) -> bind r k = bind r' k'.
Proof. intros <- H. destruct r as [a| | |]; cbn [bind]; [now apply H|reflexivity..]. Qed.
Lemma bind_uadd {A} p a b (k k' : N -> res A) : build p -> a + b < 2 ^ 32 -> k (a + b) = k' (a + b) -> bind (uadd p a b) k = bind (uadd release64 a b) k'.
Proof. intros B H K. rewrite (uadd32 p a b B H), (uadd32 release64 a b build_r64 H). exact K. Qed.
Lemma if_same {A} (b : bool) (x y y' : A) : (b = false -> y = y') -> (if b then x else y) = (if b then x else y').
Proof. destruct b; auto. Qed.

(** ** Bytes *)
Lemma small_part a b c : small_lengths (a ++ b ++ c) -> small_lengths b.
Proof. intros H x y z ->. apply (H (a ++ x) y (z ++ c)). rewrite <- !app_assoc. reflexivity. Qed.
Lemma slice_split {A} (l : list A) a b r : slice l a b = Ok r -> exists x y, l = x ++ r ++ y /\ len x = a /\ len x + len r = b.
Proof.
  intros H. apply slice_part in H. destruct H as [L ->]. exists (firstn (N.to_nat a) l), (skipn (N.to_nat (b - a)) (skipn (N.to_nat a) l)).
  rewrite !firstn_skipn. split; [reflexivity|]. unfold len in *. rewrite !firstn_length, skipn_length. lia.
Qed.
Lemma slice_small l a b r : small_lengths l -> slice l a b = Ok r -> small_lengths r.
Proof. intros S H. apply slice_split in H. destruct H as (x & y & -> & _). exact (small_part _ _ _ S). Qed.
Lemma land_count b : b < 256 -> 0 <? N.land 0x80 b = true -> N.land 0x7F b = 4 -> b = 0x84.
Proof.
  intros H. assert (F : forallb (fun b => implb (0 <? N.land 0x80 b) (implb (N.land 0x7F b =? 4) (b =? 0x84))) (map N.of_nat (seq 0 256)) = true) by (vm_compute; reflexivity).
  rewrite forallb_forall in F. specialize (F b). intros H1 H2. rewrite H1, H2 in F. cbn [implb N.eqb Pos.eqb] in F. apply N.eqb_eq, F, in_map_iff. exists (N.to_nat b). split; [lia|]. apply in_seq. lia.
Qed.
Lemma ber_length_small p bytes i n d : build p -> bytes_ok bytes -> fits32 bytes -> small_lengths bytes -> i < len bytes -> ber_length p bytes i = Ok (n, d) -> n < 2 ^ 31.
Proof.
  intros B O F Sm H. assert (F' : len bytes < 2147483648) by exact F. unfold ber_length. destruct (index bytes i) as [l0| | |] eqn:E; try discriminate. cbn [bind].
  pose proof (index_byte _ _ _ O E) as B0. destruct (0 <? N.land 0x80 l0) eqn:Hi.
  - pose proof (land7F l0) as C7. destruct (N.ltb_spec 4 (N.land 0x7F l0)) as [L|L]; [discriminate|]. destruct (N.eq_dec (N.land 0x7F l0) 4) as [C4|C4].
    + rewrite C4. rewrite !(uadd32 p) by (try assumption; change (2 ^ 32) with 4294967296; lia). cbn [bind].
      rewrite !(uadd32 p) by (try assumption; change (2 ^ 32) with 4294967296; lia). cbn [bind].
      destruct (N.leb_spec (len bytes) (i + (1 + 4))) as [L'|L']; [discriminate|].
      destruct (slice_incl bytes (i + 1) (i + 4)) as [s| | |] eqn:S; try discriminate. cbn [bind].
      destruct (byte_slice_to_u32 s) as [v| | |] eqn:V; try discriminate. cbn [bind]. intros K. apply ok_pair in K. destruct K as [<- _].
      assert (l0 = 0x84) by now apply land_count. subst l0. pose proof (slice_bytes _ _ _ _ O S) as Os. destruct (slice_split _ _ _ _ S) as (x & y & Eq & Lx & Ls).
      assert (Ls' : len s = 4) by lia. destruct s as [|b s]; [discriminate Ls'|]. rewrite len_cons in Ls'. assert (Ls3 : (List.length s = 3)%nat) by (unfold len in Ls'; lia).
      unfold byte_slice_to_u32 in V. rewrite byte_slice_to_uint_ok in V by (cbn [List.length]; lia). injection V as <-. apply Forall_cons_iff in Os. destruct Os as [_ Os].
      pose proof (be_value_lt s Os) as Bs. rewrite Ls3 in Bs. change (256 ^ N.of_nat 3) with 16777216 in Bs. cbn [be_value]. rewrite Ls3. change (256 ^ N.of_nat 3) with 16777216.
      assert (Hb : b < 128).
      { assert (Ex : exists x', x = x' ++ [0x84]).
        { destruct (rev x) as [|z x'] eqn:R; [apply (f_equal (@rev N)) in R; rewrite rev_involutive in R; subst x; cbn in Lx; lia|].
          apply (f_equal (@rev N)) in R. rewrite rev_involutive in R. cbn [rev] in R. exists (rev x'). rewrite R in *. f_equal. f_equal.
          unfold index in E. rewrite Eq in E. rewrite len_app in Lx. change (len [z]) with 1 in Lx. rewrite <- app_assoc in E.
          rewrite nth_error_app2 in E by (unfold len in Lx; lia). replace (N.to_nat i - List.length (rev x'))%nat with 0%nat in E by (unfold len in Lx; lia). cbn in E. congruence. }
        destruct Ex as [x' ->]. apply (Sm x' b (s ++ y)). rewrite Eq. rewrite <- app_assoc. reflexivity. }
      change (2 ^ 31) with 2147483648. pose proof (limit32 p B) as Lm. change (2 ^ 32) with 4294967296 in Lm. rewrite N.mod_small by lia. lia.
    + set (count := N.land 0x7F l0) in *. rewrite !(uadd32 p) by (try assumption; change (2 ^ 32) with 4294967296; lia). cbn [bind].
      rewrite !(uadd32 p) by (try assumption; change (2 ^ 32) with 4294967296; lia). cbn [bind].
      destruct (N.leb_spec (len bytes) (i + (1 + count))) as [L'|L']; [discriminate|].
      destruct (slice_incl bytes (i + 1) (i + count)) as [s| | |] eqn:S; try discriminate. cbn [bind].
      destruct (byte_slice_to_u32 s) as [v| | |] eqn:V; try discriminate. cbn [bind]. intros K. apply ok_pair in K. destruct K as [<- _].
      pose proof (slice_bytes _ _ _ _ O S) as Os. destruct (slice_split _ _ _ _ S) as (x & y & Eq & Lx & Ls).
      unfold byte_slice_to_u32 in V. rewrite byte_slice_to_uint_ok in V by (unfold len in *; lia). injection V as <-. pose proof (be_value_lt s Os) as Bs.
      assert (256 ^ N.of_nat (List.length s) <= 256 ^ 3) by (apply N.pow_le_mono_r; [lia|unfold len in *; lia]). change (256 ^ 3) with 16777216 in *.
      pose proof (limit32 p B) as Lm. change (2 ^ 32) with 4294967296 in Lm. rewrite N.mod_small by lia. change (2 ^ 31) with 2147483648. lia.
  - rewrite (uadd32 p) by (try assumption; change (2 ^ 32) with 4294967296; lia). cbn [bind]. intros K. apply ok_pair in K. destruct K as [<- _]. change (2 ^ 31) with 2147483648. lia.
Qed.
Lemma child_eq (parse parse' : list N -> res (list raw_node)) t d :
  (forall data, d = Normal data -> parse data = parse' data) -> get_child_block parse t d = get_child_block parse' t d.
Proof. intros H. unfold get_child_block. destruct t; [reflexivity|]. destruct d as [data|]; [|reflexivity]. now rewrite (H data eq_refl). Qed.
Lemma ber_loop_small p masks : build p -> forall fuel bytes i nodes, bytes_ok bytes -> fits32 bytes -> small_lengths bytes ->
  ber_loop fuel p masks bytes i nodes = ber_loop fuel release64 masks bytes i nodes.
Proof.
  intros B. induction fuel as [|fuel IH]; intros bytes i nodes O F Sm; [reflexivity|]. cbn [ber_loop]. assert (F' : len bytes < 2147483648) by exact F.
  destruct (N.ltb_spec i (len bytes)) as [H|H]; [|reflexivity]. destruct (index bytes i) as [t0| | |]; [|reflexivity..]. cbn [bind].
  destruct (parse_tag_metadata t0) as [meta| | |]; [|reflexivity..]. cbn [bind].
  destruct (tag_loop32 p bytes B F (List.length bytes) (N.land 0x1F t0 =? 0x1F) i H) as [T Tb]. rewrite <- T.
  destruct (ber_tag_loop (List.length bytes) p bytes (N.land 0x1F t0 =? 0x1F) i) as [te| | |]; [|reflexivity..]. cbn [bind]. specialize (Tb te eq_refl).
  rewrite (uadd32 p te), (uadd32 release64 te) by (try apply build_r64; try assumption; change (2 ^ 32) with 4294967296; lia). cbn [bind].
  destruct (N.leb_spec (len bytes) (te + 1)) as [L|L]; [reflexivity|]. destruct (ber_length32 p bytes (te + 1) B O F L) as [E Bd]. rewrite <- E.
  destruct (ber_length p bytes (te + 1)) as [[n d]| | |] eqn:El; [|reflexivity..]. cbn [bind]. destruct (Bd n d eq_refl) as [_ Hd].
  apply (ber_length_small p bytes (te + 1) n d B O F Sm L) in El. change (2 ^ 31) with 2147483648 in El.
  rewrite !(uadd32 p), !(uadd32 release64) by (try apply build_r64; try assumption; change (2 ^ 32) with 4294967296; lia). cbn [bind].
  destruct (len bytes + 1 <=? d + n); [reflexivity|]. destruct (slice bytes d (d + n)) as [data| | |] eqn:S; [|reflexivity..]. cbn [bind].
  apply bind_same.
  - apply child_eq. intros x X. apply normal_data in X. subst x. apply IH; [exact (slice_bytes _ _ _ _ O S)| |exact (slice_small _ _ _ _ Sm S)]. unfold fits32. pose proof (slice_len _ _ _ _ S). lia.
  - intros ch _. apply bind_same; [reflexivity|]. intros tag _. now apply IH.
Qed.
Lemma ber_parse_small p masks bytes : build p -> bytes_ok bytes -> fits32 bytes -> small_lengths bytes -> ber_parse p masks bytes = ber_parse release64 masks bytes.
Proof. intros B O F Sm. now apply ber_loop_small. Qed.

(** ** Digits *)
Lemma hex_value_16 c : is_hex_digitb c = true -> hex_value c < 16.
Proof. unfold is_hex_digitb, hex_value. destruct (N.leb_spec c 57), (N.leb_spec c 70); lia. Qed.
Lemma digit_84 a b : is_hex_digitb a = true -> is_hex_digitb b = true -> 16 * hex_value a + hex_value b = 0x84 -> a = 56 /\ b = 52.
Proof.
  intros A B E. pose proof (hex_value_16 a A). pose proof (hex_value_16 b B). assert (hex_value a = 8 /\ hex_value b = 4) as [Ea Eb] by lia.
  unfold is_hex_digitb, hex_value in *. split; [destruct (N.leb_spec a 57), (N.leb_spec a 70); lia|destruct (N.leb_spec b 57), (N.leb_spec b 70); lia].
Qed.
(* Three digits in a row, anywhere in the digits. *)
Definition spelt (ds : list N) : Prop := forall a x c, ds = a ++ [56; 52; x] ++ c -> hex_value x < 8.
Lemma spelt_part a b c : spelt (a ++ b ++ c) -> spelt b.
Proof. intros H u x v ->. apply (H (a ++ u) x (v ++ c)). rewrite <- !app_assoc. reflexivity. Qed.
Lemma digits_small : forall n ds, (List.length ds <= n)%nat -> Forall (fun c => is_hex_digitb c = true) ds -> spelt ds -> small_lengths (bytes_of_digits ds).
Proof.
  induction n as [|n IH]; intros ds L F Sp u b c E.
  - destruct ds; [|cbn in L; lia]. destruct u; discriminate E.
  - destruct ds as [|x [|y ds]]; [destruct u; discriminate E|destruct u; discriminate E|]. cbn [bytes_of_digits] in E. cbn [List.length] in L.
    apply Forall_cons_iff in F. destruct F as [Fx F]. apply Forall_cons_iff in F. destruct F as [Fy F]. destruct u as [|z u].
    + cbn [app] in E. assert (E1 : 16 * hex_value x + hex_value y = 0x84) by congruence. assert (E2 : bytes_of_digits ds = b :: c) by congruence. clear E.
      apply digit_84 in E1; [|assumption..]. destruct E1 as [-> ->]. destruct ds as [|v [|w ds]]; try discriminate E2. cbn [bytes_of_digits] in E2.
      assert (E3 : 16 * hex_value v + hex_value w = b) by congruence. pose proof (Sp [] v (w :: ds) eq_refl) as Hv. apply Forall_cons_iff in F. destruct F as [_ F]. apply Forall_cons_iff in F. destruct F as [Fw _].
      pose proof (hex_value_16 w Fw). lia.
    + cbn [app] in E. assert (E2 : bytes_of_digits ds = u ++ 0x84 :: b :: c) by congruence. refine (IH ds _ F _ u b c E2); [lia|].
      apply (spelt_part [x; y] ds []). now rewrite app_nil_r.
Qed.
Lemma hex_small s : small_ber s -> small_lengths (parse_hex_str s).
Proof.
  intros H. rewrite parse_hex_str_spec. apply (digits_small _ _ (le_n _)); [apply Forall_forall; intros c I; now apply filter_In in I|exact H].
Qed.
Lemma filter_hex s : Forall (fun c => is_hex_digitb c = true) s -> filter is_hex_digitb s = s.
Proof. induction 1 as [|c s H _ IH]; [reflexivity|]. cbn [filter]. now rewrite H, IH. Qed.
Lemma part_small x s y : small_ber (x ++ s ++ y) -> Forall (fun c => is_hex_digitb c = true) s -> small_lengths (bytes_of_digits s).
Proof.
  intros H F. apply (digits_small _ _ (le_n _) F). unfold small_ber in H. rewrite !filter_app, (filter_hex s F) in H. exact (spelt_part _ _ _ H).
Qed.
Lemma ascii_small s : ascii_text s -> small_lengths s.
Proof. intros A a b c ->. apply ascii_app in A. destruct A as [_ A]. apply ascii_cons in A. lia. Qed.

(** ** Text *)
Lemma skip_parts s i r : ascii_text s -> str_skip s i = Ok r -> exists x, s = x ++ r /\ len x = i.
Proof.
  revert i. induction s as [|c s IH]; intros i A; cbn [str_skip]; destruct (N.eqb_spec i 0) as [->|N].
  - intros H. injection H as <-. now exists [].
  - discriminate.
  - intros H. injection H as <-. now exists [].
  - apply ascii_cons in A. destruct A as [Hc A]. rewrite utf8_char_ascii by assumption. change (len [c]) with 1. destruct (N.leb_spec 1 i); [|discriminate].
    intros H1. apply (IH _ A) in H1. destruct H1 as (x & -> & L). exists (c :: x). split; [reflexivity|rewrite len_cons; lia].
Qed.
Lemma take_parts s i r : ascii_text s -> str_take s i = Ok r -> exists y, s = r ++ y /\ len r = i.
Proof.
  revert i r. induction s as [|c s IH]; intros i r A; cbn [str_take]; destruct (N.eqb_spec i 0) as [->|N].
  - intros H. injection H as <-. now exists [].
  - discriminate.
  - intros H. injection H as <-. now eexists.
  - apply ascii_cons in A. destruct A as [Hc A]. rewrite utf8_char_ascii by assumption. change (len [c]) with 1. destruct (N.leb_spec 1 i); [|discriminate].
    destruct (str_take s (i - 1)) as [r'| | |] eqn:T; try discriminate. cbn [bind]. intros K. injection K as <-. apply (IH _ _ A) in T. destruct T as (y & -> & L).
    exists y. split; [reflexivity|]. rewrite len_cons. lia.
Qed.
Lemma find_parts s c k : ascii_text s -> str_find s c = Some k -> exists x y, s = x ++ c :: y /\ len x = k.
Proof.
  revert k. induction s as [|x s IH]; intros k A; cbn [str_find]; [discriminate|]. apply ascii_cons in A. destruct A as [Hx A].
  destruct (N.eqb_spec x c) as [->|]; [intros H; injection H as <-; now exists [], s|]. destruct (str_find s c) as [j|]; [|discriminate]. rewrite utf8_char_ascii by assumption. change (len [x]) with 1.
  intros H. assert (E : 1 + j = k) by congruence. destruct (IH j A eq_refl) as (u & v & -> & L). exists (x :: u), v. split; [reflexivity|rewrite len_cons; lia].
Qed.
Lemma colon_parts p data i c : build p -> ascii_text data -> fits32 data -> find_colon p data i = Ok c ->
  exists x m y, data = x ++ m ++ 58 :: y /\ len x = i /\ i + len m = c.
Proof.
  intros B A F. assert (F' : len data < 2147483648) by exact F. unfold find_colon, str_slice_from. destruct (str_skip data i) as [r| | |] eqn:S; try discriminate. cbn [bind].
  apply (skip_parts _ _ _ A) in S. destruct S as (x & -> & Lx). destruct (str_find r tag_field_separator) as [k|] eqn:K; [|discriminate].
  apply ascii_app in A. destruct A as [_ A]. apply (find_parts _ _ _ A) in K. destruct K as (m & y & -> & Lm). rewrite !len_app, len_cons in F'.
  rewrite (uadd32 p) by (try assumption; change (2 ^ 32) with 4294967296; lia). intros H. assert (E : i + k = c) by congruence. exists x, m, y. repeat split; try assumption. lia.
Qed.
Lemma str_slice_parts data a b s : ascii_text data -> str_slice data a b = Ok s -> exists x y, data = x ++ s ++ y /\ len x = a /\ a + len s = b.
Proof.
  intros A. unfold str_slice. destruct (a <=? b); [|discriminate]. destruct (str_take data b) as [t| | |] eqn:T; try discriminate. cbn [bind]. intros S.
  apply (take_parts _ _ _ A) in T. destruct T as (y & -> & L). apply ascii_app in A. destruct A as [A _]. apply (skip_parts _ _ _ A) in S. destruct S as (x & -> & L').
  exists x, y. rewrite <- app_assoc. rewrite len_app in L. repeat split; [assumption|lia].
Qed.
Lemma split_same {A} (x y x' y' : list A) : x ++ y = x' ++ y' -> len x = len x' -> x = x' /\ y = y'.
Proof.
  revert x'. induction x as [|a x IH]; intros [|a' x'] E L; rewrite ?len_cons, ?len_nil in L; try lia; [now split|]. cbn [app] in E. injection E as -> E. destruct (IH x' E) as [-> ->]; [lia|now split].
Qed.
(* The number in a length field. *)
Lemma field_small ls n : Forall is_hex_digit ls -> byte_slice_to_u32 (bytes_of_digits ls) = Ok n -> len (bytes_of_digits ls) <= 4 ->
  (forall x ds, ls = x :: ds -> (7 <= List.length ds)%nat -> hex_value x < 4) -> n < 2 ^ 30.
Proof.
  intros F. assert (Fb : Forall (fun c => is_hex_digitb c = true) ls) by (apply all_hex_forall, all_hex_iff, F). pose proof (bytes_of_digits_bytes ls Fb) as O. intros V L H.
  unfold byte_slice_to_u32 in V. rewrite byte_slice_to_uint_ok in V by (unfold len in L; lia). injection V as <-. pose proof (be_value_lt _ O) as Bv. change (2 ^ 30) with 1073741824.
  destruct (Nat.le_gt_cases 8 (List.length ls)) as [L8|L8].
  - destruct ls as [|x [|y ds]]; [cbn in L8; lia|cbn in L8; lia|]. pose proof (H x (y :: ds) eq_refl ltac:(cbn [List.length] in *; lia)) as Hx. cbn [bytes_of_digits be_value] in *. rewrite len_cons in L.
    apply Forall_cons_iff in O. destruct O as [_ O]. pose proof (be_value_lt _ O) as B3. assert (P3 : 256 ^ N.of_nat (List.length (bytes_of_digits ds)) <= 256 ^ 3) by (apply N.pow_le_mono_r; [lia|unfold len in L; lia]).
    change (256 ^ 3) with 16777216 in P3. apply Forall_cons_iff in Fb. destruct Fb as [_ Fb]. apply Forall_cons_iff in Fb. destruct Fb as [Fy _]. pose proof (hex_value_16 y Fy).
    set (P := 256 ^ N.of_nat (List.length (bytes_of_digits ds))) in *. assert ((16 * hex_value x + hex_value y) * P <= 63 * P) by (apply N.mul_le_mono_r; lia). lia.
  - rewrite bytes_of_digits_length in Bv. assert (P3 : 256 ^ N.of_nat (Nat.div2 (List.length ls)) <= 256 ^ 3).
    { apply N.pow_le_mono_r; [lia|]. pose proof (Nat.div2_odd (List.length ls)). destruct (Nat.odd (List.length ls)); cbn [Nat.b2n] in *; lia. }
    change (256 ^ 3) with 16777216 in P3. lia.
Qed.
Lemma data_small p masks data n i : build p -> ascii_text data -> fits32 data -> small_ber data -> n < 2 ^ 30 -> i < len data ->
  ingenico_data p masks data n i = ingenico_data release64 masks data n i
  /\ forall d j, ingenico_data p masks data n i = Ok (d, j) -> j <= len data /\ forall x, d = Normal x -> bytes_ok x /\ fits32 x /\ small_lengths x.
Proof.
  intros B A F Sb Hn Hi. assert (F' : len data < 2147483648) by exact F. assert (Hn' : n < 1073741824) by exact Hn. assert (Lm : 4294967296 <= usize_limit p) by exact (limit32 p B).
  unfold ingenico_data. destruct (index data i) as [fm| | |]; [|split; [reflexivity|discriminate]..]. cbn [bind]. destruct (fm =? data_format_ascii); [|destruct (fm =? data_format_hex)].
  - rewrite !(uadd32 p), !(uadd32 release64) by (try apply build_r64; try assumption; change (2 ^ 32) with 4294967296; lia). cbn [bind].
    rewrite !(uadd32 p), !(uadd32 release64) by (try apply build_r64; try assumption; change (2 ^ 32) with 4294967296; lia). cbn [bind].
    split; [reflexivity|]. destruct (N.ltb_spec (len data) (i + 1 + n)); [discriminate|]. destruct (str_slice data (i + 1) (i + 1 + n)) as [s| | |] eqn:S; [|discriminate..]. cbn [bind].
    intros d j K. apply ok_pair in K. destruct K as [<- <-]. split; [assumption|]. intros x X. destruct (is_masked_str s masks); [discriminate|].
    assert (E : utf8 s = x) by congruence. subst x. apply (str_slice_ok _ _ _ _ A) in S. destruct S as (Ls & As & _). rewrite utf8_ascii by assumption.
    split; [now apply ascii_bytes|]. split; [unfold fits32; change (2 ^ 31) with 2147483648; lia|now apply ascii_small].
  - assert (D1 : umul p n 2 = Ok (n * 2)) by (apply checked_ok; lia). assert (D2 : umul release64 n 2 = Ok (n * 2)) by (apply checked_ok; rewrite limit_r64; change (2 ^ 64) with 18446744073709551616; lia). rewrite D1, D2. cbn [bind].
    rewrite !(uadd32 p), !(uadd32 release64) by (try apply build_r64; try assumption; change (2 ^ 32) with 4294967296; lia). cbn [bind].
    rewrite !(uadd32 p), !(uadd32 release64) by (try apply build_r64; try assumption; change (2 ^ 32) with 4294967296; lia). cbn [bind].
    split; [reflexivity|]. destruct (N.ltb_spec (len data) (i + 1 + n * 2)); [discriminate|]. destruct (str_slice data (i + 1) (i + 1 + n * 2)) as [s| | |] eqn:S; [|discriminate..]. cbn [bind].
    intros d j K. destruct (is_masked_str s masks).
    + apply ok_pair in K. destruct K as [<- <-]. split; [assumption|]. discriminate.
    + rewrite strict_map_err in K. destruct (all_hex s) eqn:Ah; [|discriminate]. cbn [bind] in K. apply ok_pair in K. destruct K as [<- <-]. split; [assumption|].
      intros x X. assert (E : bytes_of_digits s = x) by congruence. subst x. apply all_hex_forall in Ah. split; [now apply bytes_of_digits_bytes|].
      pose proof (str_slice_ok _ _ _ _ A S) as (Ls & _ & _). apply (str_slice_parts _ _ _ _ A) in S. destruct S as (u & v & E & _). split.
      * unfold fits32, len in *. rewrite bytes_of_digits_length. pose proof (Nat.div2_decr (List.length s) (List.length s)). change (2 ^ 31) with 2147483648. lia.
      * apply (part_small u s v); [|assumption]. now rewrite <- E.
  - split; [reflexivity|discriminate].
Qed.
Lemma bind_colon {A} p data i (k k' : N -> res A) : build p -> ascii_text data -> fits32 data ->
  (forall c, i <= c < len data -> find_colon p data i = Ok c -> k c = k' c) -> bind (find_colon p data i) k = bind (find_colon release64 data i) k'.
Proof. intros B A0 F H. destruct (colon32 p data i B A0 F) as [E Bd]. apply bind_same; [exact E|]. intros c K. apply H; [now apply Bd|assumption]. Qed.
Lemma ingenico_loop_small p masks data : build p -> ascii_text data -> fits32 data -> small_ber data -> small_ingenico data -> forall fuel i nodes,
  ingenico_loop fuel p masks data i nodes = ingenico_loop fuel release64 masks data i nodes.
Proof.
  intros B A F Sb Si. assert (F' : len data < 2147483648) by exact F. induction fuel as [|fuel IH]; intros i nodes; [reflexivity|]. cbn [ingenico_loop].
  destruct (N.ltb_spec i (len data)) as [H|H]; [|reflexivity]. apply bind_same; [reflexivity|]. intros ty _. cbv beta.
  apply bind_uadd; [assumption|change (2 ^ 32) with 4294967296; lia|]. apply if_same. intros _. apply bind_colon; try assumption. intros c Hc Fc.
  apply bind_same; [reflexivity|]. intros ts _. cbv beta. apply bind_same; [reflexivity|]. intros tb _. cbv beta zeta.
  apply bind_uadd; [assumption|change (2 ^ 32) with 4294967296; lia|]. apply if_same. intros _. apply bind_same; [reflexivity|]. intros t0 _. cbv beta.
  apply bind_same; [reflexivity|]. intros meta _. cbv beta. apply bind_colon; try assumption. intros c' Hc' Fc'.
  apply bind_same; [reflexivity|]. intros ls Ls. cbv beta. apply bind_same; [reflexivity|]. intros lb Lb. cbv beta. apply if_same. intros L4. apply N.ltb_ge in L4.
  apply bind_same; [reflexivity|]. intros n Nb. cbv beta zeta.
  assert (Hn : n < 2 ^ 30).
  { rewrite strict_map_err in Lb. destruct (all_hex ls) eqn:Ah; [|discriminate]. injection Lb as <-. apply all_hex_iff in Ah. apply (field_small ls n Ah Nb L4). intros x ds -> L7.
    apply (colon_parts p) in Fc; try assumption. destruct Fc as (x1 & m1 & y1 & E1 & L1 & M1). apply (colon_parts p) in Fc'; try assumption. destruct Fc' as (x2 & m2 & y2 & E2 & L2 & M2).
    apply (str_slice_parts _ _ _ _ A) in Ls. destruct Ls as (x3 & y3 & E3 & L3 & M3).
    assert (E13 : (x1 ++ m1 ++ [58]) ++ y1 = x3 ++ (x :: ds) ++ y3) by (rewrite <- E3, E1, <- !app_assoc; reflexivity).
    apply split_same in E13; [|rewrite !len_app; change (len [58]) with 1; lia]. destruct E13 as [<- E13].
    assert (E23 : x2 ++ (m2 ++ 58 :: y2) = (x1 ++ m1 ++ [58]) ++ ((x :: ds) ++ y3)) by (rewrite <- E2, E3; reflexivity).
    apply split_same in E23; [|rewrite !len_app in *; change (len [58]) with 1 in *; lia]. destruct E23 as [-> E23].
    apply split_same in E23; [|rewrite !len_app in *; change (len [58]) with 1 in *; lia]. destruct E23 as [-> <-].
    apply (Si (x1 ++ m1) x ds y2); [|assumption|assumption]. rewrite E3. rewrite <- !app_assoc. reflexivity. }
  assert (Hn32 : n < 2 ^ 32) by (change (2 ^ 30) with 1073741824 in Hn; change (2 ^ 32) with 4294967296; lia).
  rewrite (mod32 p n B Hn32), (mod32 release64 n build_r64 Hn32). apply bind_uadd; [assumption|change (2 ^ 32) with 4294967296; lia|]. apply if_same. intros L. apply N.leb_gt in L.
  destruct (data_small p masks data n (c' + 1) B A F Sb Hn L) as [D Db]. apply bind_same; [exact D|]. intros [d j] K. cbv beta. destruct (Db d j K) as [Hj Hd].
  apply bind_uadd; [assumption|change (2 ^ 32) with 4294967296; lia|]. destruct (negb (ty =? tag_type_emv)); [apply IH|]. apply bind_same; [|intros ch _; apply IH].
  apply child_eq. intros x X. destruct (Hd x X) as (O & Fx & Sx). now apply ber_parse_small.
Qed.
Lemma ingenico_parse_small p masks s : build p -> fits32 s -> small_ber s -> small_ingenico s -> ingenico_parse p masks s = ingenico_parse release64 masks s.
Proof. intros B F Sb Si. unfold ingenico_parse. destruct (is_ascii s) eqn:A; cbn [negb]; [|reflexivity]. apply is_ascii_iff in A. now apply ingenico_loop_small. Qed.
Lemma auto_parse_small p masks s : build p -> fits32 s -> small_ber s -> small_ingenico s -> auto_parse p masks s = auto_parse release64 masks s.
Proof.
  intros B F Sb Si. unfold auto_parse. destruct s as [|c s]; [reflexivity|]. rewrite (ingenico_parse_small p masks (c :: s) B F Sb Si).
  destruct (hex_fits _ F) as [O F']. now rewrite (ber_parse_small p masks _ B O F' (hex_small _ Sb)).
Qed.

(** ** Output: only the overflow checks matter *)
Section Output.
Variables p p' : platform.
Hypothesis Same : overflow_checks p = overflow_checks p'.
Lemma deq_let {A} (r r' : res A) k k' : r = r' -> (forall a, k a = k' a) -> dlet r k = dlet r' k'.
Proof. intros <- H. destruct r; cbn [dlet]; [apply H|reflexivity..]. Qed.
Lemma deq_then a b a' b' : a = a' -> b = b' -> a >>> b = a' >>> b'.
Proof. now intros <- <-. Qed.
Lemma deq_for {A} (l : list A) f f' : (forall x, f x = f' x) -> dfor l f = dfor l f'.
Proof. intros H. induction l as [|x l IH]; cbn [dfor]; [reflexivity|]. now rewrite H, IH. Qed.
Lemma deq_if {A} (b : bool) (x y x' y' : A) : x = x' -> y = y' -> (if b then x else y) = (if b then x' else y').
Proof. now destruct b. Qed.
Lemma checked_eq l v : checked p l v = checked p' l v.
Proof. unfold checked. now rewrite Same. Qed.
Lemma u8_sub_eq a b : u8_sub p a b = u8_sub p' a b.
Proof. unfold u8_sub. now rewrite Same. Qed.
Lemma u8_add_eq a b : u8_add p a b = u8_add p' a b.
Proof. apply checked_eq. Qed.
Lemma shl1_eq k : shl1_u64 p k = shl1_u64 p' k.
Proof. unfold shl1_u64. now rewrite Same. Qed.
Lemma arm_bits_eq l : forall acc, arm_bits p l acc = arm_bits p' l acc.
Proof. induction l as [|r l IH]; intros acc; cbn [arm_bits]; [reflexivity|]. apply bind_same; [apply shl1_eq|]. intros m _. apply IH. Qed.
Lemma shift_eq l : shift_ranges p l = shift_ranges p' l.
Proof. induction l as [|r l IH]; cbn [shift_ranges]; [reflexivity|]. apply bind_same; [apply checked_eq|]. intros o _. apply bind_same; [exact IH|]. reflexivity. Qed.
Ltac deq_step :=
  first [ reflexivity
        | apply deq_let; [first [apply u8_add_eq|apply checked_eq|apply u8_sub_eq|apply shl1_eq|apply arm_bits_eq]|intros ?]
        | apply deq_for; intros ?
        | match goal with
          | |- _ >>> _ = _ => apply deq_then
          | |- (if _ then _ else _) = _ => apply deq_if
          end ].
Lemma header_arms_eq n l : forall c, header_arms p n l c = header_arms p' n l c.
Proof. induction l as [|r l IH]; intros c; cbn [header_arms]; [reflexivity|]. repeat first [apply IH|deq_step]. Qed.
Lemma display_bits_eq n repr ranges ind show : display_bits p n repr ranges ind show = display_bits p' n repr ranges ind show.
Proof. unfold display_bits, explanation_line. repeat first [apply header_arms_eq|deq_step]. Qed.
Lemma display_cv_rules_eq ind l : forall i, display_cv_rules p ind i l = display_cv_rules p' ind i l.
Proof. induction l as [|r l IH]; intros i; cbn [display_cv_rules]; [reflexivity|]. unfold display_cv_rule_entry. repeat first [apply IH|deq_step]. Qed.
Lemma display_value_eq v ind show : display_value p v ind show = display_value p' v ind show.
Proof.
  destruct v; cbn [display_value]; unfold display_iac_default, display_iac_denial, display_iac_online, display_iad, display_cvm_list, display_bitflag;
    try (repeat first [apply display_bits_eq|apply display_cv_rules_eq|deq_step]).
  unfold display_cvm_results. apply deq_let; [|intros r; apply display_bits_eq]. unfold cvm_results_ranges. apply bind_same; [apply shift_eq|]. reflexivity.
Qed.
Lemma display_raw_eq t ind : display_raw_tag p t ind = display_raw_tag p' t ind.
Proof. unfold display_raw_tag. destruct (rt_data t) as [[|b d]|]; repeat deq_step. Qed.
Lemma display_ptag_eq t ind show : display_ptag p t ind show = display_ptag p' t ind show.
Proof. destruct t; cbn [display_ptag]; repeat first [apply display_raw_eq|apply display_value_eq|deq_step]. Qed.
Lemma display_nodes_eq f f' l : Forall (fun n => f n = f' n) l -> forall b, display_nodes f b l = display_nodes f' b l.
Proof. induction 1 as [|n l H _ IH]; intros b; cbn [display_nodes]; [reflexivity|]. now rewrite H, IH. Qed.
Lemma display_pnode_eq show : forall n ind, display_pnode p show n ind = display_pnode p' show n ind.
Proof.
  fix IH 1. intros [t c] ind. cbn [display_pnode]. apply deq_then; [apply display_ptag_eq|]. destruct c as [|n c]; [reflexivity|].
  apply deq_then; [reflexivity|]. apply deq_let; [apply checked_eq|]. intros a. apply display_nodes_eq. constructor; [apply IH|].
  induction c as [|x c IHc]; constructor; [apply IH|exact IHc].
Qed.
Lemma display_block_eq l ind show : display_block p l ind show = display_block p' l ind show.
Proof. apply display_nodes_eq. apply Forall_forall. intros n _. apply display_pnode_eq. Qed.
End Output.

(** ** The program *)
Lemma run_op_eq {A} (r r' : res A) k k' : r = r' -> (forall a, k a = k' a) -> run_op r k = run_op r' k'.
Proof. intros <- H. destruct r as [a|e| |]; cbn [run_op]; try reflexivity. now rewrite H. Qed.
Lemma run_main_small p p' e m : build p -> build p' -> overflow_checks p = overflow_checks p' -> arguments32 m -> (forall op s, given m op = Some s -> small op s) ->
  run_main p e m = run_main p' e m.
Proof.
  intros B B' Sc A Sm. unfold run_main. destruct (load_settings e m) as [st| | |]; [|reflexivity..].
  assert (V : forall A (r : res A) f, run_op r (fun v => display_value p (f v) 0 true) = run_op r (fun v => display_value p' (f v) 0 true)).
  { intros. apply run_op_eq; [reflexivity|]. intros a. now apply display_value_eq. }
  destruct (m_tvr m); [apply run_op_eq; [reflexivity|intros v; now apply display_value_eq]|].
  destruct (m_ccd_iad m); [apply run_op_eq; [reflexivity|intros v; now apply display_value_eq]|].
  destruct (m_ccd_cvr m); [apply run_op_eq; [reflexivity|intros v; now apply display_value_eq]|].
  destruct (m_tsi m); [apply run_op_eq; [reflexivity|intros v; now apply display_value_eq]|].
  destruct (m_cvm_results m); [apply run_op_eq; [reflexivity|intros v; now apply display_value_eq]|].
  destruct (m_cvm_list m); [apply run_op_eq; [reflexivity|intros v; now apply display_value_eq]|].
  destruct (m_identify m); [apply run_op_eq; [reflexivity|intros v; now apply display_value_eq]|].
  destruct (m_auto_tlv m) as [s|] eqn:E1.
  { pose proof (A OpAuto s E1) as F. destruct (Sm OpAuto s E1) as [Sb Si]. apply run_op_eq; [|intros v; apply deq_then; [reflexivity|now apply display_block_eq]].
    apply bind_same; [|reflexivity]. now rewrite (auto_parse_small p), (auto_parse_small p'). }
  destruct (m_ber_tlv m) as [s|] eqn:E2.
  { destruct (hex_fits s (A OpBer s E2)) as [O F]. pose proof (Sm OpBer s E2) as Sb. cbn [small] in Sb. apply hex_small in Sb. apply run_op_eq; [|intros v; now apply display_block_eq].
    apply bind_same; [|reflexivity]. now rewrite (ber_parse_small p), (ber_parse_small p'). }
  destruct (m_ingenico_tlv m) as [s|] eqn:E3.
  { pose proof (A OpIngenico s E3) as F. destruct (Sm OpIngenico s E3) as [Sb Si]. apply run_op_eq; [|intros v; now apply display_block_eq].
    apply bind_same; [|reflexivity]. now rewrite (ingenico_parse_small p), (ingenico_parse_small p'). }
  destruct (m_service_code m); [apply run_op_eq; [reflexivity|intros v; now apply display_value_eq]|]. reflexivity.
Qed.
