(** Final theorems for C01-C08 (src/util.rs). *)

From Coq Require Import ZArith NArith List String Ascii Bool Lia.
From Verif Require Import Base ModelUtil SpecUtil ProofsUtil.
Import ListNotations.
Local Open Scope N_scope.

(** C01: bytes -> text -> bytes, with two upper-case digits per byte. *)
Theorem C01_hex_round_trip : forall l, bytes_ok l ->
  bytes_to_str l = Ok (hex_text l)
  /\ parse_hex_str (hex_text l) = l
  /\ parse_hex_str_strict (hex_text l) = Ok l.
Proof.
  intros l H. split; [now apply bytes_to_str_spec|].
  pose proof (hex_text_digits l H) as F. split.
  - rewrite parse_hex_str_spec, filter_all by assumption. now apply bytes_of_hex_text.
  - rewrite parse_hex_str_strict_spec.
    rewrite (proj2 (forallb_forall _ _)) by (now apply Forall_forall).
    now rewrite bytes_of_hex_text.
Qed.

Example C01_example : bytes_ok [0xDE; 0xAD; 0x00; 0x9f] /\ hex_text [0xDE; 0xAD; 0x00; 0x9f] = lit "DEAD009F".
Proof. split; [repeat constructor; unfold is_byte; lia|reflexivity]. Qed.

(** C02: lenient reading depends only on the hex digits. *)
Theorem C02_lenient_hex : forall s,
  let ds := filter is_hex_digitb s in
  (forall c, In c ds <-> In c s /\ is_hex_digit c)
  /\ List.length (parse_hex_str s) = Nat.div2 (List.length ds)
  /\ forall k a b, nth_error ds (2 * k) = Some a -> nth_error ds (2 * k + 1) = Some b ->
       nth_error (parse_hex_str s) k = Some (16 * hex_value a + hex_value b).
Proof.
  intros s ds. split; [|split].
  - intros c. unfold ds. rewrite filter_In, is_hex_digitb_spec. tauto.
  - rewrite parse_hex_str_spec. apply bytes_of_digits_length.
  - intros k a b Ha Hb. rewrite parse_hex_str_spec. now apply bytes_of_digits_nth.
Qed.

Theorem C02_lenient_hex_ignores_others : forall s1 c s2, ~ is_hex_digit c ->
  parse_hex_str (s1 ++ c :: s2) = parse_hex_str (s1 ++ s2).
Proof.
  intros s1 c s2 H. rewrite !parse_hex_str_spec, !filter_app. cbn [filter].
  destruct (is_hex_digitb c) eqn:E; [|reflexivity]. apply is_hex_digitb_spec in E. contradiction.
Qed.

Theorem C02_lenient_hex_case : forall s, parse_hex_str (map upper_hex s) = parse_hex_str s.
Proof.
  intros s. rewrite !parse_hex_str_spec.
  assert (E : forall c, is_hex_digitb (upper_hex c) = is_hex_digitb c
                        /\ (is_hex_digitb c = true -> hex_value (upper_hex c) = hex_value c)).
  { intros c. unfold is_hex_digitb, upper_hex, hex_value.
    destruct (N.leb_spec 97 c), (N.leb_spec c 102); cbn [andb]; split; intros; bdestr;
      cbn [andb orb] in *; try reflexivity; try discriminate; lia. }
  assert (F : filter is_hex_digitb (map upper_hex s) = map upper_hex (filter is_hex_digitb s)).
  { induction s as [|c s IH]; [reflexivity|]. cbn [map filter]. rewrite (proj1 (E c)).
    destruct (is_hex_digitb c); cbn [map]; now rewrite IH. }
  rewrite F. pose proof (Forall_filter is_hex_digitb s) as A. revert A.
  generalize (filter is_hex_digitb s) as ds. intros ds.
  induction ds as [|a|a b l IH] using list_pair_ind; intros A; [reflexivity|reflexivity|].
  inversion A as [|? ? Ha A']; subst; inversion A' as [|? ? Hb Hl]; subst.
  cbn [map bytes_of_digits]. rewrite IH by assumption.
  now rewrite (proj2 (E a) Ha), (proj2 (E b) Hb).
Qed.

Example C02_example :
  filter is_hex_digitb (lit "9f-1" ++ [0xE9; 0x20AC] ++ lit "A0") = lit "9f1A0"
  /\ parse_hex_str (lit "9f-1" ++ [0xE9; 0x20AC] ++ lit "A0") = [0x9F; 0x1A]
  /\ ~ is_hex_digit 0x20AC.
Proof. repeat split; try reflexivity. unfold is_hex_digit. lia. Qed.

(** C03: strict reading. *)
Theorem C03_strict_hex : forall s,
  (Forall is_hex_digit s -> parse_hex_str_strict s = Ok (parse_hex_str s))
  /\ (~ Forall is_hex_digit s -> parse_hex_str_strict s = Err InvalidBytes).
Proof.
  intros s. rewrite parse_hex_str_strict_spec, parse_hex_str_spec.
  assert (E : forallb is_hex_digitb s = true <-> Forall is_hex_digit s).
  { rewrite forallb_forall, Forall_forall. split; intros H c Hc; specialize (H c Hc);
    now apply is_hex_digitb_spec. }
  destruct (forallb is_hex_digitb s) eqn:B.
  - split; [|intros H; exfalso; apply H, E; reflexivity].
    intros _. rewrite filter_all; [reflexivity|]. now apply Forall_forall, forallb_forall.
  - split; [|reflexivity]. intros H. apply E in H. discriminate.
Qed.

Example C03_example : Forall is_hex_digit (lit "0aF") /\ ~ Forall is_hex_digit (lit "0 F").
Proof.
  split.
  - vm_compute lit. repeat apply Forall_cons; try apply Forall_nil; unfold is_hex_digit; lia.
  - vm_compute lit. intros H. inversion H as [|? ? _ H']. inversion H' as [|? ? H'' _].
    unfold is_hex_digit in H''. lia.
Qed.

(** C04: strict reading is lossless exactly for an even digit count. *)
Theorem C04_strict_lossless_iff_even : forall s b, parse_hex_str_strict s = Ok b ->
  (hex_text b = map upper_hex s <-> Nat.even (List.length s) = true).
Proof.
  intros s b H. rewrite parse_hex_str_strict_spec in H.
  destruct (forallb is_hex_digitb s) eqn:E; [|discriminate]. inversion H; subst.
  apply hex_round_trip_iff. now apply Forall_forall, forallb_forall.
Qed.

(* An odd last digit is dropped: the text and the text without it are read alike. *)
Theorem C04_strict_drops_odd_digit : forall s d, Nat.even (List.length s) = true -> is_hex_digit d ->
  parse_hex_str_strict (s ++ [d]) = parse_hex_str_strict s.
Proof.
  intros s d He Hd. rewrite !parse_hex_str_strict_spec, forallb_app. cbn [forallb].
  apply is_hex_digitb_spec in Hd. rewrite Hd, andb_true_r.
  destruct (forallb is_hex_digitb s); [|reflexivity]. f_equal. revert He. clear.
  induction s as [|a|a b l IH] using list_pair_ind; intros He; [reflexivity|discriminate|].
  cbn [app bytes_of_digits]. now rewrite IH.
Qed.

(* "Strict" reading rejects half bytes: false. *)
Theorem C04_strict_rejects_half_bytes_refuted :
  exists s b, parse_hex_str_strict s = Ok b /\ List.length s <> (2 * List.length b)%nat.
Proof. exists (lit "123"), [0x12]. split; [reflexivity|discriminate]. Qed.

Example C04_example : parse_hex_str_strict (lit "9f02") = Ok [0x9F; 2] /\ Nat.even (List.length (lit "9f02")) = true
  /\ parse_hex_str_strict (lit "9f021") = Ok [0x9F; 2].
Proof. repeat split. Qed.

(** C05: big-endian numbers. *)
Theorem C05_byte_slice_to_u32 : forall l,
  ((List.length l <= 4)%nat -> byte_slice_to_u32 l = Ok (be_value l)
                               /\ (bytes_ok l -> be_value l < 2 ^ 32))
  /\ ((4 < List.length l)%nat -> byte_slice_to_u32 l = Panic).
Proof.
  intros l. unfold byte_slice_to_u32. split; intros H.
  - split; [now apply byte_slice_to_uint_ok|]. intros B. eapply N.lt_le_trans; [apply be_value_lt, B|].
    change (2 ^ 32) with (256 ^ 4). apply N.pow_le_mono_r; lia.
  - now apply byte_slice_to_uint_panic.
Qed.
Theorem C05_byte_slice_to_u64 : forall l,
  ((List.length l <= 8)%nat -> byte_slice_to_u64 l = Ok (be_value l)
                               /\ (bytes_ok l -> be_value l < 2 ^ 64))
  /\ ((8 < List.length l)%nat -> byte_slice_to_u64 l = Panic).
Proof.
  intros l. unfold byte_slice_to_u64. split; intros H.
  - split; [now apply byte_slice_to_uint_ok|]. intros B. eapply N.lt_le_trans; [apply be_value_lt, B|].
    change (2 ^ 64) with (256 ^ 8). apply N.pow_le_mono_r; lia.
  - now apply byte_slice_to_uint_panic.
Qed.

Example C05_example : be_value [1; 2; 3] = 66051 /\ byte_slice_to_u32 [1; 2; 3] = Ok 66051.
Proof. split; reflexivity. Qed.

(** C06: decimal reading of u16. *)
Theorem C06_parse_u16 : forall s v,
  parse_str_to_u16 s = Ok v <-> denotes_number s v /\ v < 65536.
Proof. exact parse_str_to_u16_spec. Qed.
Theorem C06_parse_u16_error : forall s,
  (~ exists v, denotes_number s v /\ v < 65536) <-> parse_str_to_u16 s = Err InvalidNumber.
Proof.
  intros s. split.
  - intros H. destruct (parse_str_to_u16_total s) as [[v E]|E]; [|assumption].
    apply parse_str_to_u16_spec in E. exfalso. apply H. now exists v.
  - intros E [v H]. apply parse_str_to_u16_spec in H. congruence.
Qed.

Example C06_example : denotes_number (lit " +201" ++ [10]) 201 /\ parse_str_to_u16 (lit "65536") = Err InvalidNumber.
Proof.
  split; [|reflexivity]. exists [32], [43], (lit "201"), [10].
  split; [reflexivity|]. split; [|split; [|split; [now right|split; [discriminate|split; [|reflexivity]]]]].
  - repeat apply Forall_cons; try apply Forall_nil. cbn. tauto.
  - repeat apply Forall_cons; try apply Forall_nil. cbn. tauto.
  - vm_compute lit. repeat apply Forall_cons; try apply Forall_nil; unfold is_dec_digit; lia.
Qed.

(** C07: trimming of leading zero bytes. *)
Theorem C07_trim_leading_zeros : forall l, exists k,
  l = repeat 0 k ++ trim_leading_0_bytes l
  /\ (trim_leading_0_bytes l = [] <-> l = [])
  /\ be_value (trim_leading_0_bytes l) = be_value l
  /\ (forall t, trim_leading_0_bytes l = 0 :: t -> t = []).
Proof.
  intros l. destruct (trim_leading_split l) as (k & E & Hn & Hz). exists k.
  split; [assumption|]. split; [assumption|]. split.
  - rewrite E at 2. symmetry. apply be_value_zeros.
  - intros t Ht. rewrite Ht in Hz. destruct t; [reflexivity|contradiction].
Qed.

Example C07_example : trim_leading_0_bytes [0; 0; 0x9F; 0; 2] = [0x9F; 0; 2] /\ trim_leading_0_bytes [0; 0] = [0].
Proof. split; reflexivity. Qed.

(** C08: decimal digit count. *)
Theorem C08_num_dec_digits : forall n, n < 2 ^ 32 ->
  let d := num_dec_digits n in
  (n < 10 -> d = 1) /\ (10 <= n -> 10 ^ (d - 1) <= n /\ n < 10 ^ d /\ 1 < d).
Proof.
  intros n H d. pose proof (num_dec_digits_spec n H) as D. fold d in D. cbn zeta in D.
  destruct D as [[H1 H2]|(H1 & H2 & H3 & H4)]; split; intros; try lia; auto.
Qed.

Example C08_example : num_dec_digits 0 = 1 /\ num_dec_digits 1000 = 4 /\ num_dec_digits 4294967295 = 10.
Proof. repeat split. Qed.
