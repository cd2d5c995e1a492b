(** Proofs about src/util.rs. *)

From Coq Require Import ZArith NArith List String Ascii Bool Lia ZifyN ZifyBool ZifyNat.
From Verif Require Import Base ModelUtil SpecUtil.
Import ListNotations.
Local Open Scope N_scope.
Ltac Zify.zify_post_hook ::= Z.div_mod_to_equations.

(** ** Generic tactics and facts *)

Ltac bdestr :=
  repeat match goal with
  | H : context [?a <? ?b] |- _ => destruct (N.ltb_spec a b)
  | H : context [?a <=? ?b] |- _ => destruct (N.leb_spec a b)
  | H : context [?a =? ?b] |- _ => destruct (N.eqb_spec a b)
  | |- context [?a <? ?b] => destruct (N.ltb_spec a b)
  | |- context [?a <=? ?b] => destruct (N.leb_spec a b)
  | |- context [?a =? ?b] => destruct (N.eqb_spec a b)
  end.

Lemma bytes_ok_cons b l : bytes_ok (b :: l) <-> b < 256 /\ bytes_ok l.
Proof. unfold bytes_ok, is_byte. rewrite Forall_cons_iff. tauto. Qed.
Lemma bytes_ok_app a b : bytes_ok (a ++ b) <-> bytes_ok a /\ bytes_ok b.
Proof. apply Forall_app. Qed.

(* A property of all bytes, checked on each of them. *)
Definition all_bytes : list N := map N.of_nat (seq 0 256).
Lemma in_all_bytes b : b < 256 -> In b all_bytes.
Proof.
  intros H. unfold all_bytes. rewrite in_map_iff. exists (N.to_nat b).
  rewrite in_seq. split; lia.
Qed.
Lemma check_all_bytes (f : N -> bool) : forallb f all_bytes = true -> forall b, b < 256 -> f b = true.
Proof. intros H b Hb. rewrite forallb_forall in H. apply H, in_all_bytes, Hb. Qed.

(** ** Hex digits *)

Lemma is_hex_digitb_spec c : is_hex_digitb c = true <-> is_hex_digit c.
Proof. unfold is_hex_digitb, is_hex_digit. lia. Qed.

Lemma hex_nibble_spec c :
  hex_nibble c = if is_hex_digitb c then Some (hex_value c) else None.
Proof.
  unfold hex_nibble, is_hex_digitb, hex_value.
  repeat match goal with |- context [?a <=? ?b] => destruct (N.leb_spec a b) end;
    cbn [andb orb]; try reflexivity; try lia; f_equal; lia.
Qed.

Lemma hex_value_lt c : is_hex_digitb c = true -> hex_value c < 16.
Proof. rewrite is_hex_digitb_spec. unfold is_hex_digit, hex_value. intros H. bdestr; lia. Qed.

Lemma is_hex_byte_spec c : is_hex_byte c = is_hex_digitb c.
Proof. unfold is_hex_byte, is_hex_digitb. lia. Qed.

Lemma utf8_char_ascii c : c < 128 -> utf8_char c = [c].
Proof. intros H. unfold utf8_char. rewrite (proj2 (N.ltb_lt _ _) H). reflexivity. Qed.

Lemma utf8_char_high c : 128 <= c -> Forall (fun b => 128 <= b) (utf8_char c).
Proof.
  intros H. unfold utf8_char. destruct (N.ltb_spec c 0x80); [lia|].
  destruct (c <? 0x800); [|destruct (c <? 0x10000)]; repeat constructor; lia.
Qed.

Lemma is_hex_digitb_high c : 128 <= c -> is_hex_digitb c = false.
Proof. unfold is_hex_digitb. lia. Qed.

Lemma filter_map_none {A B} (f : A -> option B) l : Forall (fun x => f x = None) l -> filter_map f l = [].
Proof. induction 1 as [|x l Hx _ IH]; [reflexivity|]. cbn. now rewrite Hx. Qed.

Lemma hex_nibble_utf8_char c : filter_map hex_nibble (utf8_char c) = filter_map hex_nibble [c].
Proof.
  destruct (N.lt_ge_cases c 128) as [H|H].
  - now rewrite utf8_char_ascii.
  - rewrite !filter_map_none; [reflexivity| |].
    + repeat constructor. now rewrite hex_nibble_spec, is_hex_digitb_high.
    + eapply Forall_impl; [|apply utf8_char_high, H]. cbn. intros b Hb.
      now rewrite hex_nibble_spec, is_hex_digitb_high.
Qed.

Lemma filter_map_app {A B} (f : A -> option B) a b :
  filter_map f (a ++ b) = filter_map f a ++ filter_map f b.
Proof.
  induction a as [|x a IH]; cbn; [reflexivity|]. destruct (f x); cbn; now rewrite IH.
Qed.

Lemma filter_map_utf8 s : filter_map hex_nibble (utf8 s) = map hex_value (filter is_hex_digitb s).
Proof.
  induction s as [|c s IH]; [reflexivity|].
  unfold utf8 in *; cbn [flat_map]. rewrite filter_map_app, IH, hex_nibble_utf8_char.
  cbn [filter_map filter]. rewrite hex_nibble_spec. destruct (is_hex_digitb c); reflexivity.
Qed.

Lemma lor_shiftl4 h l : h < 16 -> l < 16 -> N.lor (N.shiftl h 4) l = 16 * h + l.
Proof.
  intros Hh Hl.
  assert (E : forallb (fun h => forallb (fun l => N.lor (N.shiftl h 4) l =? 16 * h + l)
    (map N.of_nat (seq 0 16))) (map N.of_nat (seq 0 16)) = true) by (vm_compute; reflexivity).
  rewrite forallb_forall in E.
  assert (In16 : forall x, x < 16 -> In x (map N.of_nat (seq 0 16))).
  { intros x Hx. rewrite in_map_iff. exists (N.to_nat x). rewrite in_seq. split; lia. }
  specialize (E h (In16 h Hh)). rewrite forallb_forall in E.
  specialize (E l (In16 l Hl)). now apply N.eqb_eq in E.
Qed.

Lemma list_pair_ind {A} (P : list A -> Prop) :
  P [] -> (forall a, P [a]) -> (forall a b l, P l -> P (a :: b :: l)) -> forall l, P l.
Proof.
  intros H0 H1 H2. fix IH 1. intros [|a [|b l]]; [assumption|apply H1|]. apply H2, IH.
Qed.

Lemma pair_nibbles_values ds :
  Forall (fun c => is_hex_digitb c = true) ds -> pair_nibbles (map hex_value ds) = bytes_of_digits ds.
Proof.
  induction ds as [|a|a b l IH] using list_pair_ind; intros H; [reflexivity|reflexivity|].
  inversion H as [|? ? Ha H']; subst; inversion H' as [|? ? Hb Hl]; subst.
  cbn [map pair_nibbles bytes_of_digits]. rewrite IH by assumption.
  f_equal. apply lor_shiftl4; apply hex_value_lt; assumption.
Qed.

Lemma Forall_filter {A} (f : A -> bool) l : Forall (fun x => f x = true) (filter f l).
Proof. apply Forall_forall. intros x Hx. apply filter_In in Hx. tauto. Qed.

Lemma filter_all {A} (f : A -> bool) l : Forall (fun x => f x = true) l -> filter f l = l.
Proof.
  induction 1 as [|x l Hx _ IH]; [reflexivity|]. cbn. now rewrite Hx, IH.
Qed.

Lemma parse_hex_str_spec s : parse_hex_str s = bytes_of_digits (filter is_hex_digitb s).
Proof.
  unfold parse_hex_str. rewrite filter_map_utf8. apply pair_nibbles_values, Forall_filter.
Qed.

Lemma bytes_of_digits_bytes ds :
  Forall (fun c => is_hex_digitb c = true) ds -> bytes_ok (bytes_of_digits ds).
Proof.
  induction ds as [|a|a b l IH] using list_pair_ind; intros H; try constructor.
  - inversion H as [|? ? Ha H']; subst; inversion H' as [|? ? Hb Hl]; subst.
    apply hex_value_lt in Ha, Hb. unfold is_byte. lia.
  - inversion H as [|? ? Ha H']; subst; inversion H' as [|? ? Hb Hl]; subst. now apply IH.
Qed.

Lemma parse_hex_str_bytes s : bytes_ok (parse_hex_str s).
Proof. rewrite parse_hex_str_spec. apply bytes_of_digits_bytes, Forall_filter. Qed.

Lemma bytes_of_digits_length ds : List.length (bytes_of_digits ds) = Nat.div2 (List.length ds).
Proof.
  induction ds as [|a|a b l IH] using list_pair_ind; [reflexivity|reflexivity|].
  cbn [bytes_of_digits List.length Nat.div2]. now rewrite IH.
Qed.

Lemma bytes_of_digits_nth ds k a b :
  nth_error ds (2 * k) = Some a -> nth_error ds (2 * k + 1) = Some b ->
  nth_error (bytes_of_digits ds) k = Some (16 * hex_value a + hex_value b).
Proof.
  revert k. induction ds as [|x|x y l IH] using list_pair_ind; intros k Ha Hb.
  - destruct (2 * k)%nat; discriminate.
  - replace (2 * k + 1)%nat with (S (2 * k)) in Hb by lia. revert Hb.
    generalize (2 * k)%nat. intros [|m]; discriminate.
  - destruct k as [|k].
    + cbn in Ha, Hb. inversion Ha; inversion Hb; subst. reflexivity.
    + replace (2 * S k)%nat with (S (S (2 * k))) in Ha by lia.
      replace (2 * S k + 1)%nat with (S (S (2 * k + 1))) in Hb by lia.
      cbn [nth_error bytes_of_digits] in *. now apply IH.
Qed.

(** ** Strict reading *)

Lemma is_ascii_cons c s : is_ascii (c :: s) = (c <? 128) && is_ascii s.
Proof.
  unfold is_ascii, utf8. cbn [flat_map]. rewrite forallb_app. f_equal.
  destruct (N.ltb_spec c 128) as [H|H].
  - rewrite utf8_char_ascii by assumption. cbn. now rewrite (proj2 (N.ltb_lt _ _) H).
  - pose proof (utf8_char_high c H) as F. destruct (utf8_char c) as [|x l] eqn:E.
    + exfalso. unfold utf8_char in E. destruct (c <? 128), (c <? 2048), (c <? 65536); discriminate.
    + inversion F; subst. cbn. destruct (N.ltb_spec x 128); [lia|reflexivity].
Qed.

Lemma is_ascii_spec s : is_ascii s = forallb (fun c => c <? 128) s.
Proof. induction s as [|c s IH]; [reflexivity|]. rewrite is_ascii_cons, IH. reflexivity. Qed.

Lemma strict_cond s :
  negb (is_ascii s) || existsb (fun c => negb (is_hex_byte (c mod 256))) s
  = negb (forallb is_hex_digitb s).
Proof.
  induction s as [|c s IH]; [reflexivity|].
  rewrite is_ascii_cons. cbn [existsb forallb].
  replace (negb (is_hex_digitb c && forallb is_hex_digitb s))
    with (negb (is_hex_digitb c) || negb (forallb is_hex_digitb s))
    by (destruct (is_hex_digitb c), (forallb is_hex_digitb s); reflexivity).
  rewrite <- IH, is_hex_byte_spec.
  destruct (N.ltb_spec c 128).
  - rewrite N.mod_small by lia. destruct (is_ascii s), (is_hex_digitb c); cbn; try reflexivity.
  - assert (is_hex_digitb c = false) as ->.
    { now apply is_hex_digitb_high. }
    reflexivity.
Qed.

Lemma parse_hex_str_strict_spec s :
  parse_hex_str_strict s =
  if forallb is_hex_digitb s then Ok (bytes_of_digits s) else Err InvalidBytes.
Proof.
  unfold parse_hex_str_strict. rewrite strict_cond.
  destruct (forallb is_hex_digitb s) eqn:E; cbn [negb]; [|reflexivity].
  rewrite parse_hex_str_spec, filter_all; [reflexivity|].
  apply Forall_forall. now apply forallb_forall.
Qed.

(** ** Round trip *)

Lemma hex_char_digit v : v < 16 -> is_hex_digitb (hex_char v) = true /\ hex_value (hex_char v) = v.
Proof.
  intros H.
  assert (E : forallb (fun v => is_hex_digitb (hex_char v) && (hex_value (hex_char v) =? v))
    (map N.of_nat (seq 0 16)) = true) by (vm_compute; reflexivity).
  rewrite forallb_forall in E.
  assert (In v (map N.of_nat (seq 0 16))) as Hi.
  { rewrite in_map_iff. exists (N.to_nat v). rewrite in_seq. split; lia. }
  specialize (E v Hi). apply andb_prop in E. destruct E as [E1 E2]. apply N.eqb_eq in E2. tauto.
Qed.

Lemma hex_text_digits l : bytes_ok l -> Forall (fun c => is_hex_digitb c = true) (hex_text l).
Proof.
  induction l as [|b l IH]; intros H; [constructor|].
  apply bytes_ok_cons in H. destruct H as [Hb Hl]. unfold hex_text. cbn [flat_map app].
  repeat constructor; [| |now apply IH]; apply hex_char_digit; lia.
Qed.

Lemma bytes_of_hex_text l : bytes_ok l -> bytes_of_digits (hex_text l) = l.
Proof.
  induction l as [|b l IH]; intros H; [reflexivity|].
  apply bytes_ok_cons in H. destruct H as [Hb Hl]. unfold hex_text in *. cbn [flat_map app bytes_of_digits].
  rewrite IH by assumption.
  destruct (hex_char_digit (b / 16)) as [_ ->]; [lia|].
  destruct (hex_char_digit (b mod 16)) as [_ ->]; [lia|]. f_equal. lia.
Qed.

Lemma nibbles_of_byte b : b < 256 ->
  nibble_to_char (N.shiftr (N.land 0xF0 b) 4) = Ok (hex_char (b / 16))
  /\ nibble_to_char (N.land 0x0F b) = Ok (hex_char (b mod 16)).
Proof.
  intros H.
  pose (f := fun b => match nibble_to_char (N.shiftr (N.land 0xF0 b) 4), nibble_to_char (N.land 0x0F b) with
                      | Ok x, Ok y => (x =? hex_char (b / 16)) && (y =? hex_char (b mod 16))
                      | _, _ => false
                      end).
  assert (E : f b = true).
  { apply (check_all_bytes f); [vm_compute; reflexivity|assumption]. }
  unfold f in E.
  destruct (nibble_to_char (N.shiftr (N.land 240 b) 4)); try discriminate.
  destruct (nibble_to_char (N.land 15 b)); try discriminate.
  apply andb_prop in E. destruct E as [E1 E2]. apply N.eqb_eq in E1, E2. subst. tauto.
Qed.

Lemma bytes_to_str_spec l : bytes_ok l -> bytes_to_str l = Ok (hex_text l).
Proof.
  induction l as [|b l IH]; intros H; [reflexivity|].
  apply bytes_ok_cons in H. destruct H as [Hb Hl].
  cbn [bytes_to_str]. destruct (nibbles_of_byte b Hb) as [-> ->]. cbn [bind]. rewrite IH by assumption.
  reflexivity.
Qed.

Lemma hex_text_length l : List.length (hex_text l) = (2 * List.length l)%nat.
Proof. induction l as [|b l IH]; [reflexivity|]. unfold hex_text in *. cbn [flat_map app List.length]. lia. Qed.

Lemma hex_char_upper c : is_hex_digitb c = true -> hex_char (hex_value c) = upper_hex c.
Proof.
  intros H.
  assert (Hb : c < 256) by (apply is_hex_digitb_spec in H; unfold is_hex_digit in H; lia).
  assert (E : (if is_hex_digitb c then hex_char (hex_value c) =? upper_hex c else true) = true).
  { apply (check_all_bytes (fun c => if is_hex_digitb c then hex_char (hex_value c) =? upper_hex c else true));
    [vm_compute; reflexivity|assumption]. }
  rewrite H in E. now apply N.eqb_eq.
Qed.

Lemma hex_text_of_digits ds :
  Forall (fun c => is_hex_digitb c = true) ds -> Nat.even (List.length ds) = true ->
  hex_text (bytes_of_digits ds) = map upper_hex ds.
Proof.
  induction ds as [|a|a b l IH] using list_pair_ind; intros H He; [reflexivity|discriminate|].
  inversion H as [|? ? Ha H']; subst; inversion H' as [|? ? Hb Hl]; subst.
  cbn [bytes_of_digits]. unfold hex_text. cbn [flat_map app map].
  fold (hex_text (bytes_of_digits l)).
  rewrite IH by assumption.
  pose proof (hex_value_lt a Ha). pose proof (hex_value_lt b Hb).
  replace ((16 * hex_value a + hex_value b) / 16) with (hex_value a) by lia.
  replace ((16 * hex_value a + hex_value b) mod 16) with (hex_value b) by lia.
  rewrite !hex_char_upper by assumption. reflexivity.
Qed.

Lemma div2_even n : (2 * Nat.div2 n = n)%nat -> Nat.even n = true.
Proof. intros H. apply Nat.even_spec. exists (Nat.div2 n). lia. Qed.

Lemma hex_round_trip_iff ds :
  Forall (fun c => is_hex_digitb c = true) ds ->
  (hex_text (bytes_of_digits ds) = map upper_hex ds <-> Nat.even (List.length ds) = true).
Proof.
  intros H. split; [|now apply hex_text_of_digits].
  intros E. apply (f_equal (@List.length N)) in E.
  rewrite hex_text_length, map_length, bytes_of_digits_length in E. now apply div2_even.
Qed.

(** ** Big-endian values *)

Lemma fold_be l : forall acc,
  fold_left (fun acc b => acc * 256 + b) l acc = acc * 256 ^ N.of_nat (List.length l) + be_value l.
Proof.
  induction l as [|b l IH]; intros acc.
  - cbn. lia.
  - cbn [fold_left be_value List.length]. rewrite IH, Nat2N.inj_succ, N.pow_succ_r'. lia.
Qed.

Lemma from_be_bytes_spec l : from_be_bytes l = be_value l.
Proof. unfold from_be_bytes. rewrite fold_be. lia. Qed.

Lemma be_value_lt l : bytes_ok l -> be_value l < 256 ^ N.of_nat (List.length l).
Proof.
  induction l as [|b l IH]; intros H.
  - cbn. lia.
  - apply bytes_ok_cons in H. destruct H as [Hb Hl]. specialize (IH Hl).
    cbn [be_value List.length]. rewrite Nat2N.inj_succ, N.pow_succ_r'. nia.
Qed.

Lemma be_value_zeros k l : be_value (repeat 0 k ++ l) = be_value l.
Proof. induction k as [|k IH]; [reflexivity|]. cbn [repeat app be_value]. rewrite IH. lia. Qed.

Lemma set_nth_app {A} (a : list A) x y b : set_nth (a ++ x :: b) (List.length a) y = Ok (a ++ y :: b).
Proof.
  induction a as [|z a IH]; [reflexivity|]. cbn [app List.length set_nth]. rewrite IH. reflexivity.
Qed.

Lemma index_app {A} (a : list A) x b : index (a ++ x :: b) (N.of_nat (List.length a)) = Ok x.
Proof.
  unfold index. rewrite Nat2N.id, nth_error_app2 by lia. now rewrite Nat.sub_diag.
Qed.

Lemma copy_loop_spec width todo : forall done zeros,
  List.length (zeros ++ done ++ todo) = width ->
  copy_loop width (List.length (done ++ todo)) (done ++ todo) (List.length done) (List.length todo)
            (zeros ++ done ++ repeat 0 (List.length todo)) = Ok (zeros ++ done ++ todo).
Proof.
  induction todo as [|b todo IH]; intros done zeros Hw.
  - reflexivity.
  - cbn [List.length copy_loop repeat]. rewrite index_app. cbn [bind].
    replace (width - List.length (done ++ b :: todo) + List.length done)%nat
      with (List.length (zeros ++ done)) by (rewrite !app_length in *; lia).
    rewrite (app_assoc zeros done (0 :: _)), set_nth_app. cbn [bind].
    replace (S (List.length done)) with (List.length (done ++ [b])) by (rewrite app_length; cbn; lia).
    replace ((zeros ++ done) ++ b :: repeat 0 (List.length todo))
      with (zeros ++ (done ++ [b]) ++ repeat 0 (List.length todo))
      by (rewrite <- !app_assoc; reflexivity).
    replace (done ++ b :: todo) with ((done ++ [b]) ++ todo) by (rewrite <- app_assoc; reflexivity).
    apply IH. rewrite <- app_assoc. exact Hw.
Qed.

Lemma byte_slice_to_uint_ok width l : (List.length l <= width)%nat ->
  byte_slice_to_uint width l = Ok (be_value l).
Proof.
  intros H. unfold byte_slice_to_uint. rewrite (proj2 (Nat.leb_le _ _) H).
  pose proof (copy_loop_spec width l [] (repeat 0 (width - List.length l))) as E.
  cbn [List.length app] in E.
  rewrite <- repeat_app in E.
  replace (width - List.length l + List.length l)%nat with width in E by lia.
  rewrite E by (rewrite app_length, repeat_length; lia).
  cbn [bind]. rewrite from_be_bytes_spec, be_value_zeros. reflexivity.
Qed.

Lemma byte_slice_to_uint_panic width l : (width < List.length l)%nat ->
  byte_slice_to_uint width l = Panic.
Proof.
  intros H. unfold byte_slice_to_uint. destruct (Nat.leb_spec (List.length l) width); [lia|reflexivity].
Qed.

(** ** Decimal input *)

Lemma is_whitespace_spec c : is_whitespace c = true <-> is_white_space c.
Proof.
  unfold is_whitespace, is_white_space, white_space_chars. cbn [In]. split.
  - intros H. repeat (apply orb_prop in H; destruct H as [H|H]); lia.
  - intros H. repeat (destruct H as [H|H]; [subst c; reflexivity|]). contradiction.
Qed.

Lemma trim_start_app ws s : Forall is_white_space ws -> trim_start (ws ++ s) = trim_start s.
Proof.
  induction 1 as [|c ws Hc _ IH]; [reflexivity|]. cbn. apply is_whitespace_spec in Hc. now rewrite Hc.
Qed.

Lemma trim_start_split s : exists ws, s = ws ++ trim_start s /\ Forall is_white_space ws.
Proof.
  induction s as [|c s [ws [E F]]].
  - exists []. split; [reflexivity|constructor].
  - cbn. destruct (is_whitespace c) eqn:Ec.
    + exists (c :: ws). split; [cbn; congruence|]. constructor; [now apply is_whitespace_spec|assumption].
    + exists []. split; [reflexivity|constructor].
Qed.

Lemma trim_split s : exists ws1 ws2, s = ws1 ++ trim s ++ ws2 /\ Forall is_white_space ws1 /\ Forall is_white_space ws2.
Proof.
  destruct (trim_start_split s) as [ws1 [E1 F1]].
  destruct (trim_start_split (rev (trim_start s))) as [ws2 [E2 F2]].
  exists ws1, (rev ws2). split; [|split; [assumption|now apply Forall_rev]].
  unfold trim. rewrite <- rev_app_distr, <- E2, rev_involutive. exact E1.
Qed.

Definition no_ws_ends (s : list N) : Prop :=
  match s with [] => True | c :: _ => is_whitespace c = false end
  /\ match rev s with [] => True | c :: _ => is_whitespace c = false end.

Lemma trim_start_id s : match s with [] => True | c :: _ => is_whitespace c = false end -> trim_start s = s.
Proof. destruct s; cbn; [reflexivity|]. now intros ->. Qed.

Lemma trim_unique ws1 m ws2 :
  Forall is_white_space ws1 -> Forall is_white_space ws2 -> m <> [] -> no_ws_ends m ->
  trim (ws1 ++ m ++ ws2) = m.
Proof.
  intros F1 F2 Hne [H1 H2]. unfold trim.
  rewrite trim_start_app by assumption.
  rewrite (trim_start_id (m ++ ws2)) by (destruct m; [congruence|assumption]).
  rewrite rev_app_distr, trim_start_app by now apply Forall_rev.
  rewrite trim_start_id by assumption. apply rev_involutive.
Qed.

Lemma u16_digits_spec s : forall acc v,
  acc < 65536 ->
  (u16_digits s acc = Some v <->
   Forall is_dec_digit s /\ v = acc * 10 ^ N.of_nat (List.length s) + dec_value s /\ v < 65536).
Proof.
  induction s as [|c s IH]; intros acc v Ha.
  - cbn. rewrite N.mul_1_r, N.add_0_r. split; [intros [= <-]; repeat split; [constructor|lia]|].
    intros (_ & -> & _). reflexivity.
  - cbn [u16_digits dec_value List.length]. rewrite Nat2N.inj_succ, N.pow_succ_r'.
    assert (Hp : 0 < 10 ^ N.of_nat (List.length s)) by (apply N.neq_0_lt_0, N.pow_nonzero; lia).
    unfold is_dec_digit.
    destruct (N.leb_spec 48 c); cbn [andb].
    2:{ split; [discriminate|]. intros (F & _ & _). inversion F; subst. lia. }
    destruct (N.leb_spec c 57); cbn [andb].
    2:{ split; [discriminate|]. intros (F & _ & _). inversion F; subst. lia. }
    destruct (N.ltb_spec (acc * 10 + (c - 48)) 65536) as [Hl|Hl].
    + rewrite (IH _ v Hl). unfold is_dec_digit. split.
      * intros (F & -> & Hv). repeat split; [constructor; [lia|assumption]|nia|assumption].
      * intros (F & -> & Hv). inversion F; subst. repeat split; [assumption|nia|nia].
    + split; [discriminate|]. intros (_ & -> & Hv). exfalso. nia.
Qed.

Lemma dec_digit_not_ws c : is_dec_digit c -> is_whitespace c = false.
Proof.
  intros [H1 H2]. destruct (is_whitespace c) eqn:E; [|reflexivity].
  apply is_whitespace_spec in E. unfold is_white_space, white_space_chars in E. cbn [In] in E.
  repeat (destruct E as [E|E]; [subst c; exfalso; lia|]). contradiction.
Qed.

Lemma u16_from_str_spec s v :
  u16_from_str s = Some v <->
  exists sign digits, s = sign ++ digits /\ (sign = [] \/ sign = [43]) /\ digits <> []
                      /\ Forall is_dec_digit digits /\ v = dec_value digits /\ v < 65536.
Proof.
  assert (D : forall l, (u16_digits l 0 = Some v <-> Forall is_dec_digit l /\ v = dec_value l /\ v < 65536)).
  { intros l. rewrite u16_digits_spec by lia. rewrite N.mul_0_l, N.add_0_l. tauto. }
  destruct s as [|c s].
  - cbn. split; [discriminate|]. intros (sg & ds & E & _ & Hne & _).
    symmetry in E. apply app_eq_nil in E. tauto.
  - destruct (N.eq_dec c 43) as [->|Hc].
    + destruct s as [|d s].
      * cbn. split; [discriminate|]. intros (sg & ds & E & [->| ->] & Hne & F & _).
        -- cbn in E. subst ds. inversion F as [|? ? H _]; subst. unfold is_dec_digit in H. lia.
        -- cbn in E. inversion E; subst. congruence.
      * change (u16_from_str (43 :: d :: s)) with (u16_digits (d :: s) 0). rewrite D. split.
        -- intros (F & -> & Hv). exists [43], (d :: s). repeat split; auto; discriminate.
        -- intros (sg & ds & E & [->| ->] & Hne & F & -> & Hv).
           ++ cbn in E. subst ds. inversion F as [|? ? H _]; subst. unfold is_dec_digit in H. lia.
           ++ cbn in E. inversion E; subst. auto.
    + assert (E0 : u16_from_str (c :: s) = u16_digits (c :: s) 0).
      { unfold u16_from_str. destruct c as [|p]; [reflexivity|].
        do 6 (destruct p as [p|p|]; try reflexivity; try congruence). }
      rewrite E0, D. split.
      * intros (F & -> & Hv). exists [], (c :: s). repeat split; auto; discriminate.
      * intros (sg & ds & E & [->| ->] & Hne & F & -> & Hv).
        -- cbn in E. subst ds. auto.
        -- cbn in E. inversion E; subst. congruence.
Qed.

Lemma parse_str_to_u16_spec s v :
  parse_str_to_u16 s = Ok v <-> denotes_number s v /\ v < 65536.
Proof.
  unfold parse_str_to_u16. split.
  - intros H. destruct (u16_from_str (trim s)) eqn:E; [|discriminate]. inversion H; subst; clear H.
    apply u16_from_str_spec in E. destruct E as (sg & ds & E & Hs & Hne & F & Hv & Hlt).
    destruct (trim_split s) as (ws1 & ws2 & Es & F1 & F2).
    split; [|assumption].
    exists ws1, sg, ds, ws2. rewrite E, <- app_assoc in Es. auto 10.
  - intros [(ws1 & sg & ds & ws2 & E & F1 & F2 & Hs & Hne & F & Hv) Hlt].
    assert (T : trim s = sg ++ ds).
    { rewrite E. replace (ws1 ++ sg ++ ds ++ ws2) with (ws1 ++ (sg ++ ds) ++ ws2) by now rewrite <- app_assoc.
      apply trim_unique; auto.
      - intros Z. apply app_eq_nil in Z. tauto.
      - split.
        + destruct Hs as [->| ->]; cbn; [|reflexivity]. destruct ds; [congruence|].
          inversion F; subst. now apply dec_digit_not_ws.
        + rewrite rev_app_distr. destruct (rev ds) as [|d r] eqn:R.
          * apply (f_equal (@rev N)) in R. rewrite rev_involutive in R. cbn in R. congruence.
          * cbn. apply dec_digit_not_ws. rewrite Forall_forall in F. apply F.
            apply in_rev. rewrite R. now left. }
    assert (E' : u16_from_str (trim s) = Some v).
    { apply u16_from_str_spec. exists sg, ds. auto 10. }
    now rewrite E'.
Qed.

Lemma parse_str_to_u16_total s : (exists v, parse_str_to_u16 s = Ok v) \/ parse_str_to_u16 s = Err InvalidNumber.
Proof. unfold parse_str_to_u16. destruct (u16_from_str (trim s)); eauto. Qed.

(** ** Leading zero bytes *)

Lemma trim_leading_split l : exists k,
  l = repeat 0 k ++ trim_leading_0_bytes l
  /\ (trim_leading_0_bytes l = [] <-> l = [])
  /\ (match trim_leading_0_bytes l with 0 :: _ :: _ => False | _ => True end).
Proof.
  induction l as [|b l (k & E & Hn & Hz)].
  - exists O. cbn. repeat split; auto.
  - cbn [trim_leading_0_bytes]. destruct l as [|c l].
    + exists O. cbn. repeat split; auto; destruct b; auto.
    + destruct (N.eqb_spec b 0) as [->|Hb].
      * exists (S k). repeat split; auto.
        -- cbn [repeat app]. now rewrite <- E.
        -- intros H. apply Hn in H. discriminate.
        -- intros H. discriminate.
      * exists O. repeat split; auto; try discriminate. destruct b; [congruence|exact I].
Qed.

(** ** Decimal digit count *)

Lemma num_dec_digits_fuel_spec fuel : forall n, n < 10 ^ N.of_nat fuel -> (0 < fuel)%nat ->
  let d := num_dec_digits_fuel fuel n in
  (n < 10 /\ d = 1) \/ (10 <= n /\ 1 < d /\ 10 ^ (d - 1) <= n /\ n < 10 ^ d).
Proof.
  induction fuel as [|f IH]; intros n Hn Hf; [lia|].
  cbn [num_dec_digits_fuel]. destruct (N.leb_spec 10 n) as [H|H]; [|lia].
  right. rewrite Nat2N.inj_succ, N.pow_succ_r' in Hn.
  assert (Hf' : (0 < f)%nat). { destruct f; [|lia]. cbn in Hn. lia. }
  assert (Hd : n / 10 < 10 ^ N.of_nat f) by lia.
  specialize (IH (n / 10) Hd Hf'). cbn zeta in IH.
  set (d := num_dec_digits_fuel f (n / 10)) in *.
  destruct IH as [[H1 H2]|(H1 & H2 & H3 & H4)].
  - rewrite H2. cbn. split; [assumption|]. lia.
  - split; [assumption|]. split; [lia|].
    replace (1 + d - 1) with (N.succ (d - 1)) by lia. rewrite N.pow_succ_r'.
    replace (1 + d) with (N.succ d) by lia. rewrite N.pow_succ_r'. lia.
Qed.

Lemma num_dec_digits_spec n : n < 2 ^ 32 ->
  let d := num_dec_digits n in
  (n < 10 /\ d = 1) \/ (10 <= n /\ 1 < d /\ 10 ^ (d - 1) <= n /\ n < 10 ^ d).
Proof.
  intros H. unfold num_dec_digits. apply num_dec_digits_fuel_spec; [|lia].
  eapply N.lt_le_trans; [exact H|]. vm_compute. discriminate.
Qed.
