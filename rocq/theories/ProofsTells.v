(** Proofs about what can be read back from the screen. *)

From Coq Require Import ZArith NArith List String Ascii Bool Lia ZifyN ZifyBool ZifyNat Permutation Sorting.
From Verif Require Import Base ModelUtil ModelEnums ModelBitflag ModelSchemas ModelTags ModelTlv ModelValues ModelProcess ModelDisplay
  SpecUtil SpecCodes SpecValues SpecTlv SpecIngenico SpecTags SpecProcess SpecDisplay
  ProofsUtil ProofsGrammar ProofsBer ProofsIngenico ProofsValues PropertiesValues
  PropertiesBer PropertiesIngenico ProofsProcess PropertiesProcess ProofsDisplay ProofsDiagram ProofsScreens ProofsLayout PropertiesDisplay
  SpecPictures ProofsPictures ModelMain SpecMain ProofsMain PropertiesMain PropertiesPictures SpecTells.
Import ListNotations.
Local Open Scope N_scope.

(** ** Lines *)

Definition texts (ls : list line) : list str := map line_text ls.
Definition one_line (s : str) : Prop := ~ In 10 s.

Lemma cut_line (a b x y : str) : one_line a -> one_line b -> a ++ 10 :: x = b ++ 10 :: y -> a = b /\ x = y.
Proof.
  revert b. induction a as [|c a IH]; intros [|d b] Ha Hb E; cbn [app] in E.
  - injection E as E. auto.
  - exfalso. apply Hb. injection E as E1 E2. now left.
  - exfalso. apply Ha. injection E as E1 E2. now left.
  - injection E as E1 E2. subst d. destruct (IH b) as [-> ->]; auto; intros H; [apply Ha|apply Hb]; now right.
Qed.
Lemma characters_cons l ls : characters (l :: ls) = line_text l ++ 10 :: characters ls.
Proof. unfold characters. cbn [flat_map]. now rewrite <- app_assoc. Qed.
Lemma characters_texts ls : forall ls', Forall one_line (texts ls) -> Forall one_line (texts ls') -> characters ls = characters ls' -> texts ls = texts ls'.
Proof.
  induction ls as [|l ls IH]; intros [|l' ls'] H H' E; [reflexivity| | |].
  - rewrite characters_cons in E. cbn in E. destruct (line_text l'); discriminate.
  - rewrite characters_cons in E. cbn in E. destruct (line_text l); discriminate.
  - rewrite !characters_cons in E. cbn [texts map] in *. apply Forall_cons_iff in H, H'. destruct H as [H1 H2], H' as [H1' H2'].
    destruct (cut_line _ _ _ _ H1 H1' E) as [E1 E2]. f_equal; [assumption|]. now apply IH.
Qed.
Lemma texts_characters ls : forall ls', texts ls = texts ls' -> characters ls = characters ls'.
Proof.
  induction ls as [|l ls IH]; intros [|l' ls'] E; try discriminate; [reflexivity|]. rewrite !characters_cons. cbn [texts map] in E.
  injection E as E1 E2. rewrite E1. do 2 f_equal. now apply IH.
Qed.
Lemma visible_no_newline s : visible s -> one_line s.
Proof. intros V I. unfold visible in V. rewrite Forall_forall in V. specialize (V 10 I). lia. Qed.
Lemma between_one_line lo hi ls : Forall (line_between lo hi) ls -> Forall one_line (texts ls).
Proof.
  intros F. unfold texts. apply Forall_map. eapply Forall_impl; [|exact F]. intros l [->|(_ & _ & V)].
  - intros I. destruct I.
  - unfold line_text. intros I. apply in_app_or in I. destruct I as [I|I].
    + apply repeat_spec in I. discriminate.
    + apply in_flat_map in I. destruct I as (sp & I & J). rewrite Forall_forall in V. exact (visible_no_newline _ (V sp I) J).
Qed.
Lemma texts_app a b : texts (a ++ b) = texts a ++ texts b.
Proof. apply map_app. Qed.

(** ** Bytes *)

Lemma hex_char_inj a b : a < 16 -> b < 16 -> hex_char a = hex_char b -> a = b.
Proof. intros A B E. destruct (hex_char_digit a A) as [_ <-], (hex_char_digit b B) as [_ <-]. now rewrite E. Qed.
Lemma byte_text_inj a b : is_byte a -> is_byte b -> byte_text a = byte_text b -> a = b.
Proof.
  unfold is_byte, byte_text. intros A B E. injection E as E1 E2. apply hex_char_inj in E1; [|lia|lia]. apply hex_char_inj in E2; lia.
Qed.
Lemma hex_char_no_space v : v < 16 -> hex_char v <> 32.
Proof.
  intros H E. destruct (hex_char_digit v H) as [X _]. rewrite E in X. discriminate.
Qed.
Lemma bytes_text_inj a : forall b x y, bytes_ok a -> bytes_ok b ->
  flat_map byte_text a ++ 32 :: x = flat_map byte_text b ++ 32 :: y -> a = b /\ x = y.
Proof.
  induction a as [|u a IH]; intros [|v b] x y Ha Hb E.
  - cbn in E. injection E as E. auto.
  - exfalso. apply bytes_ok_cons in Hb. destruct Hb as [B _]. unfold is_byte in B. cbn in E. injection E as E _. symmetry in E. revert E. apply hex_char_no_space. lia.
  - exfalso. apply bytes_ok_cons in Ha. destruct Ha as [A _]. unfold is_byte in A. cbn in E. injection E as E _. revert E. apply hex_char_no_space. lia.
  - apply bytes_ok_cons in Ha, Hb. destruct Ha as [A Ha], Hb as [B Hb]. cbn [flat_map] in E. rewrite <- !app_assoc in E.
    assert (X : byte_text u = byte_text v /\ flat_map byte_text a ++ 32 :: x = flat_map byte_text b ++ 32 :: y).
    { unfold byte_text at 1 3 in E. cbn [app] in E. injection E as E1 E2 E3. split; [|assumption]. unfold byte_text. now rewrite E1, E2. }
    destruct X as [X Y]. apply byte_text_inj in X; [|assumption|assumption]. subst v. destruct (IH b x y Ha Hb Y) as [-> ->]. auto.
Qed.
Lemma bytes_text_inj' a b : bytes_ok a -> bytes_ok b -> flat_map byte_text a = flat_map byte_text b -> a = b.
Proof. intros Ha Hb E. apply (bytes_text_inj a b [] [] Ha Hb). now rewrite E. Qed.
Lemma spaced_cons x y t : spaced (x :: y :: t) = x ++ 32 :: spaced (y :: t).
Proof. reflexivity. Qed.
Lemma spaced_inj a : forall b x y, List.length a = List.length b -> bytes_ok a -> bytes_ok b ->
  spaced (map byte_text a) ++ x = spaced (map byte_text b) ++ y -> a = b /\ x = y.
Proof.
  induction a as [|u a IH]; intros [|v b] x y L Ha Hb E; try discriminate; [auto|].
  apply bytes_ok_cons in Ha, Hb. destruct Ha as [A Ha], Hb as [B Hb]. injection L as L. destruct a as [|u' a], b as [|v' b]; try discriminate.
  - cbn [map spaced] in E. unfold byte_text in E. cbn [app] in E. injection E as E1 E2 E3. split; [|assumption]. f_equal. apply byte_text_inj; auto. unfold byte_text. now rewrite E1, E2.
  - cbn [map] in E. rewrite !spaced_cons, <- !app_assoc in E. unfold byte_text at 1 4 in E. cbn [app] in E. injection E as E1 E2 E3.
    destruct (IH (v' :: b) x y L Ha Hb E3) as [-> ->]. split; [|reflexivity]. f_equal. apply byte_text_inj; auto. unfold byte_text. now rewrite E1, E2.
Qed.
Lemma chunks_fuel_shape f : forall (a b : list N), List.length a = List.length b ->
  Forall2 (fun x y => List.length x = List.length y) (chunks_fuel f 16 a) (chunks_fuel f 16 b).
Proof.
  induction f as [|f IH]; intros a b L; cbn [chunks_fuel]; [destruct a, b; try discriminate; constructor|].
  destruct a as [|u a], b as [|v b]; try discriminate; [constructor|]. constructor; [rewrite !firstn_length; now rewrite L|].
  apply IH. rewrite !skipn_length. now rewrite L.
Qed.
Lemma chunks_shape (a b : list N) : List.length a = List.length b -> Forall2 (fun x y => List.length x = List.length y) (chunks 16 a) (chunks 16 b).
Proof. intros L. unfold chunks. rewrite L. now apply chunks_fuel_shape. Qed.
Lemma chunks_fuel_concat f : forall (a : list N), (List.length a <= f)%nat -> List.concat (chunks_fuel f 16 a) = a.
Proof.
  induction f as [|f IH]; intros a L; cbn [chunks_fuel]; [destruct a; [reflexivity|cbn in L; lia]|]. destruct a as [|u a]; [reflexivity|].
  cbn [List.concat]. rewrite IH by (rewrite skipn_length; cbn [List.length] in *; lia). apply firstn_skipn.
Qed.
Lemma chunks_concat (a : list N) : List.concat (chunks 16 a) = a.
Proof. unfold chunks. now apply chunks_fuel_concat. Qed.
Lemma chunks_bytes a : bytes_ok a -> Forall bytes_ok (chunks 16 a).
Proof.
  intros H. apply Forall_forall. intros c I. unfold bytes_ok in *. rewrite Forall_forall in *. intros x J. apply H. rewrite <- (chunks_concat a). apply in_concat. eauto.
Qed.
(* A dump with the bytes in hex at the start of each line. *)
Lemma dump_inj (f : list N -> str) a b i :
  (forall x y, List.length x = List.length y -> bytes_ok x -> bytes_ok y -> f x = f y -> x = y) ->
  List.length a = List.length b -> bytes_ok a -> bytes_ok b ->
  map line_text (map (fun l => row i [(None, f l)]) (chunks 16 a)) = map line_text (map (fun l => row i [(None, f l)]) (chunks 16 b)) -> a = b.
Proof.
  intros Inj L Ha Hb E. rewrite <- (chunks_concat a), <- (chunks_concat b). f_equal. pose proof (chunks_shape a b L) as S. apply chunks_bytes in Ha, Hb.
  revert Ha Hb E. induction S as [|x y xs ys Lx S IH]; intros Ha Hb E; [reflexivity|]. apply Forall_cons_iff in Ha, Hb. destruct Ha as [A Ha], Hb as [B Hb].
  cbn [map] in E. injection E as E1 E2. f_equal; [|now apply IH]. apply Inj; auto. unfold line_text, row in E1. cbn [l_tabs l_spans flat_map snd] in E1.
  apply app_inv_head in E1. now rewrite !app_nil_r in E1.
Qed.
Lemma hex_dump_inj i a b : List.length a = List.length b -> bytes_ok a -> bytes_ok b -> texts (hex_dump i a) = texts (hex_dump i b) -> a = b.
Proof.
  intros L Ha Hb E. apply (dump_inj (fun l => spaced (map byte_text l)) a b i); auto. intros x y Lx X Y K.
  apply (spaced_inj x y [] []); auto. now rewrite K.
Qed.
Lemma wide_dump_inj i a b : List.length a = List.length b -> bytes_ok a -> bytes_ok b -> texts (wide_dump i a) = texts (wide_dump i b) -> a = b.
Proof.
  intros L Ha Hb E. apply (dump_inj (fun l => pad_right 49 (spaced (map byte_text l)) ++ map readable l) a b i); auto. intros x y Lx X Y K.
  unfold pad_right in K. rewrite <- !app_assoc in K. apply spaced_inj in K; tauto.
Qed.
Lemma wide_dump_count i a b : List.length a = List.length b -> List.length (wide_dump i a) = List.length (wide_dump i b).
Proof. intros L. unfold wide_dump. rewrite !map_length. apply chunks_shape in L. induction L; [reflexivity|]. cbn. now f_equal. Qed.
Lemma hex_dump_count i a b : List.length a = List.length b -> List.length (hex_dump i a) = List.length (hex_dump i b).
Proof. intros L. unfold hex_dump. rewrite !map_length. apply chunks_shape in L. induction L; [reflexivity|]. cbn. now f_equal. Qed.

Lemma be_value_inj a : forall b, List.length a = List.length b -> bytes_ok a -> bytes_ok b -> be_value a = be_value b -> a = b.
Proof.
  induction a as [|u a IH]; intros [|v b] L Ha Hb E; try discriminate; [reflexivity|]. injection L as L.
  apply bytes_ok_cons in Ha, Hb. destruct Ha as [A Ha], Hb as [B Hb]. cbn [be_value] in E. rewrite L in E.
  pose proof (be_value_lt a Ha) as La. pose proof (be_value_lt b Hb) as Lb. rewrite L in La. set (m := 256 ^ N.of_nat (List.length b)) in *.
  assert (u = v) by nia. subst v. f_equal. apply IH; auto. lia.
Qed.

(** ** Numbers *)

Lemma digits_then_space a : forall b x y, Forall is_dec_digit a -> Forall is_dec_digit b -> a ++ 32 :: x = b ++ 32 :: y -> a = b /\ x = y.
Proof.
  induction a as [|c a IH]; intros [|d b] x y Ha Hb E; cbn [app] in E.
  - injection E as E. auto.
  - exfalso. apply Forall_cons_iff in Hb. destruct Hb as [D _]. unfold is_dec_digit in D. injection E as E _. lia.
  - exfalso. apply Forall_cons_iff in Ha. destruct Ha as [D _]. unfold is_dec_digit in D. injection E as E _. lia.
  - apply Forall_cons_iff in Ha, Hb. injection E as E1 E2. subst d. destruct (IH b x y) as [-> ->]; tauto.
Qed.
Lemma dec_value_zeros k l : dec_value (repeat 48 k ++ l) = dec_value l.
Proof. induction k as [|k IH]; [reflexivity|]. cbn [repeat app dec_value]. rewrite IH. lia. Qed.
Lemma padded_digits w n : Forall is_dec_digit (padded w n).
Proof.
  unfold padded. apply Forall_app. split; [|apply dec_spec]. apply Forall_forall. intros x I. apply repeat_spec in I. subst. unfold is_dec_digit. lia.
Qed.
Lemma padded_value w n : dec_value (padded w n) = n.
Proof. unfold padded. rewrite dec_value_zeros. apply dec_spec. Qed.
Lemma padded_inj w w' n n' : padded w n = padded w' n' -> n = n'.
Proof. intros E. rewrite <- (padded_value w n), <- (padded_value w' n'). now rewrite E. Qed.

(** ** Bit diagrams *)

Lemma draw_inj n a b : len a = n -> len b = n -> bytes_ok a -> bytes_ok b ->
  draw n (8 * n) (bit_char a) = draw n (8 * n) (bit_char b) -> a = b.
Proof.
  intros La Lb Ha Hb E. apply be_value_inj; auto; [unfold len in *; lia|]. apply N.bits_inj. intros o.
  destruct (N.lt_ge_cases o (8 * n)) as [H|H].
  - pose proof (draw_at n (8 * n) (bit_char a) o H ltac:(lia)) as Da. pose proof (draw_at n (8 * n) (bit_char b) o H ltac:(lia)) as Db.
    rewrite E, Db in Da. injection Da as Da. unfold bit_char in Da. destruct (N.testbit (be_value a) o), (N.testbit (be_value b) o); auto; discriminate.
  - assert (P : forall x, len x = n -> bytes_ok x -> N.testbit (be_value x) o = false).
    { intros x Lx Hx. apply be_value_lt in Hx. destruct (N.eq_dec (be_value x) 0) as [Z|Z]; [rewrite Z; apply N.bits_0|]. apply N.bits_above_log2.
      apply N.log2_lt_pow2; [lia|]. eapply N.lt_le_trans; [exact Hx|]. change 256 with (2 ^ 8). rewrite <- N.pow_mul_r. apply N.pow_le_mono_r; [lia|]. unfold len in Lx. lia. }
    now rewrite (P a La Ha), (P b Lb Hb).
Qed.
Lemma keep_bits_len raw : forall m, List.length raw = List.length m -> List.length (keep_bits raw m) = List.length raw.
Proof. induction raw as [|b raw IH]; intros [|x m] L; try discriminate; [reflexivity|]. cbn. f_equal. apply IH. now injection L. Qed.
Lemma diagram_texts n raw ranges i show : texts (diagram n raw ranges i show)
  = (repeat 9 (N.to_nat (i mod 256)) ++ draw n (8 * n) (bit_char raw))
    :: texts (tl (diagram n raw ranges i show)).
Proof. unfold diagram. cbn [tl texts map]. f_equal. unfold line_text, bold_row. cbn [l_tabs l_spans flat_map snd]. now rewrite app_nil_r. Qed.

(** ** Values *)

Lemma bits_told parse sch n t m a b : In (parse, sch, n, t, m) bit_values -> n = N.of_nat (List.length m) -> bytes_ok a -> bytes_ok b ->
  (exists v, bits_value n t a v) -> (exists v, bits_value n t b v) -> forall i show,
  (texts (diagram n (keep_bits a m) (all_shown n t a) i show) = texts (diagram n (keep_bits b m) (all_shown n t b) i show)
   <-> keep_bits a m = keep_bits b m)
  /\ (keep_bits a m = keep_bits b m -> diagram n (keep_bits a m) (all_shown n t a) i show = diagram n (keep_bits b m) (all_shown n t b) i show).
Proof.
  intros H Em Ha Hb [v [La Va]] [w [Lb Vb]] i show.
  assert (Same : keep_bits a m = keep_bits b m -> diagram n (keep_bits a m) (all_shown n t a) i show = diagram n (keep_bits b m) (all_shown n t b) i show).
  { intros K. destruct (all_bit_values_ok _ _ _ _ _ (bit_values_all _ H)) as (E & En & M).
    assert (P : forall x v, len x = n -> decode_all t x = Some v -> parse x = Ok v) by (intros x u Lx D; rewrite E; apply (bf_parse_ok sch t m M); rewrite En; auto).
    pose proof (P a v La Va) as Pa. pose proof (P b w Lb Vb) as Pb. pose proof (C42_unused_bits_irrelevant parse sch n t m a b (bit_values_all _ H) La Lb K) as Q.
    rewrite Pa, Pb in Q. injection Q as <-. rewrite K. rewrite <- (C44_ranges parse sch n t m a v (bit_values_all _ H) Pa). now rewrite <- (C44_ranges parse sch n t m b v (bit_values_all _ H) Pb). }
  split; [|assumption]. split; [|intros K; now rewrite (Same K)].
  intros E. rewrite !diagram_texts in E. injection E as E _. apply app_inv_head in E.
  assert (X : forall x, len x = n -> len (keep_bits x m) = n) by (intros x Lx; unfold len in *; rewrite keep_bits_len; lia).
  apply (draw_inj n); auto; now apply keep_bits_bytes.
Qed.
Lemma map_some_inj (a b : list N) : map Some a = map Some b <-> a = b.
Proof.
  split; [|now intros ->]. revert b. induction a as [|x a IH]; intros [|y b] E; try discriminate; [reflexivity|]. cbn in E. injection E as E1 E2. f_equal; auto.
Qed.

(** ** CV rules *)

Definition same_told (x y : option N) : bool := match x, y with Some a, Some b => a =? b | None, None => true | _, _ => false end.
Lemma same_told_eq x y : same_told x y = true <-> x = y.
Proof. destruct x, y; cbn; split; try discriminate; try reflexivity; [intros E; apply N.eqb_eq in E; now subst|intros E; injection E as <-; apply N.eqb_refl]. Qed.
Lemma texts_agree (k : kind) {A} (table : list (N * A * string)) l c c' :
  forallb (fun x => forallb (fun y => Bool.eqb (leqb (match decode k x with Some (_, s) => s | None => [] end) (match decode k y with Some (_, s) => s | None => [] end))
    (same_told (recognised table x) (recognised table y))) l) l = true -> In c l -> In c' l ->
  ((match decode k c with Some (_, s) => s | None => [] end) = (match decode k c' with Some (_, s) => s | None => [] end) <-> recognised table c = recognised table c').
Proof.
  intros F I I'. rewrite forallb_forall in F. specialize (F c I). rewrite forallb_forall in F. specialize (F c' I'). apply eqb_prop in F.
  rewrite <- same_told_eq, <- F. symmetry. apply leqb_eq.
Qed.
Lemma bits_6_bound a : bits_of a 6 1 < 64.
Proof. unfold bits_of. apply N.mod_lt. discriminate. Qed.
Definition below64 : list N := map N.of_nat (seq 0 64).
Lemma in_below64 c : c < 64 -> In c below64.
Proof. intros H. apply in_map_iff. exists (N.to_nat c). split; [lia|]. apply in_seq. lia. Qed.
Lemma method_told a a' : code_text Method a 6 1 = code_text Method a' 6 1 <-> recognised cv_method_codes (bits_of a 6 1) = recognised cv_method_codes (bits_of a' 6 1).
Proof.
  unfold code_text. apply (texts_agree Method cv_method_codes below64); [vm_compute; reflexivity|..]; apply in_below64, bits_6_bound.
Qed.
Definition condition_word (c : N) : str := match decode Condition c with Some (_, s) => s | None => [] end.
Lemma condition_told b b' : is_byte b -> is_byte b' ->
  (code_text Condition b 8 1 = code_text Condition b' 8 1 <-> recognised cvm_condition_codes b = recognised cvm_condition_codes b').
Proof.
  intros H H'. unfold code_text. rewrite (bits_8 b H), (bits_8 b' H'). fold (condition_word b) (condition_word b').
  assert (R : forall b, is_byte b -> condition_word b = condition_word (N.min b 10) /\ recognised cvm_condition_codes b = recognised cvm_condition_codes (N.min b 10)).
  { clear. intros b H. assert (E : forallb (fun b => leqb (condition_word b) (condition_word (N.min b 10)) && same_told (recognised cvm_condition_codes b) (recognised cvm_condition_codes (N.min b 10))) all_bytes = true) by (vm_compute; reflexivity).
    pose proof (check_all_bytes _ E b H) as K. cbn beta in K. apply andb_true_iff in K. destruct K as [K1 K2]. split; [now apply leqb_eq|now apply same_told_eq]. }
  destruct (R b H) as [-> ->], (R b' H') as [-> ->].
  assert (I : forall b, In (N.min b 10) (map N.of_nat (seq 0 11))) by (intros x; apply in_map_iff; exists (N.to_nat (N.min x 10)); split; [lia|apply in_seq; lia]).
  unfold condition_word. apply (texts_agree Condition cvm_condition_codes (map N.of_nat (seq 0 11))); [vm_compute; reflexivity|apply I|apply I].
Qed.
Lemma flag_bound a : bits_of a 7 7 < 2.
Proof. unfold bits_of. apply N.mod_lt. discriminate. Qed.
Lemma titled_text i st a b : line_text (titled i st a b) = repeat 9 (N.to_nat (i mod 256)) ++ a ++ b.
Proof. unfold line_text, titled, row. cbn [l_tabs l_spans flat_map snd]. now rewrite app_nil_r. Qed.
Lemma bold_text i a : line_text (bold_row i a) = repeat 9 (N.to_nat (i mod 256)) ++ a.
Proof. unfold line_text, bold_row. cbn [l_tabs l_spans flat_map snd]. now rewrite app_nil_r. Qed.
Lemma heading_text i a : line_text (heading_row i a) = repeat 9 (N.to_nat (i mod 256)) ++ a.
Proof. unfold line_text, heading_row. cbn [l_tabs l_spans flat_map snd]. now rewrite app_nil_r. Qed.
Lemma flag_word a a' : (if bits_of a 7 7 =? 1 then lit " Next CVM" else lit " Fail") = (if bits_of a' 7 7 =? 1 then lit " Next CVM" else lit " Fail") <-> bits_of a 7 7 = bits_of a' 7 7.
Proof.
  pose proof (flag_bound a) as Fa. pose proof (flag_bound a') as Fb. split; [|now intros ->].
  intros E. destruct (bits_of a 7 7 =? 1) eqn:A, (bits_of a' 7 7 =? 1) eqn:B; try lia; discriminate E.
Qed.
Lemma list_pair_ind2 (P : list N -> Prop) : P [] -> (forall a b l, P l -> P (a :: b :: l)) -> forall l, Nat.even (List.length l) = true -> P l.
Proof. intros H0 H2. apply even_pair_ind; auto. Qed.
Lemma rules_told_iff i d : Nat.even (List.length d) = true -> forall d' k, Nat.even (List.length d') = true -> bytes_ok d -> bytes_ok d' ->
  (texts (rules_picture i k d) = texts (rules_picture i k d') <-> rules_told d = rules_told d').
Proof.
  revert d. apply (list_pair_ind2 (fun d => forall d' k, Nat.even (List.length d') = true -> bytes_ok d -> bytes_ok d' ->
  (texts (rules_picture i k d) = texts (rules_picture i k d') <-> rules_told d = rules_told d'))).
  - intros d' k Ev _ _. destruct d' as [|a' [|b' d']]; [tauto|discriminate|]. cbn. split; intros E; discriminate E.
  - intros a b d IH d' k Ev Ha Hb. destruct d' as [|a' [|b' d']]; [cbn; split; intros E; discriminate E|discriminate|].
    apply bytes_ok_cons in Ha, Hb. destruct Ha as [A Ha], Hb as [A' Hb]. apply bytes_ok_cons in Ha, Hb. destruct Ha as [B Ha], Hb as [B' Hb].
    specialize (IH d' (k + 1) Ev Ha Hb). cbn [rules_picture texts map rules_told]. fold (texts (rules_picture i (k + 1) d)) (texts (rules_picture i (k + 1) d')).
    rewrite !titled_text. pose proof (method_told a a') as M. pose proof (condition_told b b' B B') as C. pose proof (flag_word a a') as F. split.
    + intros E. injection E as E1 E2 E3 E4. apply app_inv_head in E1, E2, E3. injection E1 as E1. injection E2 as E2. apply (app_inv_head (lit "If Unsuccessful:")) in E3.
      apply M in E1. apply C in E2. apply F in E3. apply IH in E4. now rewrite E1, E2, E3, E4.
    + intros E. injection E as E1 E2 E3 E4. apply F in E1. apply M in E2. apply C in E3. apply IH in E4. now rewrite E1, E2, E3, E4.
Qed.
Lemma mentions_told d : Nat.even (List.length d) = true -> forall d', Nat.even (List.length d') = true -> bytes_ok d -> bytes_ok d' ->
  rules_told d = rules_told d' -> mentions_amount d = mentions_amount d'.
Proof.
  assert (K : forall b, is_byte b -> (6 <=? b) && (b <=? 9) = match recognised cvm_condition_codes b with Some c => (6 <=? c) && (c <=? 9) | None => false end).
  { intros b H. assert (E : forallb (fun b => Bool.eqb ((6 <=? b) && (b <=? 9)) (match recognised cvm_condition_codes b with Some c => (6 <=? c) && (c <=? 9) | None => false end)) all_bytes = true) by (vm_compute; reflexivity).
    pose proof (check_all_bytes _ E b H) as X. cbn beta in X. now apply eqb_prop in X. }
  revert d. apply (list_pair_ind2 (fun d => forall d', Nat.even (List.length d') = true -> bytes_ok d -> bytes_ok d' ->
  rules_told d = rules_told d' -> mentions_amount d = mentions_amount d')).
  - intros d' Ev _ _ E. destruct d' as [|a' [|b' d']]; [reflexivity|discriminate|]. discriminate E.
  - intros a b d IH d' Ev Ha Hb E. destruct d' as [|a' [|b' d']]; [discriminate|discriminate|].
    apply bytes_ok_cons in Ha, Hb. destruct Ha as [A Ha], Hb as [A' Hb]. apply bytes_ok_cons in Ha, Hb. destruct Ha as [B Ha], Hb as [B' Hb].
    cbn [rules_told] in E. injection E as E1 E2 E3 E4. cbn [mentions_amount]. rewrite (K b B), (K b' B'), E3. f_equal. now apply IH.
Qed.
Definition picture_told (f : list N -> option picture) (g : list N -> list (option N)) : Prop :=
  forall d d' q q', bytes_ok d -> bytes_ok d' -> f d = Some q -> f d' = Some q' -> (texts (q 0 true) = texts (q' 0 true) <-> g d = g d').
Lemma even_mod n : n mod 2 = 0 -> forall (d : list N), len d = n -> Nat.even (List.length d) = true.
Proof. intros E d L. unfold len in L. apply Nat.even_spec. exists (N.to_nat (n / 2)). lia. Qed.
Lemma amount_line w w' x x' y y' (r : str) : is_byte 0 -> 32 :: padded w x ++ 32 :: r = 32 :: padded w' x' ++ 32 :: r -> 32 :: padded w y = 32 :: padded w' y' -> x = x' /\ y = y'.
Proof.
  intros _ E1 E2. injection E1 as E1. injection E2 as E2. destruct (digits_then_space _ _ _ _ (padded_digits w x) (padded_digits w' x') E1) as [E _].
  split; eapply padded_inj; eassumption.
Qed.
Lemma cvm_list_told : picture_told cvm_list_picture (fun d => map Some (firstn 8 d) ++ rules_told (skipn 8 d)).
Proof.
  intros d d' q q' Hb Hb'. unfold cvm_list_picture. destruct ((8 <=? len d) && (len d mod 2 =? 0)) eqn:C; [|discriminate].
  destruct ((8 <=? len d') && (len d' mod 2 =? 0)) eqn:C'; [|discriminate]. 
  rewrite !andb_true_iff, !N.leb_le, !N.eqb_eq in *. destruct C as [L M], C' as [L' M'].
  assert (Cut : forall d, 8 <= len d -> len d mod 2 = 0 -> bytes_ok d -> exists x y r, d = x ++ y ++ r /\ List.length x = 4%nat /\ List.length y = 4%nat
    /\ Nat.even (List.length r) = true /\ bytes_ok x /\ bytes_ok y /\ bytes_ok r).
  { clear. intros d L M B. destruct d as [|x1 [|x2 [|x3 [|x4 [|y1 [|y2 [|y3 [|y4 r]]]]]]]]; try (unfold len in L; cbn in L; lia).
    exists [x1; x2; x3; x4], [y1; y2; y3; y4], r. change (x1 :: x2 :: x3 :: x4 :: y1 :: y2 :: y3 :: y4 :: r) with ([x1; x2; x3; x4] ++ [y1; y2; y3; y4] ++ r) in B.
    apply bytes_ok_app in B. destruct B as [B1 B]. apply bytes_ok_app in B. destruct B as [B2 B3]. repeat split; auto.
    apply Nat.even_spec. exists (N.to_nat (len r / 2)). unfold len in *. cbn [List.length] in M, L. lia. }
  destruct (Cut d L M Hb) as (x & y & r & -> & Lx & Ly & Ev & Bx & By & Br). destruct (Cut d' L' M' Hb') as (x' & y' & r' & -> & Lx' & Ly' & Ev' & Bx' & By' & Br'). clear Cut.
  cbn beta zeta. destruct (skip_4_4 x y r Lx Ly) as (-> & -> & ->). destruct (skip_4_4 x' y' r' Lx' Ly') as (-> & -> & ->).
  assert (F8 : forall (x y r : list N), List.length x = 4%nat -> List.length y = 4%nat -> firstn 8 (x ++ y ++ r) = x ++ y).
  { clear. intros x y r Lx Ly. destruct x as [|x1 [|x2 [|x3 [|x4 [|]]]]]; try discriminate Lx. destruct y as [|y1 [|y2 [|y3 [|y4 [|]]]]]; try discriminate Ly. reflexivity. }
  rewrite (F8 x y r Lx Ly), (F8 x' y' r' Lx' Ly'). cbv zeta. intros Q Q'. apply (f_equal (fun o => match o with Some q => q 0 true | None => [] end)) in Q, Q'. cbv beta iota in Q, Q'. rewrite <- Q, <- Q'. clear q q' Q Q'.
  assert (Split : map Some (x ++ y) ++ rules_told r = map Some (x' ++ y') ++ rules_told r' <-> be_value x = be_value x' /\ be_value y = be_value y' /\ rules_told r = rules_told r').
  { split.
    - intros E. assert (E1 : map Some (x ++ y) = map Some (x' ++ y') /\ rules_told r = rules_told r').
      { assert (Ln : List.length (map Some (x ++ y)) = List.length (map Some (x' ++ y'))) by (rewrite !map_length, !app_length; lia).
        split; [apply (f_equal (firstn (List.length (map Some (x ++ y))))) in E; rewrite Ln in E at 2|apply (f_equal (skipn (List.length (map Some (x ++ y))))) in E; rewrite Ln in E at 2].
        - rewrite !firstn_app, !Nat.sub_diag in E. cbn [firstn] in E. now rewrite !app_nil_r, !firstn_all in E.
        - rewrite !skipn_app, !Nat.sub_diag in E. cbn [skipn] in E. now rewrite !skipn_all in E. }
      destruct E1 as [E1 E2]. apply map_some_inj in E1. assert (E3 : x = x' /\ y = y').
      { clear -E1 Lx Ly Lx' Ly'. destruct x as [|x1 [|x2 [|x3 [|x4 [|]]]]]; try discriminate Lx. destruct x' as [|z1 [|z2 [|z3 [|z4 [|]]]]]; try discriminate Lx'.
        cbn [app] in E1. injection E1 as -> -> -> -> ->. auto. }
      destruct E3 as [-> ->]. auto.
    - intros (E1 & E2 & E3). apply be_value_inj in E1; auto; [|lia]. apply be_value_inj in E2; auto; [|lia]. now rewrite E1, E2, E3. }
  rewrite Split. clear Split F8. generalize dependent (be_value x). generalize dependent (be_value y). generalize dependent (be_value x'). generalize dependent (be_value y'). intros vy' vx' vy vx. pose proof (rules_told_iff 0 r Ev r' 1 Ev' Br Br') as R.
  pose proof (mentions_told r Ev r' Ev' Br Br') as Me.
  assert (Hd : forall l, line_text (heading_row 0 (lit l)) = lit l) by (intros l; apply heading_text).
  rewrite !texts_app. cbn [texts map]. fold (texts (rules_picture 0 1 r)) (texts (rules_picture 0 1 r')). rewrite !Hd. split.
  - intros E. destruct ((vx =? 0) && (vy =? 0) && negb (mentions_amount r)) eqn:Hid, ((vx' =? 0) && (vy' =? 0) && negb (mentions_amount r')) eqn:Hid'.
    + cbn [map app] in E. injection E as E. rewrite !andb_true_iff, !N.eqb_eq in *. apply R in E. destruct Hid as ((-> & ->) & _), Hid' as ((-> & ->) & _). auto.
    + exfalso. unfold amounts_picture in E. cbv zeta in E. cbn [texts map app] in E. rewrite !titled_text in E. discriminate E.
    + exfalso. unfold amounts_picture in E. cbv zeta in E. cbn [texts map app] in E. rewrite !titled_text in E. discriminate E.
    + unfold amounts_picture in E. cbv zeta in E. cbn [texts map app] in E. rewrite !titled_text in E. change (repeat 9 (N.to_nat (0 mod 256))) with (@nil N) in E. cbn [app] in E.
      injection E as E1 E2 E3. apply R in E3.
      destruct (digits_then_space _ _ _ _ (padded_digits _ vx) (padded_digits _ vx') E1) as [X _]. apply padded_inj in X. apply padded_inj in E2. auto.
  - intros (-> & -> & E). rewrite (Me E). apply R in E. now rewrite E.
Qed.

(** ** CVM results *)

Definition result_ranges (fl : bool) (m c r : str) (s : severity) : list bit_range :=
  (if fl then [mkRange 22 1 (lit "Apply succeeding CV Rule if this CVM is unsuccessful") SevNormal] else [])
  ++ [mkRange 21 6 (lit "Method: " ++ m) SevNormal; mkRange 15 8 (lit "Condition: " ++ c) SevNormal; mkRange 7 8 (lit "Result: " ++ r) s].
Lemma result_ranges_eq a b r s :
  map (fun x => mkRange (r_offset x + 8) (r_len x) (r_text x) (r_sev x)) (all_shown 2 cv_rule_bits [a; b]) ++ [mkRange 7 8 (lit "Result: " ++ r) s]
  = result_ranges (bits_of a 7 7 =? 1) (code_text Method a 6 1) (code_text Condition b 8 1) r s.
Proof.
  unfold all_shown, cv_rule_bits. cbn [flat_map]. unfold field_shown, flag, group, field_bits. cbn [e_kind e_byte e_hi e_lo e_label e_sev].
  change (nth (N.to_nat (1 - 1)) [a; b] 0) with a. change (nth (N.to_nat (2 - 1)) [a; b] 0) with b. unfold code_text, decode, optional.
  unfold result_ranges. destruct (bits_of a 7 7 =? 1), (find_code cv_method_codes (bits_of a 6 1)) as [[x1 x2]|], (find_code cvm_condition_codes (bits_of b 8 1)) as [[y1 y2]|]; reflexivity.
Qed.
Lemma cons_inj {A} (x y : A) a b : x :: a = y :: b -> x = y /\ a = b.
Proof. intros E. now injection E. Qed.
Lemma result_texts raw raw' fl fl' m m' c c' r r' s s' :
  texts (diagram 3 raw (result_ranges fl m c r s) 0 true) = texts (diagram 3 raw' (result_ranges fl' m' c' r' s') 0 true) ->
  draw 3 24 (bit_char raw) = draw 3 24 (bit_char raw') /\ fl = fl' /\ m = m' /\ c = c' /\ r = r'.
Proof.
  rewrite !diagram_texts. intros E. apply cons_inj in E. destruct E as [E1 E2]. split; [exact E1|]. clear E1. unfold diagram, result_ranges in E2.
  assert (Nil : forall x y : str, (fix app (l m : list N) {struct l} : list N := match l with [] => m | a :: l1 => a :: app l1 m end) x [] = (fix app (l m : list N) {struct l} : list N := match l with [] => m | a :: l1 => a :: app l1 m end) y [] -> x = y) by (intros x y K; change (x ++ [] = y ++ []) in K; now rewrite !app_nil_r in K).
  destruct fl, fl'; vm_compute in E2; try discriminate E2; injection E2 as X Y Z; apply Nil in X, Y, Z; auto.
Qed.
Lemma known_recognised {A} (table : list (N * A * string)) c : known_bits table c = match recognised table c with Some x => x | None => 0 end.
Proof. unfold known_bits, recognised. now destruct (find_code table c). Qed.
Lemma rule_bits_bytes a b : is_byte a -> is_byte b -> bytes_ok (rule_bits a b).
Proof.
  intros A B. unfold rule_bits. pose proof (flag_bound a) as F. pose proof (bits_6_bound a) as M. repeat constructor; unfold is_byte in *; unfold known_bits.
  - destruct (find_code cv_method_codes (bits_of a 6 1)); lia.
  - destruct (find_code cvm_condition_codes b); lia.
Qed.
Lemma cvm_results_told : picture_told cvm_results_picture (fun d => rules_told (firstn 2 d) ++ map Some (skipn 2 d)).
Proof.
  intros d d' q q' Hb Hb' Q Q'. unfold cvm_results_picture in Q, Q'. destruct d as [|a [|b [|c [|]]]]; try discriminate. destruct d' as [|a' [|b' [|c' [|]]]]; try discriminate.
  destruct (find_code cvm_result_codes c) as [[x r]|] eqn:F; [|discriminate]. destruct (find_code cvm_result_codes c') as [[x' r']|] eqn:F'; [|discriminate].
  cbn [option_map snd] in Q, Q'. rewrite result_ranges_eq in Q, Q'. apply (f_equal (fun o => match o with Some q => q 0 true | None => [] end)) in Q, Q'. cbv beta iota in Q, Q'.
  rewrite <- Q, <- Q'. clear q q' Q Q'. cbn [firstn skipn rules_told map app].
  apply bytes_ok_cons in Hb, Hb'. destruct Hb as [A Hb], Hb' as [A' Hb']. apply bytes_ok_cons in Hb, Hb'. destruct Hb as [B Hb], Hb' as [B' Hb'].
  pose proof (method_told a a') as M. pose proof (condition_told b b' B B') as C. pose proof (flag_bound a) as Fl. pose proof (flag_bound a') as Fl'. split.
  - intros E. apply result_texts in E. destruct E as (E1 & E2 & E3 & E4 & E5). apply M in E3. apply C in E4.
    assert (X : rule_bits a b ++ [c] = rule_bits a' b' ++ [c']).
    { apply (draw_inj 3); [reflexivity|reflexivity| | |exact E1]; apply bytes_ok_app; split; auto using rule_bits_bytes. }
    apply app_inj_tail in X. destruct X as [_ ->]. assert (Y : bits_of a 7 7 = bits_of a' 7 7) by (destruct (bits_of a 7 7 =? 1) eqn:K, (bits_of a' 7 7 =? 1) eqn:K'; (discriminate || lia)).
    now rewrite Y, E3, E4.
  - intros E. injection E as E1 E2 E3 E4. subst c'. rewrite F in F'. injection F' as <- <-.
    assert (R : rule_bits a b = rule_bits a' b') by (unfold rule_bits; now rewrite !known_recognised, E1, E2, E3). apply M in E2. apply C in E3. now rewrite R, E1, E2, E3.
Qed.

(** ** Issuer application data, tags, service codes *)

Lemma keep_all l : bytes_ok l -> keep_bits l (repeat 0xFF (List.length l)) = l.
Proof.
  induction l as [|b l IH]; intros H; [reflexivity|]. apply bytes_ok_cons in H. destruct H as [B H]. cbn [List.length repeat keep_bits]. rewrite IH by assumption. f_equal.
  change 0xFF with (N.ones 8). rewrite N.land_ones. apply N.mod_small. exact B.
Qed.
Lemma keep_app a b m n : List.length a = List.length m -> keep_bits (a ++ b) (m ++ n) = keep_bits a m ++ keep_bits b n.
Proof. revert m. induction a as [|x a IH]; intros [|y m] L; try discriminate; [reflexivity|]. cbn. f_equal. apply IH. now injection L. Qed.
Lemma iad_kept d cci dki cvr counters rest : iad_layout d cci dki cvr counters rest -> bytes_ok d ->
  keep_bits d iad_used = 0x0F :: cci :: dki :: keep_bits cvr cvr_used ++ counters ++ 0x0F :: rest.
Proof.
  intros (E & L1 & L2 & L3) H. rewrite E in *. apply bytes_ok_cons in H. destruct H as [_ H]. apply bytes_ok_cons in H. destruct H as [B1 H]. apply bytes_ok_cons in H. destruct H as [B2 H].
  apply bytes_ok_app in H. destruct H as [B3 H]. unfold iad_used.
  assert (X : forall x, is_byte x -> N.land x 0xFF = x) by (intros x Hx; change 0xFF with (N.ones 8); rewrite N.land_ones; now apply N.mod_small).
  cbn [app keep_bits]. rewrite (X cci B1), (X dki B2). change (N.land 15 255) with 15. do 3 f_equal.
  rewrite keep_app by exact L1. f_equal. rewrite <- (keep_all _ H) at 2. f_equal. rewrite app_length. cbn [List.length]. now rewrite L2, L3.
Qed.
Lemma app_len_inj {A} (a b x y : list A) : List.length a = List.length b -> a ++ x = b ++ y -> a = b /\ x = y.
Proof.
  revert b. induction a as [|u a IH]; intros [|v b] L E; try discriminate; [auto|]. cbn in E. injection E as -> E. injection L as L. destruct (IH b L E) as [-> ->]. auto.
Qed.
Lemma iad_told : picture_told iad_picture (fun d => map Some (keep_bits d iad_used)).
Proof.
  intros d d' q q' Hb Hb' Q Q'. rewrite map_some_inj. unfold iad_picture in Q, Q'.
  destruct ((len d =? 32) && _ && _ && _) eqn:C; [|discriminate]. destruct ((len d' =? 32) && _ && _ && _) eqn:C' in Q'; [|discriminate].
  rewrite !andb_true_iff, orb_true_iff, !N.eqb_eq in C, C'. destruct C as (((L & C0) & C16) & C1), C' as (((L' & C0') & C16') & C1').
  pose proof (iad_glue d L C0 C16) as Lay. pose proof (iad_glue d' L' C0' C16') as Lay'.
  apply (f_equal (fun o => match o with Some q => q 0 true | None => [] end)) in Q, Q'. cbv beta iota zeta in Q, Q'. rewrite <- Q, <- Q'. clear q q' Q Q'.
  rewrite (iad_kept _ _ _ _ _ _ Lay Hb), (iad_kept _ _ _ _ _ _ Lay' Hb').
  assert (V : forall d, bytes_ok d -> len d = 32 -> nth 0 d 0 = 0x0F -> nth 16 d 0 = 0x0F -> nth 1 d 0 = 0xA5 \/ nth 1 d 0 = 0xA6 -> exists v, bits_value 5 cvr_bits (firstn 5 (skipn 3 d)) v).
  { clear. intros d Hb L H0 H16 H1. destruct (C49_iad_accepted_iff d Hb) as [_ X]. destruct X as [v X]; [do 5 eexists; split; [exact (iad_glue d L H0 H16)|exact H1]|].
    destruct (exact_9F10 d Hb) as (X1 & _). rewrite X in X1. assert (Y : value_of [0x9F; 0x10] d (ValIad v)) by now apply X1.
    inversion Y as [| | | | | | | | |d' cci dki cvr counters rest vcci vcvr Lay V1 V2| | | | |]; subst.
    destruct (iad_cut _ _ _ _ _ _ Lay) as (_ & _ & _ & _ & _ & -> & _). eauto. }
  specialize (V d Hb L C0 C16 C1) as V1. specialize (V d' Hb' L' C0' C16' C1') as V2. clear V.
  generalize dependent (nth 1 d 0). generalize dependent (nth 2 d 0). generalize dependent (firstn 5 (skipn 3 d)). generalize dependent (firstn 8 (skipn 8 d)). generalize dependent (skipn 17 d).
  generalize dependent (nth 1 d' 0). generalize dependent (nth 2 d' 0). generalize dependent (firstn 5 (skipn 3 d')). generalize dependent (firstn 8 (skipn 8 d')). generalize dependent (skipn 17 d').
  intros dd' cn' cvr' V2 dki' cci' C1' Lay' dd cn cvr V1 dki cci C1 Lay.
  assert (Parts : forall d cci dki cvr cn dd, bytes_ok d -> iad_layout d cci dki cvr cn dd -> bytes_ok [cci] /\ is_byte dki /\ bytes_ok cvr /\ bytes_ok cn /\ bytes_ok dd
    /\ List.length cvr = 5%nat /\ List.length cn = 8%nat /\ List.length dd = 15%nat).
  { clear. intros d cci dki cvr cn dd H (E & L1 & L2 & L3). rewrite E in H. apply bytes_ok_cons in H. destruct H as [_ H]. apply bytes_ok_cons in H. destruct H as [B1 H].
    apply bytes_ok_cons in H. destruct H as [B2 H]. apply bytes_ok_app in H. destruct H as [B3 H]. apply bytes_ok_app in H. destruct H as [B4 H]. apply bytes_ok_cons in H. destruct H as [_ B5].
    repeat split; auto. apply bytes_ok_cons. split; [assumption|constructor]. }
  destruct (Parts _ _ _ _ _ _ Hb Lay) as (B1 & B2 & B3 & B4 & B5 & L1 & L2 & L3). destruct (Parts _ _ _ _ _ _ Hb' Lay') as (B1' & B2' & B3' & B4' & B5' & L1' & L2' & L3').
  destruct (bits_told cvr_try_from cvr_schema 5 cvr_bits cvr_used cvr cvr' ltac:(in_bit_values) eq_refl B3 B3' V1 V2 (0 + 1) true) as [T1 T2].
  clear Parts Lay Lay' V1 V2 C1 C1'. cbn [texts map]. rewrite !map_app. cbn [map]. rewrite !map_app. cbn [map]. rewrite !map_app. cbn [map].
  repeat match goal with |- context [map line_text ?x] => change (map line_text x) with (texts x) end. rewrite !titled_text. split.
  - intros E. apply cons_inj in E. destruct E as [_ E]. rewrite (diagram_texts 1 [cci]), (diagram_texts 1 [cci']) in E. cbn [app] in E. apply cons_inj in E. destruct E as [E1 E].
    apply app_inv_head in E1. apply draw_inj in E1; auto. injection E1 as <-. apply app_inv_head in E. apply cons_inj in E. destruct E as [E2 E]. apply app_inv_head, app_inv_head, app_inv_head in E2.
    apply byte_text_inj in E2; auto. subst dki'. apply cons_inj in E. destruct E as [_ E].
    assert (K : keep_bits cvr cvr_used = keep_bits cvr' cvr_used).
    { rewrite (diagram_texts 5 (keep_bits cvr cvr_used)), (diagram_texts 5 (keep_bits cvr' cvr_used)) in E. cbn [app] in E. apply cons_inj in E. destruct E as [E _]. apply app_inv_head in E.
      apply (draw_inj 5) in E; auto using keep_bits_bytes; unfold len; rewrite keep_bits_len by assumption; now rewrite ?L1, ?L1'. }
    rewrite (T2 K) in E. apply app_inv_head in E. apply cons_inj in E. destruct E as [_ E]. apply app_len_inj in E.
    2:{ unfold texts. rewrite !map_length. apply hex_dump_count. congruence. }
    destruct E as [E3 E]. apply hex_dump_inj in E3; [|congruence|assumption|assumption]. apply cons_inj in E. destruct E as [_ E]. apply hex_dump_inj in E; [|congruence|assumption|assumption]. now rewrite K, E3, E.
  - intros E. injection E as -> -> E. apply app_len_inj in E; [|rewrite !keep_bits_len by assumption; congruence]. destruct E as [K E]. apply app_len_inj in E; [|congruence]. destruct E as [-> E].
    injection E as ->. now rewrite (T2 K).
Qed.
Lemma identify_told : picture_told identify_picture (map Some).
Proof.
  intros d d' q q' Hb Hb' Q Q'. rewrite map_some_inj. destruct d as [|b t]; [discriminate|]. destruct d' as [|b' t']; [discriminate|]. cbn [identify_picture] in Q, Q'.
  apply (f_equal (fun o => match o with Some q => q 0 true | None => [] end)) in Q, Q'. cbv beta iota in Q, Q'. rewrite <- Q, <- Q'. clear q q' Q Q'. split.
  - intros E. cbn [texts map] in E. apply cons_inj in E. destruct E as [_ E]. apply cons_inj in E. destruct E as [E _]. unfold line_text, row in E. cbn [l_tabs l_spans flat_map snd] in E.
    apply app_inv_head, app_inv_head, app_inv_head in E. rewrite !app_nil_r in E. now apply (bytes_text_inj' (b :: t) (b' :: t')) in E.
  - intros E. injection E as -> ->. reflexivity.
Qed.
Lemma service_told n n' : texts (service_picture n 0 true) = texts (service_picture n' 0 true) <-> n = n'.
Proof.
  split; [|now intros ->]. intros E. unfold service_picture in E. cbn [texts map] in E. apply cons_inj in E. destruct E as [E _]. rewrite !bold_text in E. apply app_inv_head in E. now apply padded_inj in E.
Qed.
Lemma bits_picture_told parse sch n t m : In (parse, sch, n, t, m) bit_values -> n = N.of_nat (List.length m) -> picture_told (bits_picture n t m) (fun d => map Some (keep_bits d m)).
Proof.
  intros H L d d' q q' Hb Hb' Q Q'. rewrite map_some_inj. apply bits_picture_some in Q, Q'. destruct Q as [V ->], Q' as [V' ->].
  now apply (bits_told parse sch n t m d d' H L Hb Hb' V V').
Qed.
(* The operations on bytes and what is told of them. *)
Lemma all_told op f g : In (op, f) byte_operations -> In (op, g) told -> picture_told f g.
Proof.
  intros F G. unfold byte_operations in F. unfold told in G. cbn [In] in F, G.
  repeat (destruct F as [F|F]; [injection F as <- <-|]); [..|destruct F];
  (repeat (destruct G as [G|G]; [try discriminate G; injection G as <-|]); [|try destruct G]).
  - apply (bits_picture_told tvr_try_from tvr_schema); [in_bit_values|reflexivity].
  - apply iad_told.
  - apply (bits_picture_told cvr_try_from cvr_schema); [in_bit_values|reflexivity].
  - apply (bits_picture_told tsi_try_from tsi_schema); [in_bit_values|reflexivity].
  - apply cvm_results_told.
  - apply cvm_list_told.
  - apply identify_told.
Qed.

(** ** Blocks *)

(* A node as the parsers make it: everything follows from its tag and data. *)
Definition made (masks : list N) (n : raw_node) : Prop :=
  (exists t d, ing_node masks t d n) /\ tag_ok (node_tag n).
Lemma ing_node_parts masks t d n : ing_node masks t d n -> rt_tag (node_tag n) = t /\ rt_data (node_tag n) = d
  /\ rt_class (node_tag n) = class_of (first_byte t) /\ rt_type (node_tag n) = type_of (first_byte t).
Proof. intros H. inversion H; subst; cbn; repeat split; auto. Qed.
Lemma ing_node_det masks t d n n' : ing_node masks t d n -> ing_node masks t d n' -> n = n'.
Proof.
  intros H H'. inversion H as [d0 Hc|v objs cs Ty Ho Ht]; subst; inversion H' as [d1 Hc'|v' objs' cs' Ty' Ho' Ht']; subst.
  - reflexivity.
  - exfalso. destruct Hc as [Hc|[Hc|(v & E & Hc)]]; [congruence|discriminate|]. injection E as <-. apply Hc. eauto.
  - exfalso. destruct Hc' as [Hc|[Hc|(v' & E & Hc)]]; [congruence|discriminate|]. injection E as <-. apply Hc. eauto.
  - rewrite (ber_objects_det _ _ _ Ho' Ho) in Ht'. now rewrite (ber_trees_det _ _ _ Ht _ Ht').
Qed.
Lemma made_det masks n n' : made masks n -> made masks n' -> rt_tag (node_tag n) = rt_tag (node_tag n') -> rt_data (node_tag n) = rt_data (node_tag n') -> n = n'.
Proof.
  intros [(t & d & H) _] [(t' & d' & H') _] E1 E2. destruct (ing_node_parts _ _ _ _ H) as (X & Y & _), (ing_node_parts _ _ _ _ H') as (X' & Y' & _).
  rewrite X, X' in E1. rewrite Y, Y' in E2. subst t' d'. eapply ing_node_det; eassumption.
Qed.
Lemma ber_tree_made masks o n : ber_tree masks o n -> exists t d, ing_node masks t d n.
Proof.
  intros H. inversion H as [t v d R C|t v objs cs Ty Nm Ho Ht]; subst.
  - exists t, d. constructor. destruct R as [[M ->]|[M ->]]; [right; now left|]. destruct C as [C|[C|C]]; [now left|contradiction|]. right. right. eauto.
  - exists t, (Normal v). econstructor; eassumption.
Qed.
Lemma ber_trees_made masks os ns : ber_trees masks os ns -> Forall (fun n => exists t d, ing_node masks t d n) ns.
Proof. intros H. induction H; constructor; [eapply ber_tree_made; eassumption|assumption]. Qed.
Lemma ing_nodes_made masks es ns : ing_nodes masks es ns -> Forall (fun n => exists t d, ing_node masks t d n) ns.
Proof. intros H. induction H; [constructor|assumption|]. constructor; [eauto|assumption]. Qed.
Lemma top_tags_ok ns : forest_ok ns -> Forall (fun n => tag_ok (node_tag n)) ns.
Proof.
  intros F. apply Forall_flat_map in F. eapply Forall_impl; [|exact F]. intros [t c] P. cbn [preorder node_tag] in *. now apply Forall_cons_iff in P.
Qed.
Lemma block_made p masks op s f ns : text64 p s -> tlv_block masks op s f ns -> Forall (made masks) ns.
Proof.
  intros T B. destruct (tlv_op _ _ _ _ _ B) as [_ L]. destruct (L p) as [x X]. destruct (tlv_settles p masks op s x T X) as (Y & _ & _ & _ & _ & G).
  assert (F : forest_ok ns) by (apply (G f ns); now apply Y). apply top_tags_ok in F.
  assert (M : Forall (fun n => exists t d, ing_node masks t d n) ns).
  { inversion B as [s' ns' (objs & _ & H)|s' ns' (_ & es & _ & H)|s' ns' _ (_ & es & _ & H)|s' ns' _ _ (objs & _ & H)]; subst; eauto using ber_trees_made, ing_nodes_made. }
  rewrite Forall_forall in *. intros n I. split; auto.
Qed.
(* Tag and data can be read off the lines of a tag. *)
Lemma tag_row_text i t name : line_text (tag_row i t name) =
  repeat 9 (N.to_nat (i mod 256)) ++ lit "Tag:" ++ lit " 0x" ++ flat_map byte_text (rt_tag t) ++ 32 :: 45 :: 32 :: length_text (rt_data t) ++ 32 :: 45 :: 32 :: name.
Proof. unfold line_text, tag_row, row. cbn [l_tabs l_spans flat_map snd]. rewrite app_nil_r. reflexivity. Qed.
Lemma length_text_inj d d' x y : length_text d ++ 32 :: x = length_text d' ++ 32 :: y ->
  match d, d' with Normal l, Normal l' => List.length l = List.length l' | Masked, Masked => True | _, _ => False end.
Proof.
  assert (D : forall l (r : str), exists r', length_text (Normal l) ++ 32 :: r = dec (len l) ++ 32 :: r').
  { intros l r. cbn [length_text]. destruct (len l =? 1); eexists; rewrite <- app_assoc; reflexivity. }
  assert (H : forall n r x, dec n ++ 32 :: r <> lit "?? bytes" ++ x).
  { intros n r z E. destruct (dec_spec n) as (F & _). destruct (dec n) as [|c t]; [discriminate E|]. apply Forall_cons_iff in F. destruct F as [F _]. unfold is_dec_digit in F. injection E as E _. lia. }
  intros E. destruct d as [l|], d' as [l'|]; [| | |exact I].
  - destruct (D l x) as [r R], (D l' y) as [r' R']. rewrite R, R' in E. destruct (digits_then_space _ _ _ _ (proj1 (dec_spec (len l))) (proj1 (dec_spec (len l'))) E) as [E1 _].
    apply dec_inj in E1. unfold len in E1. lia.
  - destruct (D l x) as [r R]. rewrite R in E. exact (H _ _ _ E).
  - destruct (D l' y) as [r R]. rewrite R in E. symmetry in E. exact (H _ _ _ E).
Qed.
Lemma tag_lines_inj t t' i show X X' : tag_ok t -> tag_ok t' -> texts (tag_lines t i show) ++ X = texts (tag_lines t' i show) ++ X' -> rt_tag t = rt_tag t' /\ rt_data t = rt_data t'.
Proof.
  intros [B D] [B' D'] E. unfold tag_lines in E. cbn [texts map] in E. cbn [app] in E. apply cons_inj in E. destruct E as [E1 E2]. rewrite !tag_row_text in E1.
  apply app_inv_head, app_inv_head, app_inv_head in E1. apply bytes_text_inj in E1; auto. destruct E1 as [E0 E1]. split; [assumption|]. injection E1 as E1. apply length_text_inj in E1.
  unfold data_ok in *. unfold data_lines in E2. destruct (rt_data t) as [l|], (rt_data t') as [l'|]; try contradiction; [|reflexivity]. f_equal.
  destruct l as [|u l], l' as [|v l']; try discriminate; [reflexivity|]. rewrite !map_app, <- !app_assoc in E2. cbn [map app] in E2. apply cons_inj in E2. destruct E2 as [_ E2].
  apply app_len_inj in E2; [|rewrite !map_length; now apply wide_dump_count]. destruct E2 as [E2 _]. eapply wide_dump_inj; try eassumption; auto.
Qed.
Lemma separated_cons x t : separated (x :: t) = x ++ match t with [] => [] | _ => blank :: separated t end.
Proof. destruct t; cbn [separated]; [now rewrite app_nil_r|reflexivity]. Qed.
(* [R]: from the node parsed to the node shown. *)
Lemma forest_inj masks (R : raw_node -> raw_node -> Prop) : (forall a b c, R a b -> R a c -> b = c) -> (forall a b, R a b -> node_tag a = node_tag b) ->
  forall ns ms, Forall2 R ns ms -> forall ns' ms', Forall2 R ns' ms' -> Forall (made masks) ns -> Forall (made masks) ns' ->
  texts (forest_lines ms 0 true) = texts (forest_lines ms' 0 true) -> ns = ns' /\ ms = ms'.
Proof.
  intros Fn Tg ns ms F. induction F as [|n m ns ms Rn F IH]; intros ns' ms' F' M M' E.
  - destruct F' as [|n' m' ns' ms' Rn' F']; [auto|]. exfalso. unfold forest_lines in E. cbn [map] in E. rewrite separated_cons in E. destruct m' as [t c]. discriminate E.
  - destruct F' as [|n' m' ns' ms' Rn' F'].
    { exfalso. unfold forest_lines in E. cbn [map] in E. rewrite separated_cons in E. destruct m as [t c]. discriminate E. }
    apply Forall_cons_iff in M, M'. destruct M as [Mn M], M' as [Mn' M']. unfold forest_lines in E. cbn [map] in E. rewrite !separated_cons in E. rewrite !texts_app in E.
    assert (En : n = n').
    { pose proof (Tg _ _ Rn) as T1. pose proof (Tg _ _ Rn') as T2. destruct m as [t c], m' as [t' c']. cbn [node_tag] in T1, T2. cbn [tree_lines] in E. rewrite !texts_app, <- !app_assoc in E.
      apply tag_lines_inj in E; [|rewrite <- T1; apply Mn|rewrite <- T2; apply Mn']. destruct E as [E1 E2]. apply (made_det masks); auto; congruence. }
    subst n'. pose proof (Fn _ _ _ Rn Rn') as Em. subst m'. apply app_inv_head in E.
    destruct ms as [|m2 ms], ms' as [|m2' ms']; cbn [map] in E; try discriminate E.
    + inversion F; inversion F'; subst. auto.
    + cbn [texts map] in E. apply cons_inj in E. destruct E as [_ E]. destruct (IH ns' (m2' :: ms') F' M M') as [-> Q]; [exact E|]. now rewrite Q.
Qed.
Lemma in_order_det l l1 l2 : in_order l l1 -> in_order l l2 -> l1 = l2.
Proof.
  intros A B. apply in_order_conv in A, B. pose proof (arranged_unique _ _ A _ B) as E. apply (f_equal (map strip)) in E. rewrite !map_map in E.
  rewrite <- (map_id l1), <- (map_id l2). rewrite (map_ext _ _ (fun n => eq_sym (conv_strip n)) l1), (map_ext _ _ (fun n => eq_sym (conv_strip n)) l2). exact E.
Qed.
Definition node_in_order (a b : raw_node) : Prop := exists t c c', a = RawNode t c /\ b = RawNode t c' /\ in_order c c'.
Lemma each_forall m l : each_in_order m l -> Forall2 node_in_order m l.
Proof. intros H. induction H; constructor; [|assumption]. exists t, c, c'. auto. Qed.
Lemma node_in_order_det a b c : node_in_order a b -> node_in_order a c -> b = c.
Proof. intros (t & x & y & -> & -> & I) (t' & x' & y' & E & -> & I'). injection E as <- <-. now rewrite (in_order_det _ _ _ I I'). Qed.
