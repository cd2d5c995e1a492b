(** Proofs about the bit diagrams. *)

From Coq Require Import ZArith NArith List String Ascii Bool Lia ZifyN ZifyBool ZifyNat.
From Verif Require Import Base ModelUtil ModelEnums ModelBitflag ModelSchemas ModelTags ModelTlv ModelValues ModelProcess ModelDisplay
  SpecUtil SpecCodes SpecValues SpecDisplay ProofsUtil ProofsBer ProofsValues PropertiesValues ProofsDisplay.
Import ListNotations.
Local Open Scope N_scope.

(** ** Drawn lines *)

(* The blank before the bit with [k] bits to its left. *)
Definition gap (k : N) : str := if (k mod 8 =? 0) && (0 <? k) then [32] else [].

Lemma draw_0 n f : draw n 0 f = [].
Proof. reflexivity. Qed.
Lemma draw_succ n k f : draw n (k + 1) f = draw n k f ++ gap k ++ [f (8 * n - 1 - k)].
Proof.
  unfold draw, gap.
  assert (E : exists q r, k = 8 * q + r /\ r < 8) by (exists (k / 8), (k mod 8); lia). destruct E as (q & r & -> & Hr).
  destruct (N.eqb_spec ((8 * q + r) mod 8) 0) as [M|M]; cbn [andb].
  - assert (r = 0) by lia. subst r. destruct (N.ltb_spec 0 (8 * q + 0)) as [P|P].
    + replace (N.to_nat (8 * q + 0 + 1 + (8 * q + 0 + 1 - 1) / 8)) with (N.to_nat (8 * q + 0 + (8 * q + 0 - 1) / 8) + 2)%nat by lia.
      rewrite seq_app, map_app. f_equal. cbn [seq map app].
      set (c := (0 + N.to_nat (8 * q + 0 + (8 * q + 0 - 1) / 8))%nat).
      assert (C : N.of_nat c = 9 * q - 1) by lia. assert (C' : N.of_nat (S c) = 9 * q) by lia. rewrite C, C'.
      replace ((9 * q - 1) mod 9 =? 8) with true by lia. replace ((9 * q) mod 9 =? 8) with false by lia.
      f_equal. f_equal. f_equal. lia.
    + assert (q = 0) by lia. subst q. reflexivity.
  - replace (N.to_nat (8 * q + r + 1 + (8 * q + r + 1 - 1) / 8)) with (N.to_nat (8 * q + r + (8 * q + r - 1) / 8) + 1)%nat by lia.
    rewrite seq_app, map_app. f_equal. cbn [seq map app].
    set (c := (0 + N.to_nat (8 * q + r + (8 * q + r - 1) / 8))%nat).
    assert (C : N.of_nat c = 9 * q + r) by lia. rewrite C.
    replace ((9 * q + r) mod 9 =? 8) with false by lia. f_equal. f_equal. lia.
Qed.
Lemma draw_ext n k f g : (forall j, j < k -> f (8 * n - 1 - j) = g (8 * n - 1 - j)) -> draw n k f = draw n k g.
Proof.
  revert k. apply (N.peano_ind (fun k => (forall j, j < k -> f (8 * n - 1 - j) = g (8 * n - 1 - j)) -> draw n k f = draw n k g)); [reflexivity|].
  intros k IH H. rewrite <- N.add_1_r, !draw_succ. rewrite IH by (intros j Hj; apply H; lia). now rewrite (H k) by lia.
Qed.
Lemma draw_shift n k f : k <= 8 * n -> draw (n + 1) k f = draw n k (fun o => f (o + 8)).
Proof.
  revert k. apply (N.peano_ind (fun k => k <= 8 * n -> draw (n + 1) k f = draw n k (fun o => f (o + 8)))); [reflexivity|].
  intros k IH H. rewrite <- N.add_1_r, !draw_succ. rewrite IH by lia. do 3 f_equal. f_equal. lia.
Qed.

(** ** The binary line *)

Definition byte_bits (b : N) : str := map (fun o => if N.testbit b o then 49 else 48) [7; 6; 5; 4; 3; 2; 1; 0].
Lemma bits_of_byte_spec b : is_byte b -> bits_of_byte b = byte_bits b.
Proof.
  intros H. apply leqb_eq. apply (check_all_bytes (fun b => leqb (bits_of_byte b) (byte_bits b))); [vm_compute; reflexivity|exact H].
Qed.
Lemma be_value_snoc l b : be_value (l ++ [b]) = 256 * be_value l + b.
Proof.
  induction l as [|x l IH]; [cbn [app be_value List.length]; change (256 ^ N.of_nat 0) with 1; lia|].
  cbn [app be_value]. rewrite IH, app_length. cbn [List.length]. rewrite Nat2N.inj_add. change (N.of_nat 1) with 1.
  rewrite N.pow_add_r. change (256 ^ 1) with 256. lia.
Qed.
Lemma bit_high x b o : is_byte b -> N.testbit (256 * x + b) (o + 8) = N.testbit x o.
Proof.
  intros H. unfold is_byte in H. replace x with ((256 * x + b) / 2 ^ 8) at 2 by (change (2 ^ 8) with 256; lia).
  now rewrite N.div_pow2_bits.
Qed.
Lemma bit_low x b o : is_byte b -> o < 8 -> N.testbit (256 * x + b) o = N.testbit b o.
Proof.
  intros H Ho. unfold is_byte in H. rewrite <- (N.mod_pow2_bits_low _ 8 o Ho). f_equal. change (2 ^ 8) with 256. lia.
Qed.
Lemma binary_line_snoc l b : binary_line (l ++ [b]) = match l with [] => [] | _ => binary_line l ++ [32] end ++ bits_of_byte b.
Proof.
  induction l as [|x l IH]; [cbn; now rewrite ?app_nil_r|]. cbn [app binary_line]. rewrite IH.
  destruct l as [|y l]; cbn [app].
  - rewrite app_nil_r, <- app_assoc. reflexivity.
  - rewrite <- !app_assoc. reflexivity.
Qed.
Lemma draw_byte n k f b : k = 8 * (n - 1) -> 1 <= n -> (forall o, o < 8 -> f o = if N.testbit b o then 49 else 48) ->
  draw n (8 * n) f = draw n k f ++ gap k ++ byte_bits b.
Proof.
  intros -> Hn F. replace (8 * n) with (8 * (n - 1) + 1 + 1 + 1 + 1 + 1 + 1 + 1 + 1) at 1 by lia. rewrite !draw_succ, <- !app_assoc.
  f_equal. f_equal.
  assert (G : forall j, 1 <= j -> j < 8 -> gap (8 * (n - 1) + j) = []).
  { intros j H1 H2. unfold gap. now replace ((8 * (n - 1) + j) mod 8 =? 0) with false by lia. }
  rewrite <- !N.add_assoc. cbn [N.add Pos.add Pos.succ Pos.add_carry]. rewrite !G by lia. cbn [app]. unfold byte_bits. cbn [map].
  replace (8 * n - 1 - 8 * (n - 1)) with 7 by lia. replace (8 * n - 1 - (8 * (n - 1) + 1)) with 6 by lia.
  replace (8 * n - 1 - (8 * (n - 1) + 2)) with 5 by lia. replace (8 * n - 1 - (8 * (n - 1) + 3)) with 4 by lia.
  replace (8 * n - 1 - (8 * (n - 1) + 4)) with 3 by lia. replace (8 * n - 1 - (8 * (n - 1) + 5)) with 2 by lia.
  replace (8 * n - 1 - (8 * (n - 1) + 6)) with 1 by lia. replace (8 * n - 1 - (8 * (n - 1) + 7)) with 0 by lia.
  rewrite !F by reflexivity. reflexivity.
Qed.
Lemma binary_line_draw l : bytes_ok l -> binary_line l = draw (len l) (8 * len l) (bit_char l).
Proof.
  induction l as [|b l IH] using rev_ind; intros H; [reflexivity|]. apply bytes_ok_app in H. destruct H as [Hl Hb].
  apply bytes_ok_cons in Hb. destruct Hb as [Hb _].
  assert (L : len (l ++ [b]) = len l + 1) by (unfold len; rewrite app_length; cbn; lia). rewrite L, binary_line_snoc.
  rewrite (draw_byte (len l + 1) (8 * len l) _ b); [|lia|lia|].
  - rewrite draw_shift by lia. rewrite bits_of_byte_spec by assumption.
    assert (E : draw (len l) (8 * len l) (fun o => bit_char (l ++ [b]) (o + 8)) = draw (len l) (8 * len l) (bit_char l)).
    { apply draw_ext. intros j _. unfold bit_char. rewrite be_value_snoc. now rewrite bit_high. }
    rewrite E, <- IH by assumption. destruct l as [|x l]; [reflexivity|].
    assert (G : gap (8 * len (x :: l)) = [32]).
    { unfold gap, len. cbn [List.length]. replace ((8 * N.of_nat (S (List.length l))) mod 8 =? 0) with true by lia.
      now replace (0 <? 8 * N.of_nat (S (List.length l))) with true by lia. }
    rewrite G. now rewrite <- app_assoc.
  - intros o Ho. unfold bit_char. rewrite be_value_snoc. now rewrite bit_low.
Qed.

(** ** Explanation lines *)

Lemma nrange_nil a b : b <= a -> nrange a b = [].
Proof. intros H. unfold nrange. now replace (N.to_nat (b - a)) with O by lia. Qed.
Lemma nrange_snoc a b : a <= b -> nrange a (b + 1) = nrange a b ++ [b].
Proof.
  intros H. unfold nrange. replace (N.to_nat (b + 1 - a)) with (N.to_nat (b - a) + 1)%nat by lia.
  rewrite seq_app, map_app. f_equal. cbn [seq map]. f_equal. lia.
Qed.
Lemma nrange_cons a b : a < b -> nrange a b = a :: nrange (a + 1) b.
Proof.
  intros H. unfold nrange. replace (N.to_nat (b - a)) with (S (N.to_nat (b - (a + 1)))) by lia. cbn [seq map]. f_equal; [lia|].
  rewrite <- seq_shift, map_map. apply map_ext. intros k. lia.
Qed.
Lemma nrange_in a b i : In i (nrange a b) -> a <= i /\ i < b.
Proof. unfold nrange. intros H. apply in_map_iff in H. destruct H as (k & <- & Hk). apply in_seq in Hk. lia. Qed.

Lemma shl1_ok p k : k < 64 -> shl1_u64 p k = Ok (2 ^ k).
Proof. intros H. unfold shl1_u64. rewrite (proj2 (N.ltb_lt _ _) H). now rewrite N.shiftl_1_l. Qed.
Lemma arm_bits_ok p l : (forall r, In r l -> r_offset r < 64) -> forall acc,
  exists m, arm_bits p l acc = Ok m /\ forall o, N.testbit m o = N.testbit acc o || existsb (starts o) l.
Proof.
  induction l as [|r l IH]; intros H acc.
  - exists acc. split; [reflexivity|]. intros o. cbn. now rewrite orb_false_r.
  - cbn [arm_bits]. rewrite shl1_ok by (apply H; now left). cbn [bind].
    destruct (IH (fun x Hx => H x (or_intror Hx)) (N.lor acc (2 ^ r_offset r))) as (m & E & T). exists m. split; [exact E|].
    intros o. rewrite T, N.lor_spec, N.pow2_bits_eqb. cbn [existsb]. unfold starts at 2. rewrite N.eqb_sym. now rewrite orb_assoc.
Qed.
Lemma land_pow2 m o : (0 <? N.land m (2 ^ o)) = N.testbit m o.
Proof.
  destruct (N.testbit m o) eqn:T.
  - apply N.ltb_lt. destruct (N.eq_dec (N.land m (2 ^ o)) 0) as [E|E]; [|lia].
    assert (X : N.testbit (N.land m (2 ^ o)) o = true) by (now rewrite N.land_spec, T, N.pow2_bits_true). rewrite E in X.
    rewrite N.bits_0 in X. discriminate.
  - apply N.ltb_ge. assert (X : N.land m (2 ^ o) = 0); [|now rewrite X]. apply N.bits_inj. intros i. rewrite N.land_spec, N.pow2_bits_eqb, N.bits_0.
    destruct (N.eqb_spec o i) as [->|]; [now rewrite T|apply andb_false_r].
Qed.
Lemma u8_sub_ok p a b : b <= a -> u8_sub p a b = Ok (a - b).
Proof. intros H. unfold u8_sub. now rewrite (proj2 (N.leb_le _ _) H). Qed.

Lemma leading_text n g : forall k, k < 8 * n ->
  flat_map (fun i => g (8 * n - i) :: (if (8 * n - i) mod 8 =? 0 then [32] else [])) (nrange 1 (k + 1)) = draw n k g ++ gap k.
Proof.
  apply (N.peano_ind (fun k => k < 8 * n -> flat_map (fun i => g (8 * n - i) :: (if (8 * n - i) mod 8 =? 0 then [32] else [])) (nrange 1 (k + 1)) = draw n k g ++ gap k));
    [reflexivity|].
  intros k IH H. rewrite <- N.add_1_r, nrange_snoc by lia. rewrite flat_map_app, IH by lia. rewrite draw_succ. cbn [flat_map]. rewrite app_nil_r, <- !app_assoc.
  f_equal. f_equal. replace (8 * n - 1 - k) with (8 * n - (k + 1)) by lia. cbn [app]. f_equal. unfold gap.
  replace ((k + 1) mod 8 =? 0) with ((8 * n - (k + 1)) mod 8 =? 0) by lia. replace (0 <? k + 1) with true by lia. now rewrite andb_true_r.
Qed.

Lemma explanation_shows p n i ranges arms show r : n <= 8 -> r_offset r < 8 * n ->
  (forall o, N.testbit arms o = existsb (starts o) ranges) ->
  shows_lines (explanation_line p (8 * n) arms (i mod 256) show r)
    [mkLine i [(None, draw n (8 * n - r_offset r) (elbow_char ranges r) ++ [32]); (severity_style show (r_sev r), r_text r)] (severity_style show (r_sev r))].
Proof.
  intros Hn Ho Ha. apply shows_line. unfold explanation_line, render_line. cbn [l_tabs l_spans l_end flat_map fst snd].
  apply prints_then; [apply prints_tabs|]. rewrite u8_sub_ok by lia. cbn [dlet].
  set (g := fun o => if existsb (starts o) ranges then 0x2502 else 32).
  assert (W : writes (dfor (nrange 1 (8 * n - r_offset r)) (fun i0 => dlet (u8_sub p (8 * n) i0) (fun b => dlet (shl1_u64 p b) (fun m =>
                dtxt (if 0 <? N.land arms m then [ch_bar] else [32]) >>> (if b mod 8 =? 0 then dtxt [32] else dnil)))))
              (draw n (8 * n - r_offset r - 1) g ++ gap (8 * n - r_offset r - 1))).
  { rewrite <- leading_text by lia. replace (8 * n - r_offset r - 1 + 1) with (8 * n - r_offset r) by lia. apply dfor_writes.
    intros x Hx. apply nrange_in in Hx. rewrite u8_sub_ok by lia. cbn [dlet]. rewrite shl1_ok by lia. cbn [dlet].
    rewrite land_pow2, Ha. change (g (8 * n - x) :: (if (8 * n - x) mod 8 =? 0 then [32] else []))
      with ([g (8 * n - x)] ++ (if (8 * n - x) mod 8 =? 0 then [32] else [])). apply writes_then.
    - unfold g. destruct (existsb (starts (8 * n - x)) ranges); apply writes_txt.
    - destruct ((8 * n - x) mod 8 =? 0); [apply writes_txt|apply writes_nil]. }
  assert (D : draw n (8 * n - r_offset r) (elbow_char ranges r) = (draw n (8 * n - r_offset r - 1) g ++ gap (8 * n - r_offset r - 1)) ++ [ch_corner_l]).
  { replace (8 * n - r_offset r) with (8 * n - r_offset r - 1 + 1) at 1 by lia. rewrite draw_succ, <- app_assoc. f_equal.
    - apply draw_ext. intros j Hj. unfold elbow_char. now replace (8 * n - 1 - j =? r_offset r) with false by lia.
    - f_equal. f_equal. unfold elbow_char. now replace (8 * n - 1 - (8 * n - r_offset r - 1) =? r_offset r) with true by lia. }
  eapply prints_eq.
  { apply prints_then; [apply writes_prints; exact W|]. apply prints_then; [apply writes_prints, writes_txt|].
    apply prints_styled. apply writes_ln. }
  rewrite D, app_nil_r, !ink_app. rewrite <- !app_assoc. unfold severity_colour, severity_style. cbn [app ink map].
  reflexivity.
Qed.

(** ** The arms *)

Definition blanks (s : str) : Prop := Forall (fun c => c = 32) s.
Lemma blanks_repeat s : blanks s -> s = repeat 32 (List.length s).
Proof. induction 1 as [|c s -> _ IH]; [reflexivity|]. cbn. now f_equal. Qed.
Lemma blanks_comm a b : blanks a -> blanks b -> a ++ b = b ++ a.
Proof. intros Ha Hb. rewrite (blanks_repeat a Ha), (blanks_repeat b Hb), <- !repeat_app. f_equal. lia. Qed.
Lemma blanks_app a b : blanks a -> blanks b -> blanks (a ++ b).
Proof. intros. apply Forall_app. auto. Qed.

Section Arms.
  Variables (p : platform) (n : N) (f : N -> N).
  Hypothesis Hn : n <= 8.

  Definition bit_gap (i : N) : str := if ((i + 1) mod 8 =? 0) && (i + 1 <? 8 * n) then [32] else [].
  Lemma bit_gap_gap i : i < 8 * n -> bit_gap i = gap (8 * n - 1 - i).
  Proof.
    intros H. unfold bit_gap, gap. replace ((8 * n - 1 - i) mod 8 =? 0) with ((i + 1) mod 8 =? 0) by lia.
    now replace (0 <? 8 * n - 1 - i) with (i + 1 <? 8 * n) by lia.
  Qed.
  Lemma bit_gap_blanks i : blanks (bit_gap i).
  Proof. unfold bit_gap. destruct (_ && _); repeat constructor. Qed.

  Definition skip_text (first o current : N) : str := flat_map (fun i => bit_gap i ++ (if i =? first then [] else [32])) (nrange o (current + 1)).
  Lemma skip_blanks first o current : blanks (skip_text first o current).
  Proof.
    unfold skip_text. apply Forall_flat_map. apply Forall_forall. intros i _. apply blanks_app; [apply bit_gap_blanks|].
    destruct (i =? first); repeat constructor.
  Qed.
  Lemma skip_draw first current : current < 8 * n -> (forall o, first < o -> o <= current -> f o = 32) ->
    forall d, d <= current - first -> first <= current ->
    draw n (8 * n - 1 - current) f ++ skip_text first (current + 1 - d) current = draw n (8 * n - 1 - current + d) f.
  Proof.
    intros Hc Hf. apply (N.peano_ind (fun d => d <= current - first -> first <= current ->
      draw n (8 * n - 1 - current) f ++ skip_text first (current + 1 - d) current = draw n (8 * n - 1 - current + d) f)).
    - intros _ _. unfold skip_text. rewrite nrange_nil by lia. cbn. now rewrite app_nil_r, N.add_0_r.
    - intros d IH H1 H2. unfold skip_text. rewrite nrange_cons by lia. cbn [flat_map].
      replace (current + 1 - N.succ d + 1) with (current + 1 - d) by lia. fold (skip_text first (current + 1 - d) current).
      replace (current + 1 - N.succ d =? first) with false by lia.
      rewrite (blanks_comm _ (skip_text first (current + 1 - d) current)).
      2:{ apply blanks_app; [apply bit_gap_blanks|repeat constructor]. } 2:apply skip_blanks.
      rewrite app_assoc, IH by lia. replace (8 * n - 1 - current + N.succ d) with (8 * n - 1 - current + d + 1) by lia. rewrite draw_succ. f_equal.
      rewrite bit_gap_gap by lia. f_equal; [f_equal; lia|]. f_equal. rewrite Hf; [reflexivity|lia|lia].
  Qed.
  Lemma skip_to first current : current < 8 * n -> (forall o, first < o -> o <= current -> f o = 32) -> first <= current ->
    draw n (8 * n - 1 - current) f ++ skip_text first first current = draw n (8 * n - 1 - first) f ++ gap (8 * n - 1 - first).
  Proof.
    intros Hc Hf Hle. unfold skip_text. rewrite nrange_cons by lia. cbn [flat_map]. rewrite N.eqb_refl, app_nil_r.
    fold (skip_text first (first + 1) current). rewrite (blanks_comm _ (skip_text first (first + 1) current) (bit_gap_blanks _) (skip_blanks _ _ _)).
    rewrite app_assoc. replace (first + 1) with (current + 1 - (current - first)) by lia. rewrite skip_draw by (assumption || lia).
    rewrite bit_gap_gap by lia. do 2 f_equal. lia.
  Qed.
  Lemma skip_writes first current : current < 8 * n ->
    writes (dfor (nrange first (current + 1)) (fun i => dlet (u8_add p i 1) (fun i1 =>
              (if (i1 mod 8 =? 0) && (i1 <? 8 * n) then dtxt [32] else dnil) >>> (if i =? first then dnil else dtxt [32]))))
           (skip_text first first current).
  Proof.
    intros Hc. apply dfor_writes. intros i Hi. apply nrange_in in Hi. unfold u8_add, checked.
    rewrite (proj2 (N.ltb_lt (i + 1) 256)) by lia. cbn [dlet]. apply writes_then.
    - unfold bit_gap. destruct (_ && _); [apply writes_txt|apply writes_nil].
    - destruct (i =? first); [apply writes_nil|apply writes_txt].
  Qed.

  (* Bits of the same byte follow each other without a blank. *)
  Lemma same_byte_draw o : o < 8 * n -> forall m, m <= o mod 8 ->
    draw n (8 * n - o + m) f = draw n (8 * n - o) f ++ map (fun j => f (o - j)) (nrange 1 (m + 1)).
  Proof.
    intros Ho. apply (N.peano_ind (fun m => m <= o mod 8 -> draw n (8 * n - o + m) f = draw n (8 * n - o) f ++ map (fun j => f (o - j)) (nrange 1 (m + 1)))).
    - intros _. rewrite N.add_0_r. cbn. now rewrite app_nil_r.
    - intros m IH Hm. replace (8 * n - o + N.succ m) with (8 * n - o + m + 1) by lia. rewrite draw_succ, IH by lia.
      rewrite <- N.add_1_r, (nrange_snoc 1 (m + 1)) by lia. rewrite map_app, <- !app_assoc. f_equal. f_equal.
      unfold gap. replace ((8 * n - o + m) mod 8 =? 0) with false by lia. cbn [andb app map]. f_equal. f_equal. lia.
  Qed.
  Lemma map_const_range a b c (g : N -> N) : (forall j, a <= j -> j < b -> g j = c) -> map g (nrange a b) = repeat c (N.to_nat (b - a)).
  Proof.
    intros H. unfold nrange. rewrite map_map.
    assert (G : forall k s, (forall j, (s <= j)%nat -> (j < s + k)%nat -> g (a + N.of_nat j) = c) -> map (fun x => g (a + N.of_nat x)) (seq s k) = repeat c k).
    { clear. induction k as [|k IH]; intros s H; [reflexivity|]. cbn [seq map repeat]. f_equal; [apply H; lia|]. apply IH. intros j H1 H2. apply H; lia. }
    apply G. intros j H1 H2. apply H; lia.
  Qed.

  Lemma range_draw r : r_offset r < 8 * n -> 1 <= r_len r -> in_one_byte r ->
    (forall o, low_bit r <= o -> o <= r_offset r -> f o = arm_char [r] o) ->
    exists s, writes (if 1 <? r_len r
                      then dtxt [ch_tee] >>> dlet (u8_sub p (r_len r) 2) (fun k => dtxt (repeat ch_dash (N.to_nat k))) >>> dtxt [ch_corner_r]
                      else dtxt [ch_bar]) s
      /\ draw n (8 * n - 1 - r_offset r) f ++ gap (8 * n - 1 - r_offset r) ++ s = draw n (8 * n - low_bit r) f.
  Proof.
    unfold in_one_byte. intros Ho Hl Hb Hf.
    assert (D : draw n (8 * n - r_offset r) f = draw n (8 * n - 1 - r_offset r) f ++ gap (8 * n - 1 - r_offset r) ++ [f (r_offset r)]).
    { replace (8 * n - r_offset r) with (8 * n - 1 - r_offset r + 1) by lia. rewrite draw_succ. do 3 f_equal. f_equal. lia. }
    assert (A : forall o, low_bit r <= o -> o <= r_offset r -> find (covers o) [r] = Some r).
    { intros o H1 H2. cbn. unfold covers. rewrite (proj2 (N.leb_le _ _) H1), (proj2 (N.leb_le _ _) H2). reflexivity. }
    unfold low_bit in *. destruct (N.ltb_spec 1 (r_len r)) as [L|L].
    - exists ([ch_tee] ++ repeat ch_dash (N.to_nat (r_len r - 2)) ++ [ch_corner_r]). split.
      + apply writes_then; [apply writes_txt|]. apply writes_then; [|apply writes_txt]. rewrite u8_sub_ok by lia. apply writes_txt.
      + replace (8 * n - (r_offset r + 1 - r_len r)) with (8 * n - r_offset r + (r_len r - 1)) by lia. rewrite same_byte_draw by lia.
        rewrite D, <- !app_assoc. f_equal. f_equal. cbn [app]. f_equal.
        * rewrite Hf by lia. unfold arm_char. rewrite A by lia. rewrite N.eqb_refl. now replace (r_len r =? 1) with false by lia.
        * rewrite nrange_snoc by lia. rewrite map_app. f_equal.
          -- rewrite (map_const_range 1 (r_len r - 1) ch_dash); [f_equal; lia|]. intros j H1 H2. rewrite Hf by lia. unfold arm_char. rewrite A by lia.
             replace (r_len r =? 1) with false by lia. replace (r_offset r - j =? r_offset r) with false by lia.
             unfold low_bit. now replace (r_offset r - j =? r_offset r + 1 - r_len r) with false by lia.
          -- cbn [map]. f_equal. rewrite Hf by lia. unfold arm_char. rewrite A by lia. replace (r_len r =? 1) with false by lia.
             replace (r_offset r - (r_len r - 1) =? r_offset r) with false by lia.
             unfold low_bit. now replace (r_offset r - (r_len r - 1) =? r_offset r + 1 - r_len r) with true by lia.
    - exists [ch_bar]. split; [apply writes_txt|]. replace (8 * n - (r_offset r + 1 - r_len r)) with (8 * n - r_offset r) by lia. rewrite D.
      do 2 f_equal. rewrite Hf by lia. unfold arm_char. rewrite A by lia. now replace (r_len r =? 1) with true by lia.
  Qed.

  Lemma last_low_cons r t : t <> [] -> last_low (r :: t) = last_low t.
  Proof.
    intros H. unfold last_low. cbn [rev]. destruct (rev t) eqn:E; [|reflexivity]. apply (f_equal (@rev _)) in E. rewrite rev_involutive in E. contradiction.
  Qed.

  Lemma left_covers limit l o : left_to_right limit l -> limit <= o -> find (covers o) l = None.
  Proof.
    revert limit. induction l as [|r l IH]; intros limit H Hle; [reflexivity|]. cbn in H. destruct H as (H1 & H2 & H3 & H4). cbn [find].
    unfold covers at 1. replace (o <=? r_offset r) with false by lia. rewrite andb_false_r. apply (IH _ H4). lia.
  Qed.

  Lemma header_arms_writes : forall ranges current, left_to_right (current + 1) ranges -> Forall in_one_byte ranges -> current < 8 * n ->
    (forall o, o <= current -> f o = arm_char ranges o) -> ranges <> [] ->
    exists s, writes (header_arms p (8 * n) ranges current) s
              /\ draw n (8 * n - 1 - current) f ++ s = draw n (8 * n - last_low ranges) f.
  Proof.
    induction ranges as [|r t IH]; intros current L B Hc Hf Hne; [congruence|].
    cbn [left_to_right] in L. destruct L as (L1 & L2 & L3 & L4). inversion B as [|? ? B1 B2]; subst. cbn [header_arms].
    destruct (range_draw r) as (s2 & W2 & E2); [lia|assumption|assumption| |].
    { intros o H1 H2. rewrite Hf by lia. unfold arm_char. cbn [find]. unfold covers.
      now rewrite (proj2 (N.leb_le _ _) H1), (proj2 (N.leb_le _ _) H2). }
    assert (E1 : draw n (8 * n - 1 - current) f ++ skip_text (r_offset r) (r_offset r) current
                 = draw n (8 * n - 1 - r_offset r) f ++ gap (8 * n - 1 - r_offset r)).
    { apply skip_to; [assumption| |lia]. intros o H1 H2. rewrite Hf by lia. unfold arm_char. cbn [find]. unfold covers at 1.
      replace (o <=? r_offset r) with false by lia. rewrite andb_false_r. rewrite (left_covers _ t o L4) by lia. reflexivity. }
    assert (W1 := skip_writes (r_offset r) current Hc).
    destruct t as [|r' t].
    - exists (skip_text (r_offset r) (r_offset r) current ++ s2 ++ []). split.
      + apply writes_then; [exact W1|]. apply writes_then; [exact W2|]. destruct (r_len r <? r_offset r) eqn:E.
        * rewrite u8_sub_ok by lia. apply writes_nil.
        * apply writes_nil.
      + rewrite app_nil_r, app_assoc, E1, <- app_assoc, E2. reflexivity.
    - assert (Lo : 1 <= low_bit r). { unfold low_bit. cbn [left_to_right] in L4. lia. }
      assert (Cur : exists s, writes (header_arms p (8 * n) (r' :: t) (low_bit r - 1)) s
                    /\ draw n (8 * n - low_bit r) f ++ s = draw n (8 * n - last_low (r' :: t)) f).
      { destruct (IH (low_bit r - 1)) as (s & W & E).
        - replace (low_bit r - 1 + 1) with (r_offset r + 1 - r_len r) by (unfold low_bit in *; lia). exact L4.
        - assumption.
        - unfold low_bit in *. lia.
        - intros o Ho. rewrite Hf by (unfold low_bit in *; lia). unfold arm_char. cbn [find]. unfold covers at 1.
          now replace (low_bit r <=? o) with false by lia.
        - discriminate.
        - exists s. split; [exact W|]. rewrite <- E. f_equal. f_equal. unfold low_bit in *. lia. }
      destruct Cur as (s3 & W3 & E3). exists (skip_text (r_offset r) (r_offset r) current ++ s2 ++ s3). split.
      + apply writes_then; [exact W1|]. apply writes_then; [exact W2|]. destruct (N.ltb_spec (r_len r) (r_offset r)) as [Q|Q].
        * rewrite u8_sub_ok by lia. cbn [dlet]. replace (r_offset r - r_len r) with (low_bit r - 1) by (unfold low_bit; lia). exact W3.
        * replace 0 with (low_bit r - 1) by (unfold low_bit in *; lia). exact W3.
      + rewrite (last_low_cons r) by discriminate. rewrite <- E3, <- E2, <- !app_assoc. rewrite (app_assoc (draw n (8 * n - 1 - current) f)), E1, <- !app_assoc. reflexivity.
  Qed.
End Arms.

(** ** The whole diagram *)

Lemma rev_starts o l : existsb (starts o) (rev l) = existsb (starts o) l.
Proof.
  induction l as [|r l IH]; [reflexivity|]. cbn [rev existsb]. rewrite existsb_app, IH. cbn. rewrite orb_false_r. apply orb_comm.
Qed.
Lemma shows_dfor {A} (l : list A) f g : (forall x, In x l -> shows_lines (f x) (g x)) -> shows_lines (dfor l f) (flat_map g l).
Proof.
  induction l as [|x l IH]; intros H; [apply shows_nil|]. cbn [dfor flat_map]. apply shows_then; [apply H; now left|].
  apply IH. intros y Hy. apply H. now right.
Qed.
Lemma map_flat_map {A B} (f : A -> B) l : map f l = flat_map (fun x => [f x]) l.
Proof. induction l as [|x l IH]; [reflexivity|]. cbn. now f_equal. Qed.

Theorem display_bits_shows p n raw ranges i show : 1 <= n -> n <= 8 -> len raw = n -> bytes_ok raw ->
  left_to_right (8 * n) ranges -> Forall in_one_byte ranges ->
  shows_lines (display_bits p n raw ranges (i mod 256) show) (diagram n raw ranges i show).
Proof.
  intros H1 Hn Hl Hb L B. unfold display_bits, diagram. rewrite (N.mod_small n) by lia. unfold checked. rewrite (proj2 (N.ltb_lt _ _)) by lia. cbn [dlet].
  replace (n * 8) with (8 * n) by lia.
  assert (Off : forall r, In r ranges -> r_offset r < 8 * n) by (intros r; now apply left_to_right_offset).
  destruct (arm_bits_ok p (rev ranges)) with (acc := 0) as (arms & Ea & Ta).
  { intros r Hr. apply in_rev in Hr. specialize (Off r Hr). lia. }
  assert (Ta' : forall o, N.testbit arms o = existsb (starts o) ranges).
  { intros o. rewrite Ta, N.bits_0, rev_starts. reflexivity. }
  rewrite Ea. cbn [dlet].
  match goal with |- shows_lines (?a >>> ?b >>> ?c >>> ?d >>> ?e >>> ?r) _ =>
    replace (a >>> b >>> c >>> d >>> e >>> r) with ((a >>> b >>> (c >>> d) >>> e) >>> r) by (now rewrite !then_assoc) end.
  change (bold_row i (draw n (8 * n) (bit_char raw)) :: ?x) with ([bold_row i (draw n (8 * n) (bit_char raw))] ++ x).
  apply shows_then.
  { apply shows_line. unfold render_line. cbn [l_tabs l_spans l_end flat_map fst snd]. apply prints_then; [apply prints_tabs|].
    eapply prints_eq; [apply prints_styled; apply writes_then; [apply writes_txt|apply writes_ln]|].
    rewrite binary_line_draw by assumption. rewrite Hl, app_nil_l, ink_app, app_nil_r. reflexivity. }
  apply shows_then.
  { destruct (existsb (fun r => 1 <? r_len r) ranges) eqn:M; [|apply shows_nil]. rewrite u8_sub_ok by lia. cbn [dlet].
    apply shows_line. unfold render_line. cbn [l_tabs l_spans l_end flat_map fst snd]. apply prints_then; [apply prints_tabs|].
    destruct (header_arms_writes p n (arm_char ranges) Hn ranges (8 * n - 1)) as (s & W & E).
    - now replace (8 * n - 1 + 1) with (8 * n) by lia.
    - assumption.
    - lia.
    - reflexivity.
    - intros ->. discriminate.
    - replace (8 * n - 1 - (8 * n - 1)) with 0 in E by lia. rewrite draw_0 in E. cbn [app] in E. rewrite <- E.
      eapply prints_eq; [apply writes_prints; apply writes_then; [exact W|apply writes_ln]|]. rewrite app_nil_l, ink_app, app_nil_r. reflexivity. }
  rewrite map_flat_map. apply shows_dfor. intros r Hr. apply in_rev in Hr. now apply explanation_shows; auto.
Qed.

(* Where the characters of a drawn line stand. *)
Lemma draw_length n k f : len (draw n k f) = k + (k - 1) / 8.
Proof. unfold draw, len. rewrite map_length, seq_length. lia. Qed.
Lemma draw_at n k f o : o < 8 * n -> 8 * n - k <= o -> nth_error (draw n k f) (N.to_nat (column n o)) = Some (f o).
Proof.
  intros H1 H2. unfold draw, column. set (j := 8 * n - 1 - o).
  assert (J : j < k) by (unfold j; lia).
  rewrite nth_error_map. rewrite (nth_error_nth' _ O) by (rewrite seq_length; lia). rewrite seq_nth by lia. cbn [option_map Nat.add].
  rewrite N2Nat.id. replace ((j + j / 8) mod 9 =? 8) with false by lia. f_equal. f_equal. unfold j. lia.
Qed.
Lemma draw_blank n k f c : c < k + (k - 1) / 8 -> c mod 9 = 8 -> nth_error (draw n k f) (N.to_nat c) = Some 32.
Proof.
  intros H1 H2. unfold draw. rewrite nth_error_map. rewrite (nth_error_nth' _ O) by (rewrite seq_length; lia). rewrite seq_nth by lia. cbn [option_map Nat.add].
  rewrite N2Nat.id, H2. reflexivity.
Qed.
