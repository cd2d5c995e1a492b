(** Final theorems for the display: the rest of C22, and C54-C59, C68. *)

From Coq Require Import ZArith NArith List String Ascii Bool Lia ZifyN ZifyBool ZifyNat Permutation.
From Verif Require Import Base ModelUtil ModelEnums ModelBitflag ModelSchemas ModelTags ModelTlv ModelValues ModelProcess ModelDisplay
  SpecUtil SpecCodes SpecValues SpecTags SpecTlv SpecIngenico SpecProcess SpecDisplay ProofsUtil ProofsBer ProofsValues PropertiesValues
  PropertiesBer PropertiesIngenico ProofsProcess PropertiesProcess ProofsDisplay ProofsDiagram ProofsScreens ProofsLayout.
Import ListNotations.
Local Open Scope N_scope.

Definition no_checks : platform := {| usize_bits := 64; overflow_checks := false |}.

(** C54: bit diagrams. *)
Theorem C54_diagram : forall p parse sch n t m raw v i show, In (parse, sch, n, t, m) bit_values -> bytes_ok raw -> parse raw = Ok v -> i < 256 ->
  shows_lines (display_bitflag p sch v i show) (diagram n (keep_bits raw m) (all_shown n t raw) i show).
Proof.
  intros p parse sch n t m raw v i show H Hb P Hi. rewrite <- (C41_serialise_masks _ _ _ _ _ raw v H P).
  rewrite <- (C44_ranges _ _ _ _ _ raw v (bit_values_all _ H) P). pose proof (bits_shows p parse sch n t m raw v i show H Hb P) as S.
  now rewrite (N.mod_small i 256 Hi) in S.
Qed.
Theorem C54_cvm_results : forall p b0 b1 b2 v i show, bytes_ok [b0; b1; b2] -> cvm_results_try_from [b0; b1; b2] = Ok v -> i < 256 ->
  exists x y, (* the rule as kept by C46 and the result byte *)
    bf_repr cv_rule_schema (cr_rule v) = [x; y]
    /\ shows_lines (display_cvm_results p v i show)
         (diagram 3 [x; y; b2]
            (map (fun r => mkRange (r_offset r + 8) (r_len r) (r_text r) (r_sev r)) (all_shown 2 cv_rule_bits [b0; b1])
             ++ [mkRange 7 8 (lit "Result: " ++ cvm_result_text (cr_result v)) (if b2 =? 1 then SevError else SevNormal)]) i show).
Proof.
  intros p b0 b1 b2 v i show Hb P Hi. pose proof (cvm_results_shows p _ v i show Hb P) as S. rewrite (N.mod_small i 256 Hi) in S.
  destruct (C47_representation _ v Hb P) as (c0 & c1 & c2 & E & R). injection E as <- <- <-.
  destruct (C47_ranges p b0 b1 b2 v Hb P) as (l & El & _ & L). rewrite (cvm_results_ranges_ok p _ v Hb P) in El. fold (cvm_result_ranges v) in El.
  assert (El' : cvm_result_ranges v = l) by (injection El as El; exact El).
  pose proof (proj1 (cvm_results_iff _ v Hb) P) as (c0 & c1 & c2 & Ec & Rr & _). injection Ec as <- <- <-.
  assert (B : is_byte b0 /\ is_byte b1) by (inversion Hb as [|? ? A Hb']; inversion Hb'; auto). destruct B as [B0 B1].
  destruct (rule_repr_bytes b0 b1 (cr_rule v) B0 B1 Rr) as (x & y & Er & _ & _). exists x, y. split; [exact Er|].
  rewrite El', L, R, Er in S. exact S.
Qed.
(* Reading a diagram by columns: bits from left to right, one blank after every eight. *)
Theorem C54_columns : forall n k f, k <= 8 * n ->
  len (draw n k f) = k + (k - 1) / 8
  /\ (forall o, o < 8 * n -> 8 * n - k <= o -> nth_error (draw n k f) (N.to_nat (column n o)) = Some (f o))
  /\ (forall c, c < k + (k - 1) / 8 -> (forall o, o < 8 * n -> column n o <> c) -> nth_error (draw n k f) (N.to_nat c) = Some 32).
Proof.
  intros n k f Hk. split; [apply draw_length|]. split; [intros o; apply draw_at|]. intros c Hc Ho. apply draw_blank; [assumption|].
  destruct (N.eq_dec (c mod 9) 8) as [|M]; [assumption|]. exfalso. apply (Ho (8 * n - 1 - (c - c / 9))).
  - assert (c / 9 <= c) by (apply N.div_le_upper_bound; lia). assert (0 < n) by (destruct n; [cbn in *; lia|lia]). lia.
  - unfold column.
    assert (Q : exists q r, c = 9 * q + r /\ r < 8) by (exists (c / 9), (c mod 9); lia). destruct Q as (q & r & -> & Hr).
    assert (D : (9 * q + r) / 9 = q) by lia. rewrite D. replace (9 * q + r - q) with (8 * q + r) by lia.
    assert (K : 8 * q + r < 8 * n) by lia.
    replace (8 * n - 1 - (8 * n - 1 - (8 * q + r))) with (8 * q + r) by lia.
    assert (D2 : (8 * q + r) / 8 = q) by lia. rewrite D2. lia.
Qed.
(* The explanation of each range: elbow under its top bit, bars under the tops of the
   ranges left of it, blanks under all other bits left of it, then the text. *)
Theorem C54_elbow : forall n raw ranges i show r, In r ranges -> r_offset r < 8 * n ->
  exists pre st, In (mkLine i [(None, pre); (st, r_text r)] st) (diagram n raw ranges i show)
    /\ nth_error pre (N.to_nat (column n (r_offset r))) = Some 0x2514
    /\ (forall o, r_offset r < o -> o < 8 * n ->
          nth_error pre (N.to_nat (column n o)) = Some (if existsb (fun x => r_offset x =? o) ranges then 0x2502 else 32))
    /\ len pre = column n (r_offset r) + 2.
Proof.
  intros n raw ranges i show r Hr Ho. exists (draw n (8 * n - r_offset r) (elbow_char ranges r) ++ [32]), (severity_style show (r_sev r)). split; [|split; [|split]].
  - unfold diagram. right. apply in_or_app. right. apply in_map_iff. exists r. split; [reflexivity|]. now apply -> in_rev.
  - rewrite nth_error_app1.
    + rewrite draw_at by lia. unfold elbow_char. now rewrite N.eqb_refl.
    + apply nth_error_Some. rewrite draw_at by lia. discriminate.
  - intros o H1 H2. rewrite nth_error_app1.
    + rewrite draw_at by lia. unfold elbow_char. destruct (N.eqb_spec o (r_offset r)); [lia|].
      assert (X : existsb (starts o) ranges = existsb (fun x => r_offset x =? o) ranges).
      { clear. induction ranges as [|x l IH]; [reflexivity|]. cbn [existsb]. rewrite IH. unfold starts. now rewrite N.eqb_sym. }
      now rewrite X.
    + apply nth_error_Some. rewrite draw_at by lia. discriminate.
  - unfold len. rewrite app_length. cbn [List.length]. pose proof (draw_length n (8 * n - r_offset r) (elbow_char ranges r)) as L. unfold len in L.
    unfold column. rewrite Nat2N.inj_add, L. replace (8 * n - r_offset r - 1) with (8 * n - 1 - r_offset r) by lia. lia.
Qed.
Lemma found ranges : forall limit r o, left_to_right limit ranges -> In r ranges -> covers o r = true -> find (covers o) ranges = Some r.
Proof.
  induction ranges as [|x l IH]; intros limit r o L Hin C; [destruct Hin|]. cbn [left_to_right] in L. destruct L as (L1 & L2 & L3 & L4). cbn [find].
  destruct Hin as [->|Hin]; [now rewrite C|]. destruct (covers o x) eqn:Cx; [|now apply (IH _ r o L4)]. exfalso.
  assert (B : forall lim y, left_to_right lim l -> In y l -> r_offset y < lim).
  { clear. induction l as [|z l IH]; intros lim y L Hin; [destruct Hin|]. cbn [left_to_right] in L. destruct L as (A & _ & _ & D). destruct Hin as [->|Hin]; [assumption|].
    specialize (IH _ y D Hin). lia. }
  specialize (B _ r L4 Hin). unfold covers, low_bit in *. lia.
Qed.
(* The arms: present exactly if some range is wider than one bit; over each range a bar or
   a bracket from its top to its bottom bit, nothing over other bits. *)
Theorem C54_arms : forall n raw ranges i show, left_to_right (8 * n) ranges -> existsb (fun r => 1 <? r_len r) ranges = true ->
  exists arms, nth_error (diagram n raw ranges i show) 1 = Some (row i [(None, arms)])
    /\ (forall r o, In r ranges -> r_offset r + 1 - r_len r <= o -> o <= r_offset r ->
          nth_error arms (N.to_nat (column n o)) =
          Some (if r_len r =? 1 then 0x2502 else if o =? r_offset r then 0x251C else if o =? r_offset r + 1 - r_len r then 0x2518 else 0x2500))
    /\ (forall o, o < 8 * n -> (forall r, In r ranges -> ~ (r_offset r + 1 - r_len r <= o /\ o <= r_offset r)) ->
          nth_error arms (N.to_nat (column n o)) = Some 32 \/ nth_error arms (N.to_nat (column n o)) = None).
Proof.
  intros n raw ranges i show L E. exists (draw n (8 * n - last_low ranges) (arm_char ranges)). split; [unfold diagram; rewrite E; reflexivity|].
  assert (B : forall lim r, left_to_right lim ranges -> In r ranges -> r_offset r < lim /\ last_low ranges <= low_bit r /\ last_low ranges < lim /\ r_len r <= r_offset r + 1).
  { clear. intros lim r. revert lim. induction ranges as [|z l IH]; intros lim L Hin; [destruct Hin|]. cbn [left_to_right] in L. destruct L as (A & B & C & D).
    destruct l as [|y l].
    - destruct Hin as [->|[]]. unfold last_low. cbn [rev app]. unfold low_bit. lia.
    - assert (Z : last_low (z :: y :: l) = last_low (y :: l)).
      { unfold last_low. cbn [rev]. destruct (rev l); reflexivity. }
      rewrite Z. destruct Hin as [->|Hin].
      + assert (IHq : last_low (y :: l) < r_offset r + 1 - r_len r).
        { clear -D. revert D. generalize (r_offset r + 1 - r_len r). revert y. induction l as [|w l IH]; intros y lim D.
          - unfold last_low. cbn [rev app]. cbn [left_to_right] in D. unfold low_bit. lia.
          - assert (Z : last_low (y :: w :: l) = last_low (w :: l)) by (unfold last_low; cbn [rev]; destruct (rev l); reflexivity).
            rewrite Z. cbn [left_to_right] in D. destruct D as (D1 & D2 & D3 & D4). specialize (IH w _ D4). lia. }
        unfold low_bit. lia.
      + destruct (IH _ D Hin) as (I1 & I2 & I3 & I4). lia. }
  split.
  - intros r o Hr H1 H2. destruct (B _ r L Hr) as (B1 & B2 & B3 & B4). rewrite draw_at by (unfold low_bit in *; lia).
    unfold arm_char. rewrite (found ranges _ r o L Hr); [reflexivity|]. unfold covers, low_bit. lia.
  - intros o Ho N. destruct (N.le_gt_cases (last_low ranges) o) as [Hl|Hl].
    + left. rewrite draw_at by lia. unfold arm_char. destruct (find (covers o) ranges) as [r|] eqn:F; [|reflexivity].
      apply find_some in F. destruct F as [F1 F2]. exfalso. apply (N r F1). unfold covers, low_bit in F2. lia.
    + right. apply nth_error_None. pose proof (draw_length n (8 * n - last_low ranges) (arm_char ranges)) as D. unfold len in D. unfold column.
      assert ((8 * n - last_low ranges - 1) / 8 <= (8 * n - 1 - o) / 8) by (apply N.div_le_mono; lia). lia.
Qed.
Theorem C54_no_arms_for_single_bits : forall n raw ranges i show, existsb (fun r => 1 <? r_len r) ranges = false ->
  List.length (diagram n raw ranges i show) = S (List.length ranges).
Proof. intros n raw ranges i show E. unfold diagram. rewrite E. cbn [app List.length]. now rewrite map_length, rev_length. Qed.
(* The hypotheses of the column theorems hold of every value. *)
Theorem C54_ranges_fit : forall parse sch n t m raw v, In (parse, sch, n, t, m) bit_values -> bytes_ok raw -> parse raw = Ok v ->
  left_to_right (8 * n) (all_shown n t raw).
Proof.
  intros parse sch n t m raw v H Hb P. rewrite <- (C44_ranges _ _ _ _ _ raw v (bit_values_all _ H) P).
  exact (C44_ranges_left_to_right parse sch n t m raw v (bit_values_all _ H) P).
Qed.
Example C54_example : exists v, cvr_try_from [0xA5; 0x30; 0; 0; 0] = Ok v
  /\ text_of (evs (display_bitflag p64 cvr_schema v 0 true)) <> [] /\ existsb (fun r => 1 <? r_len r) (all_shown 5 cvr_bits [0xA5; 0x30; 0; 0; 0]) = true.
Proof. eexists. split; [vm_compute; reflexivity|]. split; [vm_compute; discriminate|vm_compute; reflexivity]. Qed.

(** C55: hex dumps. *)
Lemma firstn_cut w : 0 < w -> forall fuel l, (List.length l <= fuel)%nat -> cut w l (chunks_fuel fuel (N.to_nat w) l).
Proof.
  intros Hw. induction fuel as [|f IH]; intros l Hl.
  - destruct l; [constructor|cbn in Hl; lia].
  - destruct l as [|b l]; [constructor|]. cbn [chunks_fuel]. remember (b :: l) as x eqn:Ex.
    assert (Lx : (1 <= List.length x)%nat) by (subst; cbn; lia). destruct (skipn (N.to_nat w) x) as [|c r] eqn:S.
    + assert (F : firstn (N.to_nat w) x = x) by (rewrite <- (firstn_skipn (N.to_nat w) x) at 2; rewrite S; now rewrite app_nil_r). rewrite F.
      assert (C : chunks_fuel f (N.to_nat w) (@nil N) = []) by (destruct f; reflexivity). rewrite C. clear C. apply cut_last; [unfold len; lia|].
      apply (f_equal (@List.length N)) in F. rewrite firstn_length in F. unfold len. lia.
    + rewrite <- (firstn_skipn (N.to_nat w) x) at 1. rewrite <- S. apply cut_more.
      * apply (f_equal (@List.length N)) in S. rewrite skipn_length in S. cbn [List.length] in S. unfold len. rewrite firstn_length. lia.
      * rewrite S. discriminate.
      * apply IH. rewrite skipn_length. lia.
Qed.
Lemma cut_chunks w l : 0 < w -> cut w l (chunks (N.to_nat w) l).
Proof. intros Hw. now apply firstn_cut. Qed.
(* How the bytes are cut into lines. *)
Theorem C55_lines : forall w l ls, 0 < w -> cut w l ls ->
  List.concat ls = l /\ Forall (fun x => 1 <= len x /\ len x <= w) ls
  /\ (forall before x after, ls = before ++ x :: after -> after <> [] -> len x = w).
Proof.
  intros w l ls Hw C. induction C as [|l L1 L2|l rest ls L Hr C (I1 & I2 & I3)].
  - split; [reflexivity|]. split; [constructor|]. intros [|] x after E; discriminate.
  - split; [apply app_nil_r|]. split; [now constructor|]. intros [|y [|]] x after E Ha; try discriminate. injection E as _ <-. contradiction.
  - split; [cbn; now rewrite I1|]. split; [constructor; [lia|exact I2]|]. intros [|y before] x after E Ha.
    + injection E as <- _. exact L.
    + injection E as _ E. now apply (I3 before x after).
Qed.
Theorem C55_print_bytes : forall bytes w i, bytes_ok bytes -> 0 < w -> i < 256 ->
  exists ls, cut w bytes ls /\ shows_lines (print_bytes bytes w i) (map (fun l => row i [(None, spaced (map byte_text l))]) ls).
Proof.
  intros bytes w i Hb Hw Hi. exists (chunks (N.to_nat w) bytes). split; [now apply cut_chunks|]. unfold print_bytes.
  destruct (N.eqb_spec w 0); [lia|]. apply shows_map. intros l Hl. rewrite <- (N.mod_small i 256 Hi) at 1. apply print_bytes_line. now apply (chunks_bytes (N.to_nat w) bytes).
Qed.
Theorem C55_pretty : forall bytes w i, bytes_ok bytes -> 0 < w -> i < 256 ->
  exists ls, cut w bytes ls
    /\ shows_lines (print_bytes_pretty bytes w i)
         (map (fun l => row i [(None, pad_right (3 * w + 1) (spaced (map byte_text l)) ++ map readable l)]) ls).
Proof.
  intros bytes w i Hb Hw Hi. exists (chunks (N.to_nat w) bytes). split; [now apply cut_chunks|]. unfold print_bytes_pretty.
  destruct (N.eqb_spec w 0); [lia|]. apply shows_map. intros l Hl. rewrite <- (N.mod_small i 256 Hi) at 1. apply pretty_line; [now apply (chunks_bytes (N.to_nat w) bytes)|].
  apply (chunks_length (N.to_nat w) bytes); [lia|exact Hl].
Qed.
Lemma digits_byte_text b : is_byte b -> filter is_hex_digitb (byte_text b) = byte_text b.
Proof.
  intros H. pose proof (hex_text_digits [b] ltac:(now repeat constructor)) as F. unfold hex_text in F. cbn [flat_map app] in F.
  apply filter_all. exact F.
Qed.
Lemma digits_spaced l : bytes_ok l -> filter is_hex_digitb (spaced (map byte_text l)) = hex_text l.
Proof.
  induction 1 as [|b l Hb Hl IH]; [reflexivity|]. destruct l as [|c l].
  - cbn [map spaced]. rewrite digits_byte_text by assumption. reflexivity.
  - change (spaced (map byte_text (b :: c :: l))) with (byte_text b ++ 32 :: spaced (map byte_text (c :: l))).
    rewrite filter_app. cbn [filter is_hex_digitb]. change (is_hex_digitb 32) with false. cbv iota. rewrite IH, digits_byte_text by assumption. reflexivity.
Qed.
Lemma hex_text_app a b : hex_text (a ++ b) = hex_text a ++ hex_text b.
Proof. apply flat_map_app. Qed.
Lemma filter_none {A} (f : A -> bool) l : (forall x, In x l -> f x = false) -> filter f l = [].
Proof. induction l as [|x l IH]; intros H; [reflexivity|]. cbn [filter]. rewrite (H x (or_introl eq_refl)). apply IH. intros y Hy. apply H. now right. Qed.
Lemma read_back s l : bytes_ok l -> filter is_hex_digitb s = hex_text l -> parse_hex_str s = l.
Proof. intros H E. rewrite parse_hex_str_spec, E. now apply bytes_of_hex_text. Qed.
(* Reading the output back gives the bytes. *)
Theorem C55_print_bytes_read_back : forall bytes w i, bytes_ok bytes -> 0 < w -> i < 256 ->
  parse_hex_str (text_of (evs (print_bytes bytes w i))) = bytes.
Proof.
  intros bytes w i Hb Hw Hi. destruct (C55_print_bytes bytes w i Hb Hw Hi) as (ls & C & (_ & S & _)). apply read_back; [assumption|].
  unfold text_of. rewrite S. destruct (C55_lines w bytes ls Hw C) as (E & _ & _). rewrite <- E in *. clear -Hb.
  induction ls as [|l ls IH]; [reflexivity|]. cbn [List.concat] in Hb. apply bytes_ok_app in Hb. destruct Hb as [H1 H2].
  cbn [map render flat_map List.concat]. rewrite map_app, filter_app, hex_text_app. f_equal; [|now apply IH].
  unfold render_line. cbn [row l_tabs l_spans l_end flat_map fst snd]. rewrite app_nil_r, !map_app, !filter_app. unfold ink. rewrite !map_map, !map_id. cbn [snd].
  rewrite digits_spaced by assumption. rewrite filter_none by (intros c Hc; apply repeat_spec in Hc; subst; reflexivity).
  cbn [app map snd filter]. change (is_hex_digitb 10) with false. cbv iota. apply app_nil_r.
Qed.
(* Each line of the wide form: the hex column reads back to the bytes of the line, and the
   characters start at the same column on every line. *)
Theorem C55_pretty_columns : forall w l, bytes_ok l -> 1 <= len l -> len l <= w ->
  let s := pad_right (3 * w + 1) (spaced (map byte_text l)) ++ map readable l in
  parse_hex_str (firstn (N.to_nat (3 * w + 1)) s) = l
  /\ skipn (N.to_nat (3 * w + 1)) s = map (fun b => if (0x20 <=? b) && (b <=? 0x7E) then b else 46) l.
Proof.
  intros w l Hb L1 L2 s. assert (P : List.length (pad_right (3 * w + 1) (spaced (map byte_text l))) = N.to_nat (3 * w + 1)).
  { unfold pad_right. rewrite app_length, repeat_length. assert (Q : (List.length (spaced (map byte_text l)) + 1 = 3 * List.length l)%nat).
    { apply spaced_bytes_length. intros ->. cbn in L1. lia. } unfold len in *. lia. }
  unfold s. split.
  - rewrite firstn_app, P, Nat.sub_diag, firstn_O, app_nil_r, firstn_all2 by lia. apply read_back; [assumption|]. unfold pad_right. rewrite filter_app, digits_spaced by assumption.
    rewrite filter_none; [apply app_nil_r|]. intros c Hc. apply repeat_spec in Hc. subst. reflexivity.
  - rewrite skipn_app, P, Nat.sub_diag, skipn_O, skipn_all2 by lia. reflexivity.
Qed.
Theorem C55_small : forall bytes, bytes_ok bytes ->
  print_bytes_small bytes = dtxt (hex_text bytes) /\ parse_hex_str (text_of (evs (print_bytes_small bytes))) = bytes.
Proof.
  intros bytes Hb. unfold print_bytes_small. rewrite flat_hex2 by assumption. split; [reflexivity|]. cbn. unfold text_of. cbn [screen]. rewrite app_nil_r. unfold ink. rewrite map_map, map_id.
  apply read_back; [assumption|]. apply filter_all. now apply hex_text_digits.
Qed.
(* Only a line width of zero panics. *)
Theorem C55_panics : forall bytes w i, bytes_ok bytes -> i < 256 -> (dead (print_bytes bytes w i) = true <-> w = 0) /\ (dead (print_bytes_pretty bytes w i) = true <-> w = 0).
Proof.
  intros bytes w i Hb Hi. destruct (N.eq_dec w 0) as [->|N0]; [split; (split; [reflexivity|intros _; reflexivity])|].
  destruct (C55_print_bytes bytes w i Hb ltac:(lia) Hi) as (? & _ & D1 & _). destruct (C55_pretty bytes w i Hb ltac:(lia) Hi) as (? & _ & D2 & _).
  rewrite D1, D2. split; (split; [discriminate|contradiction]).
Qed.
Example C55_example : text_of (evs (print_bytes_pretty [0x41; 0x00; 0x7A] 2 0)) = lit "41 00  A." ++ [10] ++ lit "7A     z" ++ [10].
Proof. reflexivity. Qed.

(** C68: the exact screen of every value and every processed block. *)
Theorem C68_values : forall p v i show, parsed_value v -> i < 256 -> fits p (i + value_levels v) ->
  shows_lines (display_value p v i show) (value_lines v i show).
Proof. intros p v i show H Hi F. pose proof (value_shows p v i show H F) as S. now rewrite (N.mod_small i 256 Hi) in S. Qed.
Theorem C68_blocks : forall p l i show, Forall good_node l -> i < 256 -> fits p (i + block_levels l) ->
  shows_lines (display_block p l i show) (block_lines l i show).
Proof. intros p l i show H Hi F. pose proof (block_shows p l i show H F) as S. now rewrite (N.mod_small i 256 Hi) in S. Qed.
(* The hypothesis holds of everything that is parsed and processed, sorted or not. *)
Lemma arranged_good l l' : arranged l l' -> Forall good_node l -> Forall good_node l'.
Proof.
  intros A. apply (arranged_ind2 (fun l l' _ => Forall good_node l -> Forall good_node l') (fun m l' _ => Forall good_node m -> Forall good_node l')) with (l := l); try exact A; clear.
  - intros l m l' P S F E IH G. apply IH. rewrite Forall_forall in *. intros x Hx. apply G. apply (Permutation_in _ (Permutation_sym P)). exact Hx.
  - constructor.
  - intros t c c' m l' A IHa E IHe G. inversion G as [|? ? G1 G2]; subst. inversion G1; subst. constructor; [constructor; auto|auto].
Qed.
Lemma max_perm (l m : list N) : Permutation l m -> fold_right N.max 0 l = fold_right N.max 0 m.
Proof. induction 1; cbn [fold_right]; lia. Qed.
Lemma arranged_levels l l' : arranged l l' -> block_levels l' = block_levels l.
Proof.
  intros A. apply (arranged_ind2 (fun l l' _ => block_levels l' = block_levels l /\ (l' = [] <-> l = [])) (fun m l' _ => block_levels l' = block_levels m /\ (l' = [] <-> m = []))) with (l := l); try exact A; clear.
  - intros l m l' P S F E [IH1 IH2]. split.
    + rewrite IH1. unfold block_levels. symmetry. apply max_perm. now apply Permutation_map.
    + rewrite IH2. split; intros ->; [now apply Permutation_sym, Permutation_nil in P|now apply Permutation_nil in P].
  - split; reflexivity.
  - intros t c c' m l' A [IHa1 IHa2] E [IHe _]. unfold block_levels in *. split; [|split; discriminate]. cbn [map fold_right node_levels]. rewrite IHe. f_equal. f_equal.
    destruct c as [|x c], c' as [|y c']; try reflexivity.
    + destruct IHa2 as [_ X]. discriminate (X eq_refl).
    + destruct IHa2 as [X _]. discriminate (X eq_refl).
    + now rewrite IHa1.
Qed.
Theorem C68_parsed_blocks_good : forall p masks ns r,
  (exists bytes, input64 p bytes /\ ber_parse p masks bytes = Ok ns) \/ (exists s, text64 p s /\ ingenico_parse p masks s = Ok ns) ->
  process_block ns = Ok r -> Forall good_node r /\ Forall good_node (sort_nodes r) /\ block_levels (sort_nodes r) = block_levels r.
Proof.
  intros p masks ns r H P. assert (F : forest_ok ns).
  { destruct H as [(bytes & Hi & H)|(s & Hi & H)]; [now apply (C34_parsed_ber_ok p masks bytes)|now apply (C34_parsed_ingenico_ok p masks s)]. }
  pose proof (good_processed ns r F P) as G. assert (A : arranged r (sort_nodes r)) by now apply C37_sort_arranges.
  split; [exact G|]. split; [now apply (arranged_good r)|now apply arranged_levels].
Qed.
Definition sample_bytes : list N := [0x70; 9; 0x9B; 2; 0xF8; 0; 0x9F; 0x36; 2; 0x2A; 0x2A].
Example C68_example : exists ns r, ber_parse p64 [0x2A] sample_bytes = Ok ns /\ process_block ns = Ok r /\ block_levels r = 2 /\ List.length (block_lines r 0 true) = 17%nat.
Proof. eexists. eexists. split; [vm_compute; reflexivity|]. split; [vm_compute; reflexivity|]. split; vm_compute; reflexivity. Qed.

(** C22, the display: one line with the tag, an unknown length and the name, and one that
    says the value is masked. *)
Theorem C22_masked_display : forall p raw pt i show, rt_data raw = Masked -> bytes_ok (rt_tag raw) -> process_emv_tag raw = Ok pt -> i < 256 ->
  exists name, (known_name (rt_tag raw) name \/ unknown_tag (rt_tag raw) /\ name = lit "<Unknown>")
    /\ shows_lines (display_ptag p pt i show)
         [row i [(heading, lit "Tag:"); (None, lit " 0x"); (bold, hex_text (rt_tag raw)); (None, lit " - ?? bytes - " ++ name)];
          heading_row i (lit "* Masked *")].
Proof.
  intros p raw pt i show M Hb P Hi. assert (T : tag_ok raw) by (split; [assumption|unfold data_ok; now rewrite M]).
  pose proof (good_processed_tag raw pt T P) as G. destruct (C22_masked_never_interpreted raw M) as [[E U]|(s & E & K)]; rewrite E in P; injection P as <-.
  - exists (lit "<Unknown>"). split; [right; auto|]. assert (F : fits p (i + ptag_levels (PRaw raw))).
    { intros _. cbn [ptag_levels]. rewrite M. lia. }
    pose proof (ptag_shows p _ i show G F) as S. rewrite (N.mod_small i 256 Hi) in S. cbn [ptag_lines] in S. unfold tag_row, data_lines, length_text in S. rewrite M in S. exact S.
  - exists s. split; [now left|]. assert (F : fits p (i + ptag_levels (PAnnotated s raw))).
    { intros _. cbn [ptag_levels]. rewrite M. lia. }
    pose proof (ptag_shows p _ i show G F) as S. rewrite (N.mod_small i 256 Hi) in S. cbn [ptag_lines] in S. unfold tag_row, data_lines, length_text in S. rewrite M in S. exact S.
Qed.
Example C22_display_example : exists pt, process_emv_tag (mkRawTag [0x95] TagClass_ContextSpecific Primitive Masked) = Ok pt
  /\ text_of (evs (display_ptag p64 pt 1 true)) = [9] ++ lit "Tag: 0x95 - ?? bytes - Terminal Verification Results (TVR)" ++ [10; 9] ++ lit "* Masked *" ++ [10].
Proof. eexists. split; [vm_compute; reflexivity|vm_compute; reflexivity]. Qed.

(** C56: colours are closed, whatever is displayed, at whatever indentation, even if the
    display panics. *)
Theorem C56_values_closed : forall p v i show, closed (evs (display_value p v i show)) /\ style_after None (evs (display_value p v i show)) = None.
Proof. intros p v i show. split; [apply cl_value|]. apply closed_final, cl_value. Qed.
Theorem C56_blocks_closed : forall p l i show, closed (evs (display_block p l i show)) /\ style_after None (evs (display_block p l i show)) = None.
Proof. intros p l i show. split; [apply cl_block|]. apply closed_final, cl_block. Qed.
(* [closed] does say that each colour is reset before the next one is set. *)
Theorem C56_closed_meaning : forall l before c after, closed l -> l = before ++ SetColor c :: after ->
  exists texts rest, after = map Txt texts ++ ResetColor :: rest /\ closed rest /\ closed before.
Proof.
  intros l before c after H. revert before. induction H as [|s l H IH|c' texts l H IH]; intros before E.
  - destruct before; discriminate.
  - destruct before as [|e before]; [discriminate|]. injection E as <- E. destruct (IH before E) as (t & r & A & B & D). exists t, r. split; [assumption|]. split; [assumption|now constructor].
  - destruct before as [|e before].
    + injection E as <- <-. exists texts, l. split; [reflexivity|]. split; [assumption|constructor].
    + injection E as <- E. assert (X : exists b2, before = map Txt texts ++ ResetColor :: b2 /\ l = b2 ++ SetColor c :: after).
      { clear -E. revert before E. induction texts as [|t texts IH]; intros before E; cbn [map app] in E.
        - destruct before as [|e before]; [discriminate|]. injection E as <- E. exists before. auto.
        - destruct before as [|e before]; [discriminate|]. injection E as <- E. destruct (IH before E) as (b2 & -> & ->). exists b2. auto. }
      destruct X as (b2 & -> & El). destruct (IH b2 El) as (t & r & A & B & D). exists t, r. split; [assumption|]. split; [assumption|]. now constructor.
Qed.
Example C56_example : closed (evs (display_value no_checks (ValTransactionType TransactionType_Refund) 0 true)).
Proof. apply cl_value. Qed.

(** C57: severity colours. *)
Definition severity_has (c : color) (s : severity) : bool :=
  match c, s with Yellow, SevWarning => true | Red, SevError => true | _, _ => false end.
Lemma filter_ink c st s : filter (has_colour c) (ink st s) = if has_colour c (st, 0) then ink st s else [].
Proof.
  unfold ink. induction s as [|x s IH]; [destruct (has_colour c (st, 0)); reflexivity|]. cbn [map filter].
  assert (E : has_colour c (st, x) = has_colour c (st, 0)) by reflexivity. rewrite E. rewrite IH. destruct (has_colour c (st, 0)); reflexivity.
Qed.
Definition line_colour (c : color) (l : line) : str := map snd (filter (has_colour c) (render_line l)).
Lemma coloured_lines c d ls : shows_lines d ls -> coloured c (evs d) = flat_map (line_colour c) ls.
Proof.
  intros (_ & S & _). unfold coloured. rewrite S. clear. induction ls as [|l ls IH]; [reflexivity|]. cbn [render flat_map]. rewrite filter_app, map_app. f_equal. exact IH.
Qed.
Lemma line_colour_none c l : Forall (fun sp => has_colour c (fst sp, 0) = false) (l_spans l) -> has_colour c (l_end l, 10) = false -> line_colour c l = [].
Proof.
  intros H E. unfold line_colour, render_line. rewrite !filter_app, filter_ink. cbn [has_colour fst app filter]. rewrite E. rewrite app_nil_r.
  induction H as [|sp l' Hs _ IH]; [reflexivity|]. cbn [flat_map]. rewrite filter_app, filter_ink, Hs. exact IH.
Qed.
Lemma diagram_coloured c n raw ranges i show : c <> Cyan ->
  flat_map (line_colour c) (diagram n raw ranges i show) = if show then flat_map (fun r => r_text r ++ [10]) (filter (fun r => severity_has c (r_sev r)) (rev ranges)) else [].
Proof.
  intros Hc. unfold diagram. cbn [flat_map]. rewrite line_colour_none; [|constructor; [destruct c; reflexivity|constructor]|destruct c; reflexivity]. cbn [app]. rewrite flat_map_app.
  assert (A : flat_map (line_colour c) (if existsb (fun r => 1 <? r_len r) ranges then [row i [(None, draw n (8 * n - last_low ranges) (arm_char ranges))]] else []) = []).
  { destruct (existsb _ ranges); [|reflexivity]. cbn [flat_map]. rewrite line_colour_none; [reflexivity|constructor; [reflexivity|constructor]|reflexivity]. }
  rewrite A. cbn [app]. generalize (rev ranges). intros l. clear A.
  assert (E : forall r, line_colour c (mkLine i [(None, draw n (8 * n - r_offset r) (elbow_char ranges r) ++ [32]); (severity_style show (r_sev r), r_text r)] (severity_style show (r_sev r)))
              = if show && severity_has c (r_sev r) then r_text r ++ [10] else []).
  { intros r. unfold line_colour, render_line. cbn [l_tabs l_spans l_end flat_map fst snd]. rewrite !filter_app, !filter_ink. cbn [has_colour fst app filter]. rewrite app_nil_r.
    assert (H : has_colour c (severity_style show (r_sev r), 0) = show && severity_has c (r_sev r)).
    { unfold has_colour, severity_style. cbn [fst]. destruct show, (r_sev r), c; try reflexivity; contradiction. }
    assert (H' : has_colour c (severity_style show (r_sev r), 10) = show && severity_has c (r_sev r)) by exact H.
    rewrite H, H'. destruct (show && severity_has c (r_sev r)); [|reflexivity]. cbn [filter]. rewrite map_app. unfold ink. rewrite map_map, map_id. reflexivity. }
  induction l as [|r l IH]; [destruct show; reflexivity|]. cbn [map flat_map filter]. rewrite E, IH. destruct show; cbn [andb]; [|reflexivity].
  destruct (severity_has c (r_sev r)); reflexivity.
Qed.
(* Yellow are exactly the texts of warnings and red exactly those of errors, each with its
   line end, from the rightmost bit to the leftmost. *)
Theorem C57_severities : forall p parse sch n t m raw v i show c, In (parse, sch, n, t, m) bit_values -> bytes_ok raw -> parse raw = Ok v -> i < 256 -> c <> Cyan ->
  coloured c (evs (display_bitflag p sch v i show))
  = if show then flat_map (fun r => r_text r ++ [10]) (filter (fun r => severity_has c (r_sev r)) (rev (all_shown n t raw))) else [].
Proof.
  intros p parse sch n t m raw v i show c H Hb P Hi Hc. rewrite (coloured_lines c _ _ (C54_diagram p parse sch n t m raw v i show H Hb P Hi)). now apply diagram_coloured.
Qed.
Theorem C57_cvm_results : forall p b0 b1 b2 v i show c, bytes_ok [b0; b1; b2] -> cvm_results_try_from [b0; b1; b2] = Ok v -> i < 256 -> c <> Cyan ->
  coloured c (evs (display_cvm_results p v i show))
  = match c with Red => if show && (b2 =? 1) then lit "Result: Failed" ++ [10] else [] | _ => [] end.
Proof.
  intros p b0 b1 b2 v i show c Hb P Hi Hc. destruct (C54_cvm_results p b0 b1 b2 v i show Hb P Hi) as (x & y & _ & S).
  rewrite (coloured_lines c _ _ S), diagram_coloured by assumption. rewrite rev_app_distr. cbn [rev app filter r_sev].
  assert (N : filter (fun r => severity_has c (r_sev r)) (rev (map (fun r => mkRange (r_offset r + 8) (r_len r) (r_text r) (r_sev r)) (all_shown 2 cv_rule_bits [b0; b1]))) = []).
  { apply filter_none. intros r Hr. apply in_rev in Hr. apply in_map_iff in Hr. destruct Hr as (r' & <- & Hr'). cbn [r_sev].
    unfold all_shown in Hr'. apply in_flat_map in Hr'. destruct Hr' as (e & He & Hr').
    assert (Sv : r_sev r' = e_sev e).
    { unfold field_shown in Hr'. destruct (e_kind e); [destruct (field_bits e [b0; b1] =? 1); [|destruct Hr']; destruct Hr' as [<-|[]]; reflexivity|..];
        (destruct (decode _ (field_bits e [b0; b1])) as [[v' s]|]; [|destruct Hr']; destruct Hr' as [<-|[]]; reflexivity). }
    rewrite Sv. cbn [In cv_rule_bits] in He. destruct He as [<-|[<-|[<-|[]]]]; destruct c; reflexivity. }
  rewrite N. apply (cvm_results_iff _ v Hb) in P. destruct P as (c0 & c1 & c2 & E & _ & X). injection E as <- <- <-.
  destruct show; [|destruct c; reflexivity]. destruct (N.eqb_spec b2 1) as [->|Nb].
  - destruct c; try reflexivity. assert (F : cr_result v = CvmResult_Failed) by (destruct X as [s X]; unfold cvm_result_codes in X; cbn [In] in X; destruct X as [X|[X|[X|[]]]]; try discriminate X; now injection X as <- <-). rewrite F. reflexivity.
  - destruct c; reflexivity.
Qed.
Lemma iac_coloured p d x i show c s (mk : list fval -> value) : bytes_ok d -> tvr_try_from d = Ok x -> i < 256 -> c <> Cyan ->
  (forall i show, value_lines (mk x) i show = iac_lines s x i) -> parsed_value (mk x) -> value_levels (mk x) = 0 ->
  coloured c (evs (display_value p (mk x) i show)) = [].
Proof.
  intros Hb P Hi Hc E G L. assert (F : fits p (i + value_levels (mk x))) by (intros _; rewrite L; lia).
  rewrite (coloured_lines c _ _ (C68_values p (mk x) i show G Hi F)), E. unfold iac_lines. cbn [flat_map].
  rewrite line_colour_none; [|constructor; [destruct c; try reflexivity; contradiction|constructor]|destruct c; try reflexivity; contradiction].
  unfold bits_diagram. now rewrite diagram_coloured.
Qed.
Theorem C57_iac_plain : forall p d x i show c, bytes_ok d -> tvr_try_from d = Ok x -> i < 256 -> c <> Cyan ->
  coloured c (evs (display_value p (ValIacDefault x) i show)) = []
  /\ coloured c (evs (display_value p (ValIacDenial x) i show)) = []
  /\ coloured c (evs (display_value p (ValIacOnline x) i show)) = [].
Proof.
  intros p d x i show c Hb P Hi Hc. split; [|split].
  - eapply (iac_coloured p d x i show c _ ValIacDefault); try assumption; [intros; reflexivity|econstructor; eassumption|reflexivity].
  - eapply (iac_coloured p d x i show c _ ValIacDenial); try assumption; [intros; reflexivity|econstructor; eassumption|reflexivity].
  - eapply (iac_coloured p d x i show c _ ValIacOnline); try assumption; [intros; reflexivity|econstructor; eassumption|reflexivity].
Qed.
Example C57_example : exists x, tvr_try_from [0x40; 0; 0x80; 0; 0] = Ok x
  /\ coloured Red (evs (display_value p64 (ValTvr x) 0 true)) = lit "SDA (Static Data Authentication) failed" ++ [10]
  /\ coloured Yellow (evs (display_value p64 (ValTvr x) 0 true)) = lit "Cardholder verification was not successful" ++ [10]
  /\ coloured Red (evs (display_value p64 (ValIacDenial x) 0 true)) = [].
Proof. eexists. split; [vm_compute; reflexivity|]. repeat split; vm_compute; reflexivity. Qed.

(** C58: every line is indented. *)
Definition laid_out (i : N) (d : disp) (ts : list str) : Prop :=
  dead d = false /\ text_of (evs d) = flat_map (fun t => t ++ [10]) ts
  /\ Forall (fun t => t = [] \/ exists k rest, i <= k /\ t = repeat 9 (N.to_nat k) ++ rest /\ visible rest) ts.
Lemma shows_laid_out i hi d ls : hi < 256 -> shows_lines d ls -> Forall (line_between i hi) ls -> laid_out i d (map line_text ls).
Proof.
  intros Hh (D & S & _) B. split; [assumption|]. split.
  - unfold text_of. rewrite S. clear. induction ls as [|l ls IH]; [reflexivity|]. cbn [map render flat_map]. rewrite map_app. f_equal; [|exact IH].
    unfold render_line, line_text. rewrite !map_app. cbn [map snd]. unfold ink at 1. rewrite map_map, map_id. rewrite <- app_assoc. f_equal. f_equal.
    induction (l_spans l) as [|sp l' IH']; [reflexivity|]. cbn [flat_map]. rewrite map_app, IH'. unfold ink. now rewrite map_map, map_id.
  - apply Forall_map. eapply Forall_impl; [|exact B]. intros l [->|(L1 & L2 & V)].
    + now left.
    + right. unfold line_text. rewrite N.mod_small by lia. exists (l_tabs l), (flat_map snd (l_spans l)). split; [assumption|]. split; [reflexivity|].
      apply Forall_flat_map. exact V.
Qed.
Lemma value_lines_some v i show : exists l ls, value_lines v i show = l :: ls.
Proof.
  destruct v; cbn [value_lines]; unfold bits_diagram, diagram, iad_lines, iac_lines, service_code_lines, tag_info_lines; try (eexists _, _; reflexivity).
  unfold cvm_list_lines. destruct (_ || _); eexists _, _; cbn [app]; reflexivity.
Qed.
Theorem C58_values : forall p v i show, parsed_value v -> i + value_levels v < 256 ->
  exists ts, laid_out i (display_value p v i show) ts /\ ts <> [].
Proof.
  intros p v i show H L. exists (map line_text (value_lines v i show)). split.
  - apply (shows_laid_out i (i + value_levels v)); [assumption|apply C68_values; [assumption|lia|intros _; assumption]|now apply value_between].
  - destruct (value_lines_some v i show) as (l & ls & ->). discriminate.
Qed.
Theorem C58_blocks : forall p l i show, Forall good_node l -> i + block_levels l < 256 ->
  exists ts, laid_out i (display_block p l i show) ts /\ (ts = [] <-> l = []).
Proof.
  intros p l i show H L. exists (map line_text (block_lines l i show)). split.
  - apply (shows_laid_out i (i + block_levels l)); [assumption|apply C68_blocks; [assumption|lia|intros _; assumption]|now apply block_between].
  - unfold block_lines. destruct l as [|n l]; [split; reflexivity|]. split; [|discriminate]. cbn [map separated].
    destruct n as [t c]. destruct (map _ l); destruct t; discriminate.
Qed.
(* Without the bound the claim fails: where overflow is not checked, lines lose their
   indentation. *)
Theorem C58_any_indentation_refuted : exists v i t, parsed_value v /\ i < 256 /\ dead (display_value no_checks v i true) = false
  /\ In t (map line_text (value_lines v i true)) /\ shows_lines (display_value no_checks v i true) (value_lines v i true)
  /\ t <> [] /\ ~ (exists rest, t = repeat 9 (N.to_nat i) ++ rest).
Proof.
  destruct (iad_try_from ([0x0F; 0xA5; 1] ++ [0; 0; 0; 0; 0] ++ repeat 0 8 ++ [0x0F] ++ repeat 0 15)) as [x| | |] eqn:P; try discriminate.
  assert (G : parsed_value (ValIad x)) by (eapply parsed_iad; [|exact P]; repeat constructor).
  assert (S : shows_lines (display_value no_checks (ValIad x) 255 true) (value_lines (ValIad x) 255 true)) by (apply C68_values; [exact G|reflexivity|intros H; discriminate H]).
  exists (ValIad x), 255, (lit "10100101"). split; [exact G|]. split; [reflexivity|]. split; [apply S|]. split.
  - vm_compute in P. injection P as <-. right. left. vm_compute. reflexivity.
  - split; [exact S|]. split; [discriminate|]. intros [rest E]. discriminate E.
Qed.
Example C58_example : exists x, tsi_try_from [0x80; 0] = Ok x /\ text_of (evs (display_value p64 (ValTsi x) 1 true))
  = [9] ++ lit "10000000 00000000" ++ [10; 9; 0x2514] ++ lit " Offline data authentication was performed" ++ [10].
Proof. eexists. split; [vm_compute; reflexivity|vm_compute; reflexivity]. Qed.

(** C59: exactly when the indentation overflows. *)
Theorem C59_exact : forall p l i show, Forall good_node l -> i < 256 ->
  (dead (display_block p l i show) = true <-> overflow_checks p = true /\ 256 <= i + block_levels l).
Proof.
  intros p l i show G Hi. split.
  - intros D. destruct (overflow_checks p) eqn:Ck.
    + split; [reflexivity|]. destruct (N.le_gt_cases 256 (i + block_levels l)) as [|L]; [assumption|]. exfalso.
      destruct (C68_blocks p l i show G Hi) as (D' & _); [intros _; exact L|congruence].
    + exfalso. destruct (C68_blocks p l i show G Hi) as (D' & _); [intros X; congruence|congruence].
  - intros [Ck L]. now apply block_overflows.
Qed.
(* How far a block is indented follows from its nesting within one level. *)
Lemma ptag_levels_le t : ptag_levels t <= 2.
Proof.
  destruct t as [r|s r|s v r]; cbn [ptag_levels].
  - pose proof (data_levels_le r). unfold data_levels in *. lia.
  - pose proof (data_levels_le r). unfold data_levels in *. lia.
  - pose proof (data_levels_le r). pose proof (value_levels_le v). unfold data_levels in *. lia.
Qed.
Lemma max_map_bound (f g : pnode -> N) l : Forall (fun n => f n <= g n + 1 /\ g n <= f n + 1) l ->
  fold_right N.max 0 (map f l) <= fold_right N.max 0 (map g l) + 1 /\ fold_right N.max 0 (map g l) <= fold_right N.max 0 (map f l) + 1.
Proof. induction 1 as [|n l H _ IH]; cbn [map fold_right]; lia. Qed.
Lemma node_levels_nesting n : node_levels n <= nesting n + 1 /\ nesting n <= node_levels n + 1.
Proof.
  induction n as [t c IH] using pnode_tree_ind. cbn [node_levels nesting]. pose proof (ptag_levels_le t). apply max_map_bound in IH.
  destruct c as [|x c']; [cbn; lia|]. remember (x :: c') as c eqn:E. lia.
Qed.
Theorem C59_nesting : forall l, block_levels l <= block_nesting l + 1 /\ block_nesting l <= block_levels l + 1.
Proof. intros l. apply max_map_bound. apply Forall_forall. intros n _. apply node_levels_nesting. Qed.
Theorem C59_shallow_never_panics : forall p l show, Forall good_node l -> block_nesting l <= 254 -> dead (display_block p l 0 show) = false.
Proof.
  intros p l show G H. destruct (dead (display_block p l 0 show)) eqn:D; [|reflexivity]. apply C59_exact in D; [|assumption|reflexivity]. destruct D as [_ D].
  pose proof (C59_nesting l). lia.
Qed.
Theorem C59_deep_panics : forall p l show, Forall good_node l -> 257 <= block_nesting l -> overflow_checks p = true -> dead (display_block p l 0 show) = true.
Proof. intros p l show G H Ck. apply C59_exact; [assumption|reflexivity|]. split; [assumption|]. pose proof (C59_nesting l). lia. Qed.
(* Without overflow checks everything is shown, with the tabs counted modulo 256. *)
Theorem C59_wraps : forall p l i show, Forall good_node l -> i < 256 -> overflow_checks p = false ->
  shows_lines (display_block p l i show) (block_lines l i show)
  /\ forall x, In x (block_lines l i show) -> firstn (N.to_nat (l_tabs x mod 256)) (line_text x) = repeat 9 (N.to_nat (l_tabs x mod 256)).
Proof.
  intros p l i show G Hi Ck. split; [apply C68_blocks; [assumption|assumption|intros X; congruence]|]. intros x _. unfold line_text.
  rewrite firstn_app, repeat_length, Nat.sub_diag, firstn_O, app_nil_r. apply firstn_all2. rewrite repeat_length. lia.
Qed.
(* The output is partial when it panics: the first tag has been printed. *)
Theorem C59_partial_output : forall p l i show, l <> [] -> exists rest,
  evs (display_block p l i show) = Txt (repeat 9 (N.to_nat i)) :: SetColor (mkSpec true (Some Cyan)) :: Txt (lit "Tag:") :: ResetColor :: rest.
Proof.
  intros p l i show H. destruct l as [|[t c] l]; [contradiction|]. unfold display_block. cbn [display_nodes]. rewrite nil_then.
  cbn [display_pnode].
  assert (E : exists rest, evs (display_ptag p t i show) = Txt (repeat 9 (N.to_nat i)) :: SetColor (mkSpec true (Some Cyan)) :: Txt (lit "Tag:") :: ResetColor :: rest).
  { assert (X : forall d, exists rest, evs (label i header_colour_spec (lit "Tag:") >>> d) = Txt (repeat 9 (N.to_nat i)) :: SetColor (mkSpec true (Some Cyan)) :: Txt (lit "Tag:") :: ResetColor :: rest).
    { intros d. eexists. reflexivity. }
    destruct t; cbn [display_ptag]; unfold print_tag_name; cbn zeta; rewrite !then_assoc; apply X. }
  destruct E as [rest E].
  assert (Y : forall a b, (exists rest, evs a = Txt (repeat 9 (N.to_nat i)) :: SetColor (mkSpec true (Some Cyan)) :: Txt (lit "Tag:") :: ResetColor :: rest) ->
    exists rest, evs (a >>> b) = Txt (repeat 9 (N.to_nat i)) :: SetColor (mkSpec true (Some Cyan)) :: Txt (lit "Tag:") :: ResetColor :: rest).
  { intros a b [r Ea]. unfold dthen. destruct (dead a); [eauto|]. cbn [evs]. rewrite Ea. cbn [app]. eauto. }
  apply Y. apply Y. eauto.
Qed.
(* Such input exists: 257 objects inside each other. *)
Fixpoint nested (n : nat) : list N :=
  match n with
  | O => []
  | S n => let x := nested n in
           let l := len x in
           0xE0 :: (if l <? 128 then [l] else [0x82; l / 256; l mod 256]) ++ x
  end.
Theorem C59_never_panics_refuted : exists bytes ns r, input64 p64 bytes /\ ber_parse p64 [] bytes = Ok ns /\ process_block ns = Ok r
  /\ dead (display_block p64 r 0 true) = true /\ block_nesting r = 257.
Proof.
  assert (T : match ber_parse p64 [] (nested 257) with
              | Ok ns => match process_block ns with
                         | Ok r => dead (display_block p64 r 0 true) && (block_nesting r =? 257)
                         | _ => false end
              | _ => false end = true) by (vm_compute; reflexivity).
  destruct (ber_parse p64 [] (nested 257)) as [ns| | |] eqn:B; try discriminate T. destruct (process_block ns) as [r| | |] eqn:P; try discriminate T.
  apply andb_true_iff in T. destruct T as [T1 T2]. apply N.eqb_eq in T2.
  exists (nested 257), ns, r. split; [|auto]. split; [reflexivity|].
  assert (C : forallb (fun b => b <? 256) (nested 257) && (len (nested 257) <? 2 ^ 62) = true) by (vm_compute; reflexivity).
  apply andb_true_iff in C. destruct C as [C1 C2]. rewrite forallb_forall in C1.
  try split; try (apply Forall_forall; intros b Hb; unfold is_byte; apply N.ltb_lt; now apply C1); try (now apply N.ltb_lt in C2); try reflexivity.
Qed.
