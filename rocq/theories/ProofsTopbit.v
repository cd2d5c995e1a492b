(** Lemmas about 32-bit builds without overflow checks. *)

From Coq Require Import NArith String List Bool PeanoNat Lia ZifyN ZifyBool ZifyNat Relations.
From Verif Require Import Base ModelUtil ModelEnums ModelBitflag ModelTlv ModelValues ModelProcess ModelDisplay SpecUtil SpecTlv SpecIngenico ProofsUtil ProofsGrammar ProofsBer ProofsIngenico
  ModelMain SpecMain SpecBuilds ProofsBuilds SpecOverrun ProofsOverrun SpecTopbit.
Import ListNotations.
Local Open Scope N_scope.

(* The length that such a build uses. *)
Definition lower (fmt n : N) : N := if fmt =? letter_h then n mod 2147483648 else n.

Definition wover (limit off : N) (s : list N) : bool :=
  match s with
  | [] => false
  | ty :: r0 =>
      match split_colon r0 with
      | None => false
      | Some (td, r1) =>
          if negb (all_hex td) then false
          else match trim_leading_0_bytes (bytes_of_digits td) with
               | [] => false
               | _ :: _ =>
                   match split_colon r1 with
                   | None => false
                   | Some (ld, r2) =>
                       if negb (all_hex ld) then false
                       else if 4 <? len (bytes_of_digits ld) then false
                       else match r2 with
                            | [] => false
                            | fmt :: r3 =>
                                if fmt =? letter_a then limit <=? off + (len s - len r3) + lower fmt (be_value (bytes_of_digits ld))
                                else if fmt =? letter_h then limit <=? off + (len s - len r3) + 2 * lower fmt (be_value (bytes_of_digits ld))
                                else false
                            end
                   end
               end
      end
  end.
Definition winext (masks : list N) (s : list N) : res (ing_entry * list N) :=
  match s with
  | [] => Err NonCompliant
  | ty :: r0 =>
      match split_colon r0 with
      | None => Err NonCompliant
      | Some (td, r1) =>
          if negb (all_hex td) then Err NonCompliant
          else let tag := trim_leading_0_bytes (bytes_of_digits td) in
               match tag with
               | [] => Err NonCompliant
               | _ :: _ =>
                   match split_colon r1 with
                   | None => Err NonCompliant
                   | Some (ld, r2) =>
                       if negb (all_hex ld) then Err NonCompliant
                       else if 4 <? len (bytes_of_digits ld) then Err Unsupported
                       else match r2 with
                            | [] => Err NonCompliant
                            | fmt :: r3 =>
                                match inext_data masks (lower fmt (be_value (bytes_of_digits ld))) fmt r3 with
                                | Ok (d, rest) => Ok (mkEntry ty tag d, rest)
                                | Err e => Err e | Panic => Panic | NoFuel => NoFuel
                                end
                            end
                   end
               end
      end
  end.

Lemma ingenico_data_small p masks n pre fmt r : build p -> (fmt = letter_h -> n < 2147483648) -> n < 2 ^ 32 -> ascii_text (pre ++ fmt :: r) -> fits32 (pre ++ fmt :: r) ->
  ingenico_data p masks (pre ++ fmt :: r) n (len pre)
  = if (if fmt =? letter_a then usize_limit p <=? len pre + 1 + n else if fmt =? letter_h then usize_limit p <=? len pre + 1 + 2 * n else false) then Panic
    else match inext_data masks n fmt r with
    | Ok (d, rest) => Ok (d, len pre + 1 + (len r - len rest))
    | Err e => Err e | Panic => Panic | NoFuel => NoFuel
    end.
Proof.
  intros B Sf Hn Ha F. assert (F' : len (pre ++ fmt :: r) < 2147483648) by exact F. assert (Hn' : n < 4294967296) by exact Hn. assert (Lm : 4294967296 <= usize_limit p) by exact (limit32 p B).
  unfold ingenico_data, inext_data. rewrite index_app_len. cbn [bind].
  change data_format_ascii with letter_a. change data_format_hex with letter_h.
  pose proof F' as Hr. rewrite len_app, len_cons in Hr.
  assert (C1 : uadd p (len pre) 1 = Ok (len (pre ++ [fmt]))) by (rewrite len_app, len_cons, len_nil; apply (uadd32 p (len pre) 1 B); change (2 ^ 32) with 4294967296; lia).
  assert (C0 : len (pre ++ [fmt]) = len pre + 1) by (rewrite len_app, len_cons, len_nil; lia).
  assert (C : forall m, len pre + 1 + m < usize_limit p ->
    uadd p (len (pre ++ [fmt])) m = Ok (len (pre ++ [fmt]) + m)
    /\ (len (pre ++ fmt :: r) <? len (pre ++ [fmt]) + m) = (len r <? m)
    /\ (m <= len r -> str_slice (pre ++ fmt :: r) (len (pre ++ [fmt])) (len (pre ++ [fmt]) + m) = Ok (firstn (N.to_nat m) r)
        /\ ascii_text (firstn (N.to_nat m) r)
        /\ len (pre ++ [fmt]) + m = len pre + 1 + (len r - len (skipn (N.to_nat m) r)))).
  { intros m Hm. rewrite len_app, len_cons, len_nil.
    repeat split.
    - apply uadd_ok. lia.
    - rewrite len_app, len_cons. destruct (N.ltb_spec (len r) m), (N.ltb_spec (len pre + (1 + len r)) (len pre + (1 + 0) + m)); lia.
    - replace (pre ++ fmt :: r) with ((pre ++ [fmt]) ++ firstn (N.to_nat m) r ++ skipn (N.to_nat m) r)
        by (rewrite firstn_skipn, <- app_assoc; reflexivity).
      replace (len pre + (1 + 0)) with (len (pre ++ [fmt])) by (rewrite len_app; reflexivity).
      replace (len (pre ++ [fmt]) + m) with (len (pre ++ [fmt]) + len (firstn (N.to_nat m) r)) by (rewrite firstn_len by assumption; lia).
      apply str_slice_ascii. rewrite <- app_assoc. cbn [app].
      rewrite <- (firstn_skipn (N.to_nat m) r) in Ha.
      apply ascii_app in Ha. destruct Ha as [Ha1 Ha2]. apply ascii_cons in Ha2. destruct Ha2 as [Hf Ha2].
      apply ascii_app in Ha2. apply ascii_app. split; [assumption|]. apply ascii_cons. tauto.
    - rewrite <- (firstn_skipn (N.to_nat m) r) in Ha. apply ascii_app in Ha. destruct Ha as [_ Ha].
      apply ascii_cons in Ha. destruct Ha as [_ Ha]. now apply ascii_app in Ha.
    - unfold len in *. rewrite skipn_length. lia. }
  assert (W : forall m (k : N -> res (emv_data * N)), m < usize_limit p -> usize_limit p <= len pre + 1 + m ->
    (forall c, c < len (pre ++ [fmt]) -> k c = Panic) -> bind (uadd p (len (pre ++ [fmt])) m) k = Panic).
  { intros m k Hm Ho Hk. destruct (uadd_wraps p (len (pre ++ [fmt])) m B) as [U|(c & U & Hc)]; try lia; rewrite U; [reflexivity|]. cbn [bind]. now apply Hk. }
  destruct (fmt =? letter_a).
  - rewrite C1. cbn [bind]. destruct (N.leb_spec (usize_limit p) (len pre + 1 + n)) as [Over|Fit].
    + apply W; [lia|assumption|]. intros c Hc. assert (Lx : len (pre ++ fmt :: r) = len pre + (1 + len r)) by (rewrite len_app, len_cons; reflexivity).
      destruct (N.ltb_spec (len (pre ++ fmt :: r)) c); [lia|].
      destruct (uadd_wraps p (len (pre ++ [fmt])) n B) as [U|(c' & U & Hc')]; try lia; rewrite U; [reflexivity|]. cbn [bind]. now rewrite str_slice_backwards.
    + destruct (C n Fit) as (C2 & C3 & C4). rewrite C2. cbn [bind]. rewrite C3.
      destruct (N.ltb_spec (len r) n) as [H|H]; [reflexivity|].
      destruct (C4 H) as (C5 & C6 & C7). cbn [bind]. rewrite C5. cbn [bind].
      rewrite is_masked_str_ascii, utf8_ascii by assumption. cbn zeta. now rewrite <- C7.
  - destruct (N.eqb_spec fmt letter_h) as [Eh|_]; [|reflexivity]. specialize (Sf Eh).
    assert (Hm : 2 * n < usize_limit p) by lia.
    assert (D : umul p n 2 = Ok (2 * n)) by (unfold umul; replace (n * 2) with (2 * n) by lia; now apply checked_ok).
    rewrite D; cbn [bind].
    rewrite C1. cbn [bind]. destruct (N.leb_spec (usize_limit p) (len pre + 1 + 2 * n)) as [Over|Fit].
    + apply W; [lia|assumption|]. intros c Hc. assert (Lx : len (pre ++ fmt :: r) = len pre + (1 + len r)) by (rewrite len_app, len_cons; reflexivity).
      destruct (N.ltb_spec (len (pre ++ fmt :: r)) c); [lia|].
      destruct (uadd_wraps p (len (pre ++ [fmt])) (2 * n) B) as [U|(c' & U & Hc')]; try lia; rewrite U; [reflexivity|]. cbn [bind]. now rewrite str_slice_backwards.
    + destruct (C (2 * n) Fit) as (C2 & C3 & C4). rewrite C2. cbn [bind]. rewrite C3.
      destruct (N.ltb_spec (len r) (2 * n)) as [H|H]; [reflexivity|].
      destruct (C4 H) as (C5 & C6 & C7). cbn [bind]. rewrite C5. cbn [bind].
      rewrite is_masked_str_ascii by assumption. cbn zeta.
      destruct (is_masked_u8 _ masks); [now rewrite <- C7|].
      rewrite strict_map_err. destruct (all_hex _); cbn [bind]; [now rewrite <- C7|reflexivity].
Qed.

Lemma wrapping_build p : wrapping p -> build p.
Proof. intros [W _]. unfold build. lia. Qed.
Lemma wrapping_limit p : wrapping p -> usize_limit p = 4294967296.
Proof. intros [W _]. unfold usize_limit. rewrite W. reflexivity. Qed.
Lemma umul_lower p n : wrapping p -> n < 4294967296 -> umul p n 2 = umul p (n mod 2147483648) 2.
Proof.
  intros W Hn. pose proof (wrapping_limit p W) as L. destruct W as [_ W]. unfold umul, checked. rewrite L, W.
  assert (n mod 2147483648 < 2147483648) by (apply N.mod_lt; discriminate). rewrite (proj2 (N.ltb_lt (n mod 2147483648 * 2) _)) by lia.
  destruct (N.ltb_spec (n * 2) 4294967296) as [K|K].
  - rewrite N.mod_small by lia. reflexivity.
  - f_equal. change 4294967296 with (2147483648 * 2). rewrite N.mul_mod_distr_r by discriminate. reflexivity.
Qed.
Lemma ingenico_data_lower p masks n pre fmt r : wrapping p -> n < 4294967296 ->
  ingenico_data p masks (pre ++ fmt :: r) n (len pre) = ingenico_data p masks (pre ++ fmt :: r) (lower fmt n) (len pre).
Proof.
  intros W Hn. unfold ingenico_data, lower. rewrite index_app_len. cbn [bind]. change data_format_ascii with letter_a. change data_format_hex with letter_h.
  destruct (N.eqb_spec fmt letter_h) as [->|_]; [|reflexivity]. cbn [N.eqb Pos.eqb letter_a letter_h]. rewrite (umul_lower p n W Hn). reflexivity.
Qed.
Lemma lower_small fmt n : n < 4294967296 -> (fmt = letter_h -> lower fmt n < 2147483648) /\ lower fmt n < 2 ^ 32.
Proof.
  intros H. unfold lower. change (2 ^ 32) with 4294967296. destruct (N.eqb_spec fmt letter_h) as [_|K]; [|split; [congruence|assumption]].
  assert (n mod 2147483648 < 2147483648) by (apply N.mod_lt; discriminate). split; [intros _; assumption|lia].
Qed.

Lemma ingenico_loop_stepw f p masks pre suf nodes : wrapping p ->
  suf <> [] -> ascii_text (pre ++ suf) -> fits32 (pre ++ suf) ->
  ingenico_loop (S f) p masks (pre ++ suf) (len pre) nodes
  = if wover (usize_limit p) (len pre) suf then Panic
    else match winext masks suf with
    | Ok (e, rest) =>
        let i := len pre + (len suf - len rest) + 1 in
        if ie_type e =? letter_T
        then n <- ing_child (ber_parse p masks) e;;
             ingenico_loop f p masks (pre ++ suf) i (nodes ++ [n])
        else ingenico_loop f p masks (pre ++ suf) i nodes
    | Err e => Err e | Panic => Panic | NoFuel => NoFuel
    end.
Proof.
  intros W Hne Ha F. pose proof (wrapping_build p W) as B. assert (HR : len (pre ++ suf) < 2147483648) by exact F. pose proof (roomy_r64 _ F) as Hr. cbn [ingenico_loop].
  assert (Lm : 4294967296 <= usize_limit p) by exact (limit32 p B).
  rewrite (proj2 (N.ltb_lt _ _)) by (rewrite len_app; destruct suf; [congruence|rewrite len_cons; lia]).
  destruct suf as [|ty r0]; [congruence|]. clear Hne.
  rewrite index_app_len. cbn [bind].
  assert (HL : len (pre ++ ty :: r0) = len pre + 1 + len r0) by (rewrite len_app, len_cons; lia).
  rewrite uadd_ok by lia. cbn [bind]. rewrite HL.
  unfold winext, wover.
  destruct r0 as [|x0 r0'] eqn:Er0.
  { rewrite len_nil. rewrite (proj2 (N.leb_le _ _)) by lia. reflexivity. }
  rewrite (proj2 (N.leb_gt _ _)) by (rewrite len_cons; lia). rewrite <- Er0 in *. clear Er0 x0 r0'.
  replace (len pre + 1) with (len (pre ++ [ty])) in * by (rewrite len_app; reflexivity).
  replace (pre ++ ty :: r0) with ((pre ++ [ty]) ++ r0) in * by (rewrite <- app_assoc; reflexivity).
  rewrite (proj1 (colon32 p _ _ B Ha F)), find_colon_spec by assumption.
  destruct (split_colon r0) as [[td r1]|] eqn:E1; [|reflexivity]. cbn [bind].
  apply split_colon_app in E1. subst r0.
  rewrite str_slice_ascii by (rewrite app_assoc in Ha; now apply ascii_app in Ha). cbn [bind].
  rewrite strict_map_err. destruct (all_hex td) eqn:Htd; [|reflexivity]. cbn [bind negb].
  rewrite (len_app td), (len_cons colon) in HL.
  rewrite uadd_ok by lia. cbn [bind].
  set (tag := trim_leading_0_bytes (bytes_of_digits td)) in *.
  destruct tag as [|t0 tag'] eqn:Etag.
  { rewrite (orb_true_r). reflexivity. }
  assert (T0 : t0 < 256).
  { assert (Bt : bytes_ok (bytes_of_digits td)) by (now apply bytes_of_digits_bytes, all_hex_forall).
    destruct (trim_leading_split (bytes_of_digits td)) as (k & E & _). fold tag in E. subst tag. rewrite Etag in E.
    rewrite E in Bt. apply bytes_ok_app in Bt. destruct Bt as [_ Bt]. now apply bytes_ok_cons in Bt. }
  assert (Hz : (len (t0 :: tag') =? 0) = false) by (rewrite len_cons; apply N.eqb_neq; lia).
  rewrite Hz, orb_false_r.
  replace (len (pre ++ [ty]) + len td + 1) with (len ((pre ++ [ty]) ++ td ++ [colon]))
    by (rewrite (len_app _ (td ++ [colon])), (len_app td); change (len [colon]) with 1; lia).
  replace ((pre ++ [ty]) ++ td ++ colon :: r1) with (((pre ++ [ty]) ++ td ++ [colon]) ++ r1) in *
    by (rewrite <- !app_assoc; reflexivity).
  set (pre1 := (pre ++ [ty]) ++ td ++ [colon]) in *.
  assert (HP1 : len pre1 = len (pre ++ [ty]) + len td + 1)
    by (unfold pre1; rewrite (len_app _ (td ++ [colon])), (len_app td); change (len [colon]) with 1; lia).
  assert (HL1 : len (pre1 ++ r1) = len pre1 + len r1) by apply len_app.
  replace (len (pre ++ [ty]) + len (td ++ colon :: r1)) with (len (pre1 ++ r1))
    by (rewrite HL1, HP1, (len_app td), len_cons; lia).
  destruct r1 as [|y1 r1'] eqn:Er1.
  { rewrite app_nil_r. rewrite (proj2 (N.leb_le _ _)) by lia. reflexivity. }
  rewrite (proj2 (N.leb_gt _ _)) by (rewrite HL1, len_cons; lia).
  rewrite <- Er1 in *. clear Er1 y1 r1'.
  change (index (t0 :: tag') 0) with (@Ok N t0). cbn [bind].
  rewrite tag_metadata_spec by assumption. cbn [bind fst snd].
  rewrite (proj1 (colon32 p _ _ B Ha F)), find_colon_spec by assumption.
  destruct (split_colon r1) as [[ld r2]|] eqn:E2; [|reflexivity]. cbn [bind].
  apply split_colon_app in E2. subst r1.
  rewrite str_slice_ascii by (rewrite app_assoc in Ha; now apply ascii_app in Ha). cbn [bind].
  rewrite strict_map_err. destruct (all_hex ld) eqn:Hld; [|reflexivity]. cbn [bind negb].
  destruct (N.ltb_spec 4 (len (bytes_of_digits ld))) as [H4|H4]; [reflexivity|].
  unfold byte_slice_to_u32. rewrite byte_slice_to_uint_ok by (unfold len in H4; lia). cbn [bind].
  assert (Hn : be_value (bytes_of_digits ld) < 2 ^ 32) by (apply be_digits_lt; [assumption|now apply all_hex_forall]).
  set (n := be_value (bytes_of_digits ld)) in *. cbn zeta. assert (Hn' : n < 4294967296) by exact Hn.
  rewrite N.mod_small by lia.
  rewrite (len_app ld), (len_cons colon) in HL1.
  rewrite uadd_ok by lia. cbn [bind].
  replace (len pre1 + len ld + 1) with (len (pre1 ++ ld ++ [colon]))
    by (rewrite (len_app _ (ld ++ [colon])), (len_app ld); change (len [colon]) with 1; lia).
  replace (pre1 ++ ld ++ colon :: r2) with ((pre1 ++ ld ++ [colon]) ++ r2) in *
    by (rewrite <- !app_assoc; reflexivity).
  set (pre2 := pre1 ++ ld ++ [colon]) in *.
  assert (HP2 : len pre2 = len pre1 + len ld + 1)
    by (unfold pre2; rewrite (len_app _ (ld ++ [colon])), (len_app ld); change (len [colon]) with 1; lia).
  destruct r2 as [|fmt r3].
  { rewrite app_nil_r. rewrite (proj2 (N.leb_le _ _)) by lia. reflexivity. }
  rewrite (proj2 (N.leb_gt _ _)) by (rewrite len_app, len_cons; lia).
  rewrite ingenico_data_lower by assumption. destruct (lower_small fmt n Hn') as [S1 S2]. rewrite ingenico_data_small by assumption.
  set (n' := lower fmt n) in *.
  replace (len pre + (len (ty :: td ++ colon :: ld ++ colon :: fmt :: r3) - len r3)) with (len pre2 + 1).
  2:{ rewrite HP2, HP1. rewrite (len_app pre [ty]). change (len [ty]) with 1. rewrite len_cons, (len_app td), len_cons, (len_app ld), len_cons, len_cons. lia. }
  destruct (if fmt =? letter_a then usize_limit p <=? len pre2 + 1 + n' else if fmt =? letter_h then usize_limit p <=? len pre2 + 1 + 2 * n' else false); [reflexivity|].
  destruct (inext_data masks n' fmt r3) as [[d rest]| | |] eqn:Ed; try reflexivity. cbn [bind].
  apply inext_data_suffix in Ed. destruct Ed as [txt ->].
  rewrite len_app in HR. rewrite len_cons, len_app in HR. rewrite len_app.
  rewrite uadd_ok by lia. cbn [bind ie_type].
  replace (len pre2 + 1 + (len txt + len rest - len rest) + 1)
    with (len pre + (len (ty :: td ++ colon :: ld ++ colon :: fmt :: txt ++ rest) - len rest) + 1).
  2:{ rewrite HP2, HP1. rewrite (len_app pre [ty]). change (len [ty]) with 1.
      rewrite len_cons, (len_app td), len_cons, (len_app ld), len_cons, len_cons, (len_app txt). lia. }
  change tag_type_emv with letter_T.
  destruct (ty =? letter_T); cbn [negb]; [|reflexivity].
  unfold ing_child. cbn [ie_tag ie_data first_byte].
  destruct (get_child_block (ber_parse p masks) (type_of t0) d); reflexivity.
Qed.

(** ** The first field *)

Definition high (s : list N) : bool :=
  match s with
  | [] => false
  | ty :: r0 =>
      match split_colon r0 with
      | None => false
      | Some (td, r1) =>
          if negb (all_hex td) then false
          else match trim_leading_0_bytes (bytes_of_digits td) with
               | [] => false
               | _ :: _ =>
                   match split_colon r1 with
                   | None => false
                   | Some (ld, r2) =>
                       if negb (all_hex ld) then false
                       else if 4 <? len (bytes_of_digits ld) then false
                       else match r2 with
                            | [] => false
                            | fmt :: r3 => (fmt =? letter_h) && (2147483648 <=? be_value (bytes_of_digits ld))
                            end
                   end
               end
      end
  end.
(* Either the text begins with everything up to a format letter, or nothing is made of it. *)
Lemma view s :
  (exists ty td t ld fmt r, s = ty :: td ++ colon :: ld ++ colon :: fmt :: r /\ tag_digits td t /\ Forall is_hex_digit ld /\ len (bytes_of_digits ld) <= 4)
  \/ (forall masks, winext masks s = inext masks s /\ forall x, inext masks s <> Ok x) /\ (forall l o, wover l o s = false /\ over_field l o s = false) /\ high s = false.
Proof.
  unfold winext, inext, wover, over_field, high.
  destruct s as [|ty r0]; [right; repeat split; discriminate|]. destruct (split_colon r0) as [[td r1]|] eqn:E1; [|right; repeat split; discriminate].
  destruct (all_hex td) eqn:Htd; [|right; repeat split; discriminate]. cbn [negb]. cbv zeta. destruct (trim_leading_0_bytes (bytes_of_digits td)) as [|t0 t] eqn:Et; [right; repeat split; discriminate|].
  destruct (split_colon r1) as [[ld r2]|] eqn:E2; [|right; repeat split; discriminate]. destruct (all_hex ld) eqn:Hld; [|right; repeat split; discriminate]. cbn [negb].
  destruct (N.ltb_spec 4 (len (bytes_of_digits ld))) as [H4|H4]; [right; repeat split; discriminate|]. destruct r2 as [|fmt r3]; [right; repeat split; discriminate|].
  apply split_colon_app in E1, E2. subst r0 r1. left. exists ty, td, (t0 :: t), ld, fmt, r3. split; [reflexivity|].
  split; [apply tag_digits_iff; [assumption|]; split; [now symmetry|discriminate]|]. split; [now apply all_hex_iff|assumption].
Qed.
Lemma parts ty td t ld fmt r : tag_digits td t -> Forall is_hex_digit ld -> len (bytes_of_digits ld) <= 4 ->
  let s := ty :: td ++ colon :: ld ++ colon :: fmt :: r in let n := be_value (bytes_of_digits ld) in
  (forall masks, winext masks s = match inext_data masks (lower fmt n) fmt r with Ok (d, rest) => Ok (mkEntry ty t d, rest) | Err e => Err e | Panic => Panic | NoFuel => NoFuel end
              /\ inext masks s = match inext_data masks n fmt r with Ok (d, rest) => Ok (mkEntry ty t d, rest) | Err e => Err e | Panic => Panic | NoFuel => NoFuel end)
  /\ (forall l o, wover l o s = (if fmt =? letter_a then l <=? o + (len s - len r) + lower fmt n else if fmt =? letter_h then l <=? o + (len s - len r) + 2 * lower fmt n else false)
               /\ over_field l o s = (if fmt =? letter_a then l <=? o + (len s - len r) + n else if fmt =? letter_h then l <=? o + (len s - len r) + 2 * n else false))
  /\ high s = (fmt =? letter_h) && (2147483648 <=? n).
Proof.
  intros T Hld H4. cbv zeta. unfold winext, inext, wover, over_field, high. pose proof T as [Htd _].
  rewrite !split_colon_no by (now apply hex_no_colon).
  assert (Hh : all_hex td = true) by (now apply all_hex_iff). rewrite Hh. cbn [negb].
  apply tag_digits_iff in T; [|assumption]. destruct T as [-> Hne]. destruct t as [|t0 t1]; [congruence|].
  assert (Hd : all_hex ld = true) by (now apply all_hex_iff). rewrite Hd. cbn [negb].
  rewrite (proj2 (N.ltb_ge _ _)) by assumption. repeat split; reflexivity.
Qed.
Lemma length_lt ld : Forall is_hex_digit ld -> len (bytes_of_digits ld) <= 4 -> be_value (bytes_of_digits ld) < 4294967296.
Proof. intros H L. apply be_digits_lt; [assumption|]. now apply all_hex_forall, all_hex_iff. Qed.
Lemma low_first masks s : high s = false -> winext masks s = inext masks s /\ forall l o, wover l o s = over_field l o s.
Proof.
  intros H. destruct (view s) as [(ty & td & t & ld & fmt & r & -> & T & Hl & H4)|(V1 & V2 & _)].
  - destruct (parts ty td t ld fmt r T Hl H4) as (P1 & P2 & P3). cbv zeta in *. rewrite P3 in H. pose proof (length_lt ld Hl H4) as Hn. set (n := be_value (bytes_of_digits ld)) in *.
    assert (E : lower fmt n = n).
    { unfold lower. destruct (fmt =? letter_h); [|reflexivity]. cbn [andb] in H. apply N.leb_gt in H. now apply N.mod_small. }
    rewrite E in *. split; [destruct (P1 masks) as [-> ->]; reflexivity|]. intros l o. destruct (P2 l o) as [-> ->]. reflexivity.
  - split; [apply V1|]. intros l o. destruct (V2 l o) as [-> ->]. reflexivity.
Qed.
Lemma field_low masks s x : fits32 s -> inext masks s = Ok x -> high s = false.
Proof.
  intros F H. destruct (view s) as [(ty & td & t & ld & fmt & r & -> & T & Hl & H4)|(V1 & _)]; [|now destruct (V1 masks) as [_ V]; apply V in H].
  destruct (parts ty td t ld fmt r T Hl H4) as (P1 & P2 & P3). cbv zeta in *. rewrite P3. destruct (P1 masks) as [_ E]. rewrite E in H.
  destruct (N.eqb_spec fmt letter_h) as [->|]; [|reflexivity]. cbn [andb]. apply N.leb_gt. unfold inext_data in H. cbn [N.eqb Pos.eqb letter_a letter_h] in H.
  destruct (N.ltb_spec (len r) (2 * be_value (bytes_of_digits ld))) as [K|K]; [discriminate|].
  unfold fits32 in F. change (2 ^ 31) with 2147483648 in F. rewrite len_cons, len_app, len_cons, len_app, len_cons, len_cons in F. lia.
Qed.
Lemma winext_suffix masks s e rest : winext masks s = Ok (e, rest) -> exists f, s = f ++ rest /\ f <> [].
Proof.
  intros H. destruct (view s) as [(ty & td & t & ld & fmt & r & -> & T & Hl & H4)|(V1 & _)].
  - destruct (parts ty td t ld fmt r T Hl H4) as (P1 & _). cbv zeta in *. rewrite (proj1 (P1 masks)) in H.
    destruct (inext_data masks _ fmt r) as [[d r']| | |] eqn:E; try discriminate. injection H as <- <-. apply inext_data_suffix in E. destruct E as [txt ->].
    exists (ty :: td ++ colon :: ld ++ colon :: fmt :: txt). split; [|discriminate]. cbn [app]. rewrite <- !app_assoc. cbn [app]. rewrite <- !app_assoc. reflexivity.
  - destruct (V1 masks) as [V W]. rewrite V in H. now apply W in H.
Qed.
Lemma winext_total masks s : (exists x, winext masks s = Ok x) \/ exists er, winext masks s = Err er.
Proof.
  destruct (view s) as [(ty & td & t & ld & fmt & r & -> & T & Hl & H4)|(V1 & _)].
  - destruct (parts ty td t ld fmt r T Hl H4) as (P1 & _). cbv zeta in *. rewrite (proj1 (P1 masks)).
    destruct (inext_data_total masks (lower fmt (be_value (bytes_of_digits ld))) fmt r) as [[[d r'] E]|E]; rewrite E; eauto.
  - destruct (V1 masks) as [-> W]. destruct (inext_total masks s) as [?|[?|?]]; eauto.
Qed.
Lemma top_digit d d' ld : Forall is_hex_digit (d :: d' :: ld) -> List.length ld = 7%nat \/ List.length ld = 8%nat -> hex_value d = 8 + hex_value d' ->
  be_value (bytes_of_digits (d :: ld)) = 2147483648 + be_value (bytes_of_digits (d' :: ld)) /\ len (bytes_of_digits (d :: ld)) = 4 /\ len (bytes_of_digits (d' :: ld)) = 4.
Proof.
  intros H L E. assert (X : exists a b c e f g h, exists t, ld = a :: b :: c :: e :: f :: g :: h :: t /\ (t = [] \/ exists x, t = [x])).
  { destruct ld as [|a [|b [|c [|e [|f [|g [|h t]]]]]]]; cbn [List.length] in L; try lia. exists a, b, c, e, f, g, h, t. split; [reflexivity|].
    destruct t as [|x [|y t]]; cbn [List.length] in L; [now left|right; now exists x|lia]. }
  destruct X as (a & b & c & e & f & g & h & t & -> & [->|[x ->]]); cbn [bytes_of_digits]; (split; [|split; reflexivity]); cbn [be_value List.length]; change (256 ^ N.of_nat 3) with 16777216; change (256 ^ N.of_nat 2) with 65536; change (256 ^ N.of_nat 1) with 256; change (256 ^ N.of_nat 0) with 1; rewrite E; lia.
Qed.
Lemma here_high ty td t d d' ld rest : tag_digits td t -> Forall is_hex_digit (d :: d' :: ld) -> List.length ld = 7%nat \/ List.length ld = 8%nat -> hex_value d = 8 + hex_value d' ->
  high (ty :: td ++ colon :: (d :: ld) ++ colon :: letter_h :: rest) = true /\ high (ty :: td ++ colon :: (d' :: ld) ++ colon :: letter_h :: rest) = false.
Proof.
  intros T H L E. destruct (top_digit d d' ld H L E) as (V & L1 & L2). inversion H as [|? ? Hd H']; subst. inversion H' as [|? ? Hd' Hl]; subst.
  assert (A1 : Forall is_hex_digit (d :: ld)) by (now constructor). assert (A2 : Forall is_hex_digit (d' :: ld)) by (now constructor).
  destruct (parts ty td t (d :: ld) letter_h rest T A1 ltac:(lia)) as (_ & _ & P). destruct (parts ty td t (d' :: ld) letter_h rest T A2 ltac:(lia)) as (_ & _ & P').
  cbv zeta in *. rewrite P, P'. pose proof (length_lt _ A1 ltac:(lia)) as K. rewrite N.eqb_refl. cbn [andb].
  split; [apply N.leb_le|apply N.leb_gt]; rewrite V in *; lia.
Qed.
Lemma high_here s : high s = true -> exists ty td t d d' ld rest, s = ty :: td ++ colon :: (d :: ld) ++ colon :: letter_h :: rest /\
  tag_digits td t /\ Forall is_hex_digit (d :: d' :: ld) /\ (List.length ld = 7%nat \/ List.length ld = 8%nat) /\ hex_value d = 8 + hex_value d'.
Proof.
  intros H. destruct (view s) as [(ty & td & t & ld & fmt & r & -> & T & Hl & H4)|(_ & _ & V)]; [|congruence].
  destruct (parts ty td t ld fmt r T Hl H4) as (_ & _ & P). cbv zeta in *. rewrite P in H. apply andb_true_iff in H. destruct H as [H1 H2]. apply N.eqb_eq in H1. apply N.leb_le in H2. subst fmt.
  assert (Bd : forall x, is_hex_digit x -> hex_value x < 16).
  { intros x Hx. unfold is_hex_digit in Hx. unfold hex_value. destruct (N.leb_spec x 57), (N.leb_spec x 70); lia. }
  assert (Ln : exists d l, ld = d :: l /\ (List.length l = 7%nat \/ List.length l = 8%nat)).
  { apply len_digits_9 in H4.
    assert (Sm : forall l, Forall is_hex_digit l -> (List.length l < 8)%nat -> be_value (bytes_of_digits l) < 2147483648).
    { intros l Fl Hs. assert (L3 : len (bytes_of_digits l) <= 3).
      { destruct l as [|x0 [|x1 [|x2 [|x3 [|x4 [|x5 [|x6 [|x7 l]]]]]]]]; cbn [bytes_of_digits List.length] in *; try lia; unfold len; cbn [List.length]; lia. }
      assert (Bb : bytes_ok (bytes_of_digits l)) by (now apply bytes_of_digits_bytes, all_hex_forall, all_hex_iff).
      destruct (bytes_of_digits l) as [|y0 [|y1 [|y2 [|y3 q]]]]; try (unfold len in L3; cbn [List.length] in L3; lia); cbn [be_value List.length]; change (256 ^ N.of_nat 3) with 16777216; change (256 ^ N.of_nat 2) with 65536; change (256 ^ N.of_nat 1) with 256; change (256 ^ N.of_nat 0) with 1;
      repeat match goal with K : bytes_ok (_ :: _) |- _ => apply bytes_ok_cons in K; destruct K end; lia. }
    destruct (Nat.lt_ge_cases (List.length ld) 8) as [K|K]; [specialize (Sm ld Hl K); lia|].
    destruct ld as [|d l]; [cbn in K; lia|]. exists d, l. split; [reflexivity|]. cbn [List.length] in *. lia. }
  destruct Ln as (d & l & -> & Ll). inversion Hl as [|? ? Hd Hl']; subst.
  assert (D8 : 8 <= hex_value d).
  { destruct (N.lt_ge_cases (hex_value d) 8) as [K|K]; [|assumption]. exfalso.
    assert (X : exists a b c e f g h, exists t, l = a :: b :: c :: e :: f :: g :: h :: t /\ (t = [] \/ exists x, t = [x])).
    { destruct l as [|a [|b [|c [|e [|f [|g [|h tl]]]]]]]; cbn [List.length] in Ll; try lia. exists a, b, c, e, f, g, h, tl. split; [reflexivity|].
      destruct tl as [|x [|y tl]]; cbn [List.length] in Ll; [now left|right; now exists x|lia]. }
    destruct X as (a & b & c & e & f & g & h & tl & -> & Htl).
    do 7 match goal with Q : Forall is_hex_digit (_ :: _) |- _ => inversion Q; subst; clear Q end.
    repeat match goal with Q : is_hex_digit ?x |- _ => apply Bd in Q end.
    destruct Htl as [->|[x ->]]; cbn [bytes_of_digits] in H2; cbn [be_value List.length] in H2; change (256 ^ N.of_nat 3) with 16777216 in H2; change (256 ^ N.of_nat 2) with 65536 in H2; change (256 ^ N.of_nat 1) with 256 in H2; change (256 ^ N.of_nat 0) with 1 in H2; lia. }
  assert (D' : exists d', is_hex_digit d' /\ hex_value d = 8 + hex_value d').
  { exists (48 + (hex_value d - 8)). pose proof (Bd d Hd). unfold is_hex_digit. split; [lia|]. set (y := hex_value d) in *. unfold hex_value. destruct (N.leb_spec (48 + (y - 8)) 57); lia. }
  destruct D' as (d' & Hd' & Ed). exists ty, td, t, d, d', l, r. split; [reflexivity|]. split; [assumption|]. split; [|now split]. constructor; [assumption|]. now constructor.
Qed.

(** ** One digit *)

Lemma one_less_high masks s s' : one_less masks s s' -> high s = true \/ exists f e sep rest rest', s = f ++ sep :: rest /\ s' = f ++ sep :: rest' /\ ing_field masks f e /\ one_less masks rest rest'.
Proof. intros H. inversion H as [ty td t d d' ld rest T Hh L E|f e sep rest rest' Hf Hr]; subst; [left; now apply (here_high ty td t d d' ld rest)|right; exists f, e, sep, rest, rest'; auto]. Qed.
Lemma first_same masks suf suf' : fits32 suf -> suf = suf' \/ one_less masks suf suf' ->
  len suf = len suf' /\ (forall l o, wover l o suf = wover l o suf')
  /\ ((exists er, winext masks suf = Err er /\ winext masks suf' = Err er)
      \/ exists e f f' rest rest', winext masks suf = Ok (e, rest) /\ winext masks suf' = Ok (e, rest') /\ suf = f ++ rest /\ suf' = f' ++ rest' /\ len f = len f' /\ f <> []
           /\ (rest = rest' \/ exists sep r r', rest = sep :: r /\ rest' = sep :: r' /\ one_less masks r r')).
Proof.
  intros F [<-|H].
  - split; [reflexivity|]. split; [reflexivity|]. destruct (winext_total masks suf) as [[[e rest] E]|[er E]]; [right|left; exists er; auto].
    destruct (winext_suffix _ _ _ _ E) as (f & Es & Hf). exists e, f, f, rest, rest. repeat split; auto.
  - inversion H as [ty td t d d' ld rest T Hh L E|f e sep rest rest' Hf Hr]; subst.
    + destruct (top_digit d d' ld Hh L E) as (V & L1 & L2). inversion Hh as [|? ? Hd H']; subst. inversion H' as [|? ? Hd' Hl]; subst.
      assert (A1 : Forall is_hex_digit (d :: ld)) by (now constructor). assert (A2 : Forall is_hex_digit (d' :: ld)) by (now constructor).
      destruct (parts ty td t (d :: ld) letter_h rest T A1 ltac:(lia)) as (P1 & P2 & _). destruct (parts ty td t (d' :: ld) letter_h rest T A2 ltac:(lia)) as (Q1 & Q2 & _). cbv zeta in *.
      pose proof (length_lt _ A1 ltac:(lia)) as K.
      assert (Lo : lower letter_h (be_value (bytes_of_digits (d :: ld))) = lower letter_h (be_value (bytes_of_digits (d' :: ld)))).
      { unfold lower. cbn [N.eqb Pos.eqb letter_h]. rewrite V. rewrite <- (N.mod_add (be_value (bytes_of_digits (d' :: ld))) 1 2147483648) by discriminate. f_equal. lia. }
      assert (Ll : len (ty :: td ++ colon :: (d :: ld) ++ colon :: letter_h :: rest) = len (ty :: td ++ colon :: (d' :: ld) ++ colon :: letter_h :: rest)).
      { cbn [app]. rewrite !len_cons, !len_app, !len_cons. reflexivity. }
      split; [assumption|]. split; [intros l o; rewrite (proj1 (P2 l o)), (proj1 (Q2 l o)), Lo, Ll; reflexivity|].
      rewrite (proj1 (P1 masks)), (proj1 (Q1 masks)), <- Lo.
      destruct (inext_data_total masks (lower letter_h (be_value (bytes_of_digits (d :: ld)))) letter_h rest) as [[[dt r'] Ed]|Ed]; rewrite Ed; [right|left; eauto].
      apply inext_data_suffix in Ed. destruct Ed as [txt ->].
      exists (mkEntry ty t dt), (ty :: td ++ colon :: (d :: ld) ++ colon :: letter_h :: txt), (ty :: td ++ colon :: (d' :: ld) ++ colon :: letter_h :: txt), r', r'.
      repeat split; try discriminate; [cbn [app]; rewrite <- !app_assoc; cbn [app]; rewrite <- !app_assoc; reflexivity..| |now left].
      cbn [app]. rewrite !len_cons, !len_app, !len_cons. reflexivity.
    + assert (I : forall r, inext masks (f ++ sep :: r) = Ok (e, sep :: r)) by (intros r; apply inext_iff; exists f; auto).
      assert (Lr : forall a b, one_less masks a b -> len a = len b).
      { clear. induction 1; [cbn [app]; rewrite !len_cons, !len_app, !len_cons; reflexivity|rewrite !len_app, !len_cons; lia]. }
      specialize (Lr _ _ Hr).
      assert (F' : fits32 (f ++ sep :: rest')) by (unfold fits32 in *; rewrite len_app, len_cons in *; lia).
      destruct (low_first masks _ (field_low masks _ _ F (I rest))) as [W1 O1]. destruct (low_first masks _ (field_low masks _ _ F' (I rest'))) as [W2 O2].
      split; [rewrite !len_app, !len_cons; lia|]. split.
      * intros l o. rewrite O1, O2. destruct (view (f ++ sep :: rest)) as [(ty & td & t & ld & fmt & r & Es & T & Hl & H4)|(V1 & _)].
        2:{ exfalso. apply (proj2 (V1 masks) (e, sep :: rest)), I. }
        inversion Hf as [ty0 td0 tag ld0 n fmt0 txt d T0 (L1 & L2 & L3) D]; subst f e.
        assert (Fx : forall r, (ty0 :: td0 ++ colon :: ld0 ++ colon :: fmt0 :: txt) ++ sep :: r = ty0 :: td0 ++ colon :: ld0 ++ colon :: fmt0 :: txt ++ sep :: r).
        { intros. cbn [app]. rewrite <- !app_assoc. cbn [app]. rewrite <- !app_assoc. reflexivity. }
        rewrite !Fx. assert (H9 : len (bytes_of_digits ld0) <= 4) by (now apply len_digits_9).
        destruct (parts ty0 td0 tag ld0 fmt0 (txt ++ sep :: rest) T0 L1 H9) as (_ & P2 & _). destruct (parts ty0 td0 tag ld0 fmt0 (txt ++ sep :: rest') T0 L1 H9) as (_ & Q2 & _). cbv zeta in *.
        rewrite (proj2 (P2 l o)), (proj2 (Q2 l o)). 
        assert (Le : len (ty0 :: td0 ++ colon :: ld0 ++ colon :: fmt0 :: txt ++ sep :: rest) = len (ty0 :: td0 ++ colon :: ld0 ++ colon :: fmt0 :: txt ++ sep :: rest')) by (rewrite !len_cons, !len_app, !len_cons, !len_app, !len_cons, !len_app, !len_cons; lia).
        assert (Lt : len (txt ++ sep :: rest) = len (txt ++ sep :: rest')) by (rewrite !len_app, !len_cons; lia).
        rewrite Le, Lt. reflexivity.
      * right. exists e, f, f, (sep :: rest), (sep :: rest'). rewrite W1, W2, !I. repeat split; auto; [now apply ing_field_ne in Hf|]. right. exists sep, rest, rest'. auto.
Qed.
Lemma loop_same p masks : wrapping p -> forall fuel pre pre' suf suf' nodes, len pre = len pre' ->
  ascii_text (pre ++ suf) -> ascii_text (pre' ++ suf') -> fits32 (pre ++ suf) -> fits32 (pre' ++ suf') -> suf = suf' \/ one_less masks suf suf' ->
  ingenico_loop fuel p masks (pre ++ suf) (len pre) nodes = ingenico_loop fuel p masks (pre' ++ suf') (len pre') nodes.
Proof.
  intros W. induction fuel as [|f IH]; intros pre pre' suf suf' nodes Lp A A' F F' R; [reflexivity|].
  assert (Fs : fits32 suf) by (unfold fits32 in *; rewrite len_app in F; lia).
  destruct (first_same masks suf suf' Fs R) as (Ls & Wo & C).
  destruct suf as [|x suf].
  { destruct suf' as [|y suf']; [|rewrite len_cons, len_nil in Ls; lia]. rewrite !ingenico_loop_end by (rewrite app_nil_r; lia). reflexivity. }
  assert (Ns : suf' <> []) by (destruct suf'; [rewrite len_cons, len_nil in Ls; lia|discriminate]).
  rewrite !ingenico_loop_stepw by (try assumption; discriminate). rewrite <- Wo, <- Lp.
  destruct (wover (usize_limit p) (len pre) (x :: suf)); [reflexivity|].
  destruct C as [(er & -> & ->)|(e & fd & fd' & rest & rest' & -> & -> & E & E' & Lf & Nf & Rr)]; [reflexivity|]. cbv zeta. rewrite E, E' in *.
  assert (D : forall nodes', ingenico_loop f p masks (pre ++ fd ++ rest) (len pre + (len (fd ++ rest) - len rest) + 1) nodes'
    = ingenico_loop f p masks (pre' ++ fd' ++ rest') (len pre + (len (fd' ++ rest') - len rest') + 1) nodes').
  { intros nodes'. rewrite (len_app fd rest), (len_app fd' rest').
    replace (len pre + (len fd + len rest - len rest) + 1) with (len pre + len fd + 1) by lia.
    replace (len pre + (len fd' + len rest' - len rest') + 1) with (len pre' + len fd' + 1) by lia.
    assert (X : rest = [] /\ rest' = [] \/ exists sep r r', rest = sep :: r /\ rest' = sep :: r' /\ (r = r' \/ one_less masks r r')).
    { destruct Rr as [<-|(sep & r & r' & -> & -> & O)]; [|right; exists sep, r, r'; auto]. destruct rest as [|sep r]; [now left|right; exists sep, r, r; auto]. }
    destruct X as [[-> ->]|(sep & r & r' & -> & -> & Rs)].
    - destruct f as [|f]; [reflexivity|]. rewrite !ingenico_loop_end by (rewrite !len_app, len_nil; lia). reflexivity.
    - replace (pre ++ fd ++ sep :: r) with ((pre ++ fd ++ [sep]) ++ r) in * by (rewrite <- !app_assoc; reflexivity).
      replace (pre' ++ fd' ++ sep :: r') with ((pre' ++ fd' ++ [sep]) ++ r') in * by (rewrite <- !app_assoc; reflexivity).
      replace (len pre + len fd + 1) with (len (pre ++ fd ++ [sep])) by (rewrite !len_app; change (len [sep]) with 1; lia).
      replace (len pre' + len fd' + 1) with (len (pre' ++ fd' ++ [sep])) by (rewrite !len_app; change (len [sep]) with 1; lia).
      apply IH; try assumption. rewrite !len_app. lia. }
  destruct (ie_type e =? letter_T); [|apply D]. destruct (ing_child (ber_parse p masks) e); cbn [bind]; [apply D|reflexivity..].
Qed.
Lemma one_less_ascii masks s s' : one_less masks s s' -> (ascii_text s <-> ascii_text s') /\ len s = len s'.
Proof.
  intros H. induction H as [ty td t d d' ld rest T Hh L E|f e sep rest rest' Hf Hr IH].
  - split; [|cbn [app]; rewrite !len_cons, !len_app, !len_cons; reflexivity]. inversion Hh as [|? ? Hd H']; subst. inversion H' as [|? ? Hd' Hl]; subst.
    assert (Q : forall x, is_hex_digit x -> x < 128) by (intros x Hx; unfold is_hex_digit in Hx; lia). cbn [app].
    rewrite !ascii_cons, !ascii_app, !ascii_cons. pose proof (Q _ Hd). pose proof (Q _ Hd'). tauto.
  - destruct IH as [I1 I2]. split; [rewrite !ascii_app, !ascii_cons; tauto|rewrite !len_app, !len_cons; lia].
Qed.
Lemma one_less_fits masks s s' : one_less masks s s' -> fits32 s -> fits32 s'.
Proof. intros H. unfold fits32. now rewrite (proj2 (one_less_ascii _ _ _ H)). Qed.
Lemma parse_one_less p masks s s' : wrapping p -> fits32 s -> one_less masks s s' -> ingenico_parse p masks s = ingenico_parse p masks s'.
Proof.
  intros W F H. destruct (one_less_ascii masks s s' H) as [A L]. unfold ingenico_parse.
  assert (E : is_ascii s = is_ascii s').
  { destruct (is_ascii s) eqn:X, (is_ascii s') eqn:Y; try reflexivity; [apply is_ascii_iff, A, is_ascii_iff in X|apply is_ascii_iff, A, is_ascii_iff in Y]; congruence. }
  rewrite <- E. destruct (is_ascii s) eqn:X; cbn [negb]; [|reflexivity]. apply is_ascii_iff in X.
  assert (Ln : List.length s = List.length s') by (unfold len in L; lia). rewrite Ln.
  apply (loop_same p masks W (S (List.length s')) [] [] s s' [] eq_refl X); [now apply A|assumption|now apply (one_less_fits masks s s')|now right].
Qed.

(** ** Texts without such a length *)

Lemma one_less_field masks f e sep rest s' : fits32 (f ++ sep :: rest) -> ing_field masks f e -> one_less masks (f ++ sep :: rest) s' -> exists rest', s' = f ++ sep :: rest' /\ one_less masks rest rest'.
Proof.
  intros F Hf H. assert (I : inext masks (f ++ sep :: rest) = Ok (e, sep :: rest)) by (apply inext_iff; exists f; auto).
  destruct (one_less_high masks _ _ H) as [K|(f' & e' & sep' & r & r' & Es & -> & Hf' & Hr)]; [rewrite (field_low masks _ _ F I) in K; discriminate|].
  assert (I' : inext masks (f' ++ sep' :: r) = Ok (e', sep' :: r)) by (apply inext_iff; exists f'; auto).
  rewrite Es in I. rewrite I in I'. injection I' as <- <- <-. apply app_inv_tail in Es. subst f'. exists r'. auto.
Qed.
Lemma settle masks : forall k s, (List.length s < k)%nat -> fits32 s -> exists s', taken_as masks s s'.
Proof.
  induction k as [|k IH]; intros s Hk F; [lia|].
  assert (Low : forall s, (List.length s < S k)%nat -> fits32 s -> high s = false -> exists s', taken_as masks s s').
  { clear s Hk F. intros s Hk F H. destruct (inext masks s) as [[e [|sep rest]]| | |] eqn:E.
    2:{ apply inext_iff in E. destruct E as (f & -> & Hf). pose proof (ing_field_ne masks f e Hf) as Ne.
      assert (Fr : fits32 rest) by (unfold fits32 in *; rewrite len_app, len_cons in F; lia).
      destruct (IH rest) as (rest' & St & Nm); [rewrite app_length in Hk; cbn [List.length] in Hk; lia|assumption|].
      exists (f ++ sep :: rest'). split.
      - clear - St Hf. induction St as [|a b c O St IHs]; [apply rt1n_refl|]. apply Relation_Operators.rt1n_trans with (f ++ sep :: b); [now apply one_less_after with e|assumption].
      - intros (s'' & O). assert (Fs : fits32 (f ++ sep :: rest')).
        { assert (Lr : len rest = len rest') by (clear - St; induction St as [|a b c O St IHs]; [reflexivity|rewrite (proj2 (one_less_ascii _ _ _ O)); assumption]).
          unfold fits32 in *. rewrite len_app, len_cons in *. lia. }
        destruct (one_less_field masks f e sep rest' s'' Fs Hf O) as (r' & _ & O'). apply Nm. now exists r'. }
    all: exists s; split; [apply rt1n_refl|]; intros (s'' & O); destruct (one_less_high masks _ _ O) as [K|(f & e' & sep' & r & r' & Es & _ & Hf & Hr)]; [congruence|];
      assert (I' : inext masks s = Ok (e', sep' :: r)) by (rewrite Es; apply inext_iff; exists f; auto); congruence. }
  destruct (high s) eqn:H; [|now apply Low].
  destruct (high_here s H) as (ty & td & t & d & d' & ld & rest & -> & T & Hh & L & E).
  pose proof (one_less_here masks ty td t d d' ld rest T Hh L E) as O. destruct (one_less_ascii masks _ _ O) as [_ Le].
  destruct (Low (ty :: td ++ colon :: (d' :: ld) ++ colon :: letter_h :: rest)) as (s' & St & Nm); [| |apply (here_high ty td t d d' ld rest T Hh L E)|].
  - unfold len in Le. apply Nnat.Nat2N.inj in Le. rewrite <- Le. assumption.
  - now apply (one_less_fits masks _ _ O).
  - exists s'. split; [|assumption]. eapply Relation_Operators.rt1n_trans; eassumption.
Qed.
Lemma ber_same_width p q masks v : build p -> usize_bits p = usize_bits q -> bytes_ok v -> fits32 v -> ber_parse p masks v = ber_parse q masks v.
Proof.
  intros B E O F. assert (Bq : build q) by (unfold build in *; lia). assert (L : usize_limit p = usize_limit q) by (unfold usize_limit; now rewrite E).
  pose proof (ber_parse_crash p masks v B O F) as C. pose proof (ber_parse_crash q masks v Bq O F) as C'. rewrite L in C.
  destruct (ber_parse_same p masks v B O F) as [X|X]; [rewrite X; symmetry; apply C', C, X|].
  destruct (ber_parse_same q masks v Bq O F) as [Y|Y]; [rewrite Y; apply C, C', Y|congruence].
Qed.
Lemma loop_checked p q masks : wrapping p -> usize_bits q = 32 -> overflow_checks q = true -> forall fuel pre suf nodes, ascii_text (pre ++ suf) -> fits32 (pre ++ suf) ->
  (~ exists s', one_less masks suf s') -> ingenico_loop fuel p masks (pre ++ suf) (len pre) nodes = ingenico_loop fuel q masks (pre ++ suf) (len pre) nodes.
Proof.
  intros W Wq Cq. assert (B : build p) by now apply wrapping_build. assert (Bq : build q) by (unfold build; lia).
  assert (Ew : usize_bits p = usize_bits q) by (rewrite Wq; apply W). assert (L : usize_limit p = usize_limit q) by (unfold usize_limit; now rewrite Ew).
  induction fuel as [|f IH]; intros pre suf nodes A F Nm; [reflexivity|]. destruct suf as [|b suf]; [rewrite !ingenico_loop_end by (rewrite app_nil_r; lia); reflexivity|].
  assert (H : high (b :: suf) = false).
  { destruct (high (b :: suf)) eqn:H; [|reflexivity]. exfalso. apply Nm. destruct (high_here _ H) as (ty & td & t & d & d' & ld & rest & -> & T & Hh & Ll & E).
    eexists. eapply one_less_here; eassumption. }
  destruct (low_first masks _ H) as [E1 E2]. rewrite ingenico_loop_stepw by (try assumption; discriminate). rewrite (ingenico_loop_step32 f q) by (try assumption; first [discriminate|now left]).
  rewrite E1, E2, L. destruct (over_field (usize_limit q) (len pre) (b :: suf)); [reflexivity|].
  destruct (inext masks (b :: suf)) as [[e rest]| | |] eqn:En; try reflexivity. cbv zeta.
  destruct (proj1 (inext_iff masks _ e rest) En) as (fd & Es & Hf). pose proof (ing_field_ne masks fd e Hf) as Nf.
  assert (As : ascii_text (b :: suf)) by (now apply ascii_app in A).
  assert (Ch : ing_child (ber_parse p masks) e = ing_child (ber_parse q masks) e).
  { apply ing_child_ext. intros v Dv. destruct (inext_bytes masks _ _ _ v As En Dv) as [Ov Lv].
    apply ber_same_width; try assumption. unfold fits32 in *. rewrite len_app in F. lia. }
  rewrite Es in *.
  assert (D : forall nodes', ingenico_loop f p masks (pre ++ fd ++ rest) (len pre + (len (fd ++ rest) - len rest) + 1) nodes'
    = ingenico_loop f q masks (pre ++ fd ++ rest) (len pre + (len (fd ++ rest) - len rest) + 1) nodes').
  { intros nodes'. rewrite (len_app fd rest). replace (len pre + (len fd + len rest - len rest) + 1) with (len pre + len fd + 1) by lia.
    destruct rest as [|sep rest]; [destruct f as [|f]; [reflexivity|rewrite !ingenico_loop_end by (rewrite !len_app, len_nil; lia); reflexivity]|].
    replace (pre ++ fd ++ sep :: rest) with ((pre ++ fd ++ [sep]) ++ rest) in * by (rewrite <- !app_assoc; reflexivity).
    replace (len pre + len fd + 1) with (len (pre ++ fd ++ [sep])) by (rewrite !len_app; change (len [sep]) with 1; lia).
    apply IH; try assumption. intros (r' & O). apply Nm. exists (fd ++ sep :: r'). now apply one_less_after with e. }
  destruct (ie_type e =? letter_T); [|apply D]. rewrite Ch. destruct (ing_child (ber_parse q masks) e); cbn [bind]; [apply D|reflexivity..].
Qed.
