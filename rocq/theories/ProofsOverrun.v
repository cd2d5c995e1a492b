(** Lemmas about announced lengths that a build cannot count. *)

From Coq Require Import NArith String List Bool PeanoNat Lia ZifyN ZifyBool ZifyNat.
From Verif Require Import Base ModelUtil ModelEnums ModelBitflag ModelTlv ModelValues ModelProcess ModelDisplay SpecUtil SpecTlv SpecIngenico ProofsUtil ProofsGrammar ProofsBer ProofsIngenico
  ModelMain SpecMain SpecBuilds ProofsBuilds SpecOverrun.
Import ListNotations.
Local Open Scope N_scope.

Lemma roomy_r64 {A} (l : list A) : fits32 l -> roomy release64 (len l).
Proof. intros F. unfold roomy. rewrite limit_r64. unfold fits32 in F. change (2 ^ 31) with 2147483648 in F. change (2 ^ 33) with 8589934592. change (2 ^ 64) with 18446744073709551616. lia. Qed.

(** ** BER-TLV *)

(* Whether the first object's value ends beyond the limit. *)
Definition over_next (limit off : N) (bytes : list N) : bool :=
  match split_tag bytes with
  | None => false
  | Some (t, r) => match split_length r with
                   | Ok (n, r') => limit <=? off + (len bytes - len r') + n
                   | _ => false
                   end
  end.
Lemma over_next_iff limit off bytes : over_next limit off bytes = true <->
  exists t l n rest, bytes = t ++ l ++ rest /\ ber_tag t /\ ber_len l n /\ (long_form l -> rest <> []) /\ limit <= off + len t + len l + n.
Proof.
  unfold over_next. split.
  - destruct (split_tag bytes) as [[t r]|] eqn:E; [|discriminate]. apply split_tag_iff in E. destruct E as [-> Ht].
    destruct (split_length r) as [[n r']| | |] eqn:L; try discriminate. apply split_length_iff in L. destruct L as (l & -> & Hl & Hr).
    intros H. apply N.leb_le in H. exists t, l, n, r'. rewrite !len_app in H. repeat split; try assumption. lia.
  - intros (t & l & n & rest & -> & Ht & Hl & Hr & H). rewrite (proj2 (split_tag_iff (t ++ l ++ rest) t (l ++ rest))) by auto.
    rewrite (proj2 (split_length_iff (l ++ rest) n rest)) by eauto. apply N.leb_le. rewrite !len_app. lia.
Qed.

Lemma ber_loop_step32 f p masks pre suf nodes : build p -> suf <> [] -> bytes_ok (pre ++ suf) -> fits32 (pre ++ suf) ->
  ber_loop (S f) p masks (pre ++ suf) (len pre) nodes
  = if over_next (usize_limit p) (len pre) suf then Panic
    else match next suf with
    | Ok (t, v, rest) =>
        n <- ber_node masks (fun d => ber_loop f p masks d 0 []) t v;;
        ber_loop f p masks (pre ++ suf) (len pre + (len suf - len rest)) (nodes ++ [n])
    | Err e => Err e | Panic => Panic | NoFuel => NoFuel
    end.
Proof.
  intros B Hne Ho F. assert (F' : len (pre ++ suf) < 2147483648) by exact F. pose proof (roomy_r64 _ F) as Hr. cbn [ber_loop].
  assert (Lm : 4294967296 <= usize_limit p) by exact (limit32 p B).
  assert (Hi : len pre < len (pre ++ suf)) by (rewrite len_app; destruct suf; [congruence|rewrite len_cons; lia]).
  rewrite (proj2 (N.ltb_lt _ _) Hi). pose proof Ho as Hb. apply bytes_ok_app in Hb. destruct Hb as [_ Hb].
  destruct suf as [|b suf]; [congruence|]. clear Hne.
  rewrite index_app_len. cbn [bind].
  assert (Hb0 : b < 256) by (apply bytes_ok_cons in Hb; tauto).
  rewrite tag_metadata_spec by assumption. cbn [bind fst snd].
  rewrite (proj1 (tag_loop32 p _ B F (List.length (pre ++ b :: suf)) (N.land 0x1F b =? 0x1F) (len pre) Hi)).
  rewrite ber_tag_spec by (try assumption; rewrite app_length; cbn [List.length]; lia).
  unfold next, over_next. destruct (split_tag (b :: suf)) as [[t r]|] eqn:Et; [|reflexivity]. cbn [bind].
  apply split_tag_app in Et. destruct Et as (Et & Hnt & Hfb). cbn [first_byte] in Hfb.
  assert (Hlt : 1 <= len t) by (destruct t; [congruence|rewrite len_cons; lia]).
  rewrite Et in *. clear Et suf. pose proof F' as F2. rewrite !len_app in F2.
  rewrite (uadd32 p) by (try assumption; change (2 ^ 32) with 4294967296; lia). cbn [bind].
  replace (len pre + len t - 1 + 1) with (len (pre ++ t)) by (rewrite len_app; lia).
  rewrite (app_assoc pre t r) in *.
  destruct r as [|l0 r0].
  { rewrite app_nil_r. cbn [split_length]. rewrite (proj2 (N.leb_le _ _)) by lia. reflexivity. }
  assert (Hl : len (pre ++ t) < len ((pre ++ t) ++ l0 :: r0)) by (rewrite (len_app _ (l0 :: r0)), (len_cons l0); lia).
  rewrite (proj2 (N.leb_gt _ _) Hl).
  set (r := l0 :: r0) in *.
  apply bytes_ok_app in Hb. destruct Hb as [Hbt Hbr].
  rewrite (proj1 (ber_length32 p _ _ B Ho F Hl)).
  rewrite ber_length_spec; [|assumption|subst r; discriminate|assumption].
  destruct (split_length r) as [[n r']| | |] eqn:El; try reflexivity. cbn [bind].
  apply split_length_app in El; [|assumption]. destruct El as (lf & El & Hlf & Hn). change (2 ^ 32) with 4294967296 in Hn.
  rewrite El in *. clear El l0 r0 r Hl. rewrite (len_app lf) in F2. rewrite (len_app lf r').
  replace (len (pre ++ t) + (len lf + len r' - len r')) with (len ((pre ++ t) ++ lf)) by (rewrite (len_app _ lf); lia).
  replace (len pre + (len (t ++ lf ++ r') - len r') + n) with (len ((pre ++ t) ++ lf) + n) by (rewrite !len_app; lia).
  rewrite (app_assoc (pre ++ t) lf r') in *. rewrite (uadd32 p (len _) 1) by (try assumption; change (2 ^ 32) with 4294967296; lia).
  assert (Hd : len ((pre ++ t) ++ lf) < 2147483648) by (rewrite (len_app _ r') in F'; lia).
  destruct (N.leb_spec (usize_limit p) (len ((pre ++ t) ++ lf) + n)) as [Over|Fit].
  { destruct (uadd_wraps p (len ((pre ++ t) ++ lf)) n B) as [U|(c & U & Hc)]; try lia; rewrite U; [reflexivity|]. cbn [bind].
    assert (Lc : len (((pre ++ t) ++ lf) ++ r') = len ((pre ++ t) ++ lf) + len r') by apply len_app.
    destruct (N.leb_spec (len (((pre ++ t) ++ lf) ++ r') + 1) c); [lia|]. now rewrite slice_backwards. }
  rewrite (uadd_ok p (len ((pre ++ t) ++ lf)) n Fit). cbn [bind].
  replace (len (((pre ++ t) ++ lf) ++ r') + 1 <=? len ((pre ++ t) ++ lf) + n) with (len r' <? n)
    by (rewrite (len_app _ r'); destruct (N.ltb_spec (len r') n), (N.leb_spec (len ((pre ++ t) ++ lf) + len r' + 1) (len ((pre ++ t) ++ lf) + n)); lia).
  destruct (take_value n r') as [[v rest]| | |] eqn:Ev; unfold take_value in Ev.
  2:{ destruct (len r' <? n); congruence. }
  2:{ destruct (len r' <? n); congruence. }
  2:{ destruct (len r' <? n); congruence. }
  destruct (len r' <? n) eqn:Hc; [discriminate|].
  assert (Ev' : take_value n r' = Ok (v, rest)) by (unfold take_value; now rewrite Hc).
  apply take_value_app in Ev'. destruct Ev' as [Ev' Hv]. rewrite Ev' in *. clear Ev Hc Ev' r'.
  subst n. rewrite slice_app. cbn [bind]. unfold ber_node. rewrite Hfb.
  destruct (get_child_block _ (type_of b) _); try reflexivity. cbn [bind].
  unfold slice_incl.
  replace (((pre ++ t) ++ lf) ++ v ++ rest) with (pre ++ t ++ (lf ++ v ++ rest)) by (rewrite <- !app_assoc; reflexivity).
  replace (len pre + len t - 1 + 1) with (len pre + len t) by lia.
  rewrite slice_app. cbn [bind].
  f_equal. rewrite !len_app. lia.
Qed.

Lemma overruns_nil limit masks off : ~ overruns limit masks off [].
Proof.
  intros H. inversion H as [? t l n rest Ht Hl _ _ E|? ? t v rest O|? ? t v rest O]; subst.
  - apply ber_tag_ne in Ht. destruct t; [congruence|discriminate].
  - now apply ber_object_ne in O.
  - now apply ber_object_ne in O.
Qed.
Lemma overruns_cases limit masks off bytes : overruns limit masks off bytes <->
  over_next limit off bytes = true
  \/ exists t v rest, next bytes = Ok (t, v, rest) /\ ((type_of (first_byte t) = Constructed /\ ~ masked masks v /\ overruns limit masks 0 v) \/ overruns limit masks (off + (len bytes - len rest)) rest).
Proof.
  split.
  - destruct 1 as [off t l n rest Ht Hl Hr H|off bytes t v rest O C M H|off bytes t v rest O H].
    + left. apply over_next_iff. exists t, l, n, rest. auto.
    + right. exists t, v, rest. split; [now apply next_iff|]. now left.
    + right. exists t, v, rest. split; [now apply next_iff|]. now right.
  - intros [H|(t & v & rest & E & [(C & M & H)|H])].
    + apply over_next_iff in H. destruct H as (t & l & n & rest & -> & Ht & Hl & Hr & H). eapply overruns_here; eassumption.
    + apply next_iff in E. eapply overruns_inside; eassumption.
    + apply next_iff in E. eapply overruns_after; eassumption.
Qed.
Lemma ber_loop_crash p masks : build p -> forall fuel pre suf nodes, bytes_ok (pre ++ suf) -> fits32 (pre ++ suf) -> (List.length suf < fuel)%nat ->
  (ber_loop fuel p masks (pre ++ suf) (len pre) nodes = Panic <-> overruns (usize_limit p) masks (len pre) suf)
  /\ ber_loop fuel p masks (pre ++ suf) (len pre) nodes <> NoFuel.
Proof.
  intros B. induction fuel as [|f IH]; intros pre suf nodes O F L; [lia|]. destruct suf as [|b suf].
  { cbn [ber_loop]. rewrite app_nil_r, N.ltb_irrefl. split; [split; [discriminate|]|discriminate]. intros H. now apply overruns_nil in H. }
  rewrite ber_loop_step32 by (try assumption; discriminate). rewrite overruns_cases.
  destruct (over_next (usize_limit p) (len pre) (b :: suf)); [split; [tauto|discriminate]|].
  destruct (next (b :: suf)) as [[[t v] rest]|e| |] eqn:En.
  2:{ split; [|discriminate]. split; [discriminate|]. intros [H|(t & v & rest & E & _)]; discriminate. }
  2:{ exfalso. destruct (next_total (b :: suf)) as [[x X]|[x X]]; congruence. }
  2:{ exfalso. destruct (next_total (b :: suf)) as [[x X]|[x X]]; congruence. }
  pose proof O as Hb. apply bytes_ok_app in Hb. destruct Hb as [Hbp Hb].
  destruct (next_app _ _ _ _ Hb En) as (l & E & Ht & Hl). rewrite E in *. clear E b suf.
  apply bytes_ok_app in Hb. destruct Hb as [Hbt Hb]. apply bytes_ok_app in Hb. destruct Hb as [Hbl Hb]. apply bytes_ok_app in Hb. destruct Hb as [Hbv Hb].
  assert (Lr : (List.length v < f /\ List.length rest < f)%nat).
  { rewrite !app_length in L. destruct t; [congruence|]. destruct l; [congruence|]. cbn [List.length] in L. lia. }
  assert (Fv : fits32 v) by (unfold fits32 in *; rewrite !len_app in F; lia).
  destruct (IH [] v [] Hbv Fv (proj1 Lr)) as [Iv Nv]. cbn [app] in Iv, Nv. change (len (@nil N)) with 0 in Iv, Nv.
  replace (pre ++ t ++ l ++ v ++ rest) with ((pre ++ t ++ l ++ v) ++ rest) in * by (rewrite <- !app_assoc; reflexivity).
  replace (len pre + (len (t ++ l ++ v ++ rest) - len rest)) with (len (pre ++ t ++ l ++ v)) by (rewrite !len_app; lia).
  assert (D : forall nodes', (ber_loop f p masks ((pre ++ t ++ l ++ v) ++ rest) (len (pre ++ t ++ l ++ v)) nodes' = Panic <-> overruns (usize_limit p) masks (len (pre ++ t ++ l ++ v)) rest)
    /\ ber_loop f p masks ((pre ++ t ++ l ++ v) ++ rest) (len (pre ++ t ++ l ++ v)) nodes' <> NoFuel) by (intros nodes'; now apply IH).
  assert (X : forall Q : Prop, (false = true \/ (exists t0 v0 rest0, Ok (t, v, rest) = Ok (t0, v0, rest0) /\ ((type_of (first_byte t0) = Constructed /\ ~ masked masks v0 /\ overruns (usize_limit p) masks 0 v0)
     \/ overruns (usize_limit p) masks (len pre + (len (t ++ l ++ v ++ rest) - len rest0)) rest0)) <-> Q)
     <-> ((type_of (first_byte t) = Constructed /\ ~ masked masks v /\ overruns (usize_limit p) masks 0 v) \/ overruns (usize_limit p) masks (len (pre ++ t ++ l ++ v)) rest <-> Q)).
  { intros Q. assert (Y : len pre + (len (t ++ l ++ v ++ rest) - len rest) = len (pre ++ t ++ l ++ v)) by (rewrite !len_app; lia).
    split; intros H; rewrite <- H; split.
    - intros K. right. exists t, v, rest. split; [reflexivity|]. now rewrite Y.
    - intros [K|(t0 & v0 & r0 & K & M)]; [discriminate|]. injection K as <- <- <-. now rewrite Y in M.
    - intros [K|(t0 & v0 & r0 & K & M)]; [discriminate|]. injection K as <- <- <-. now rewrite Y in M.
    - intros K. right. exists t, v, rest. split; [reflexivity|]. now rewrite Y. }
  assert (Y : forall P Q : Prop, (Q <-> P) -> (P <-> Q)) by tauto.
  assert (Ib : match ber_node masks (fun d => ber_loop f p masks d 0 []) t v with
               | Panic => type_of (first_byte t) = Constructed /\ ~ masked masks v /\ overruns (usize_limit p) masks 0 v
               | Ok _ => ~ (type_of (first_byte t) = Constructed /\ ~ masked masks v /\ overruns (usize_limit p) masks 0 v)
               | _ => False end).
  { unfold ber_node, get_child_block, from_u8_check_for_masked. destruct (is_masked_u8 v masks) eqn:Mv.
    - apply is_masked_u8_spec in Mv. destruct (type_of (first_byte t)); cbn [bind]; tauto.
    - assert (Mv' : ~ masked masks v) by (intros M; apply is_masked_u8_spec in M; congruence).
      destruct (type_of (first_byte t)) eqn:Ty; cbn [bind]; [intros (K & _); discriminate|].
      destruct (ber_loop f p masks v 0 []) as [c|e| |]; cbn [bind]; [intros (_ & _ & K); apply Iv in K; discriminate|intros (_ & _ & K); apply Iv in K; discriminate| |congruence].
      repeat split; [assumption|now apply Iv]. }
  destruct (ber_node masks (fun d => ber_loop f p masks d 0 []) t v) as [n|e| |]; cbn [bind]; [|contradiction| |contradiction].
  - destruct (D (nodes ++ [n])) as [D1 D2]. split; [|assumption]. apply Y, X. rewrite D1. tauto.
  - split; [|discriminate]. apply Y, X. tauto.
Qed.
Lemma ber_parse_crash p masks bytes : build p -> bytes_ok bytes -> fits32 bytes ->
  (ber_parse p masks bytes = Panic <-> overruns (usize_limit p) masks 0 bytes).
Proof. intros B O F. exact (proj1 (ber_loop_crash p masks B (S (List.length bytes)) [] bytes [] O F (Nat.lt_succ_diag_r _))). Qed.

(** ** Ingenico text *)

Definition over_field (limit off : N) (s : list N) : bool :=
  match s with
  | [] => false
  | ty :: r0 =>
      match split_colon r0 with
      | None => false
      | Some (td, r1) =>
          if negb (all_hex td) then false
          else match trim_leading_0_bytes (bytes_of_digits td) with
               | [] => false
               | _ :: _ =>
                   match split_colon r1 with
                   | None => false
                   | Some (ld, r2) =>
                       if negb (all_hex ld) then false
                       else if 4 <? len (bytes_of_digits ld) then false
                       else match r2 with
                            | [] => false
                            | fmt :: r3 =>
                                if fmt =? letter_a then limit <=? off + (len s - len r3) + be_value (bytes_of_digits ld)
                                else if fmt =? letter_h then limit <=? off + (len s - len r3) + 2 * be_value (bytes_of_digits ld)
                                else false
                            end
                   end
               end
      end
  end.
Lemma over_field_iff limit off s : over_field limit off s = true <->
  exists ty td t ld n fmt k rest, s = ty :: td ++ colon :: ld ++ colon :: fmt :: rest /\ tag_digits td t /\ length_digits ld n
    /\ (fmt = letter_a /\ k = n \/ fmt = letter_h /\ k = 2 * n) /\ limit <= off + len (ty :: td ++ colon :: ld ++ [colon; fmt]) + k.
Proof.
  assert (LL : forall (ty : N) td ld fmt (rest : list N), len (ty :: td ++ colon :: ld ++ colon :: fmt :: rest) = len (ty :: td ++ colon :: ld ++ [colon; fmt]) + len rest).
  { intros. rewrite !len_cons, !len_app, !len_cons, !len_app, !len_cons, len_nil. lia. }
  split.
  - unfold over_field. destruct s as [|ty r0]; [discriminate|]. destruct (split_colon r0) as [[td r1]|] eqn:E1; [|discriminate].
    destruct (all_hex td) eqn:Htd; [|discriminate]. cbn [negb]. destruct (trim_leading_0_bytes (bytes_of_digits td)) as [|t0 t] eqn:Et; [discriminate|].
    destruct (split_colon r1) as [[ld r2]|] eqn:E2; [|discriminate]. destruct (all_hex ld) eqn:Hld; [|discriminate]. cbn [negb].
    destruct (N.ltb_spec 4 (len (bytes_of_digits ld))) as [H4|H4]; [discriminate|]. destruct r2 as [|fmt r3]; [discriminate|]. cbv beta.
    apply split_colon_app in E1, E2. subst r0 r1. intros H.
    exists ty, td, (t0 :: t), ld, (be_value (bytes_of_digits ld)), fmt, (if fmt =? letter_a then be_value (bytes_of_digits ld) else 2 * be_value (bytes_of_digits ld)), r3.
    split; [reflexivity|]. split; [apply tag_digits_iff; [assumption|]; split; [now symmetry|discriminate]|].
    split; [split; [now apply all_hex_iff|split; [now apply len_digits_9|reflexivity]]|]. rewrite LL in H.
    destruct (N.eqb_spec fmt letter_a) as [->|_]; [split; [now left|apply N.leb_le in H; lia]|].
    destruct (N.eqb_spec fmt letter_h) as [->|_]; [split; [now right|apply N.leb_le in H; lia]|discriminate].
  - intros (ty & td & t & ld & n & fmt & k & rest & -> & T & (L1 & L2 & L3) & Fm & H). pose proof (LL ty td ld fmt rest) as Hl.
    unfold over_field. pose proof T as T'. destruct T' as [Htd _].
    rewrite split_colon_no by (now apply hex_no_colon).
    assert (Hh : all_hex td = true) by (now apply all_hex_iff). rewrite Hh. cbn [negb].
    apply tag_digits_iff in T; [|assumption]. destruct T as [-> Hne]. destruct t as [|t0 t1]; [congruence|].
    rewrite split_colon_no by (now apply hex_no_colon).
    assert (Hd : all_hex ld = true) by (now apply all_hex_iff). rewrite Hd. cbn [negb].
    rewrite (proj2 (N.ltb_ge _ _)) by (now apply len_digits_9). rewrite Hl. rewrite L3 in Fm.
    destruct Fm as [[-> ->]|[-> ->]]; cbn [N.eqb Pos.eqb letter_a letter_h]; apply N.leb_le; lia.
Qed.

Lemma ingenico_data_step32 p masks n pre fmt r : build p -> doubling_safe p -> n < 2 ^ 32 -> ascii_text (pre ++ fmt :: r) -> fits32 (pre ++ fmt :: r) ->
  ingenico_data p masks (pre ++ fmt :: r) n (len pre)
  = if (if fmt =? letter_a then usize_limit p <=? len pre + 1 + n else if fmt =? letter_h then usize_limit p <=? len pre + 1 + 2 * n else false) then Panic
    else match inext_data masks n fmt r with
    | Ok (d, rest) => Ok (d, len pre + 1 + (len r - len rest))
    | Err e => Err e | Panic => Panic | NoFuel => NoFuel
    end.
Proof.
  intros B Sf Hn Ha F. assert (F' : len (pre ++ fmt :: r) < 2147483648) by exact F. assert (Hn' : n < 4294967296) by exact Hn. assert (Lm : 4294967296 <= usize_limit p) by exact (limit32 p B).
  unfold ingenico_data, inext_data. rewrite index_app_len. cbn [bind].
  change data_format_ascii with letter_a. change data_format_hex with letter_h.
  pose proof F' as Hr. rewrite len_app, len_cons in Hr.
  assert (C1 : uadd p (len pre) 1 = Ok (len (pre ++ [fmt]))) by (rewrite len_app, len_cons, len_nil; apply (uadd32 p (len pre) 1 B); change (2 ^ 32) with 4294967296; lia).
  assert (C0 : len (pre ++ [fmt]) = len pre + 1) by (rewrite len_app, len_cons, len_nil; lia).
  assert (C : forall m, len pre + 1 + m < usize_limit p ->
    uadd p (len (pre ++ [fmt])) m = Ok (len (pre ++ [fmt]) + m)
    /\ (len (pre ++ fmt :: r) <? len (pre ++ [fmt]) + m) = (len r <? m)
    /\ (m <= len r -> str_slice (pre ++ fmt :: r) (len (pre ++ [fmt])) (len (pre ++ [fmt]) + m) = Ok (firstn (N.to_nat m) r)
        /\ ascii_text (firstn (N.to_nat m) r)
        /\ len (pre ++ [fmt]) + m = len pre + 1 + (len r - len (skipn (N.to_nat m) r)))).
  { intros m Hm. rewrite len_app, len_cons, len_nil.
    repeat split.
    - apply uadd_ok. lia.
    - rewrite len_app, len_cons. destruct (N.ltb_spec (len r) m), (N.ltb_spec (len pre + (1 + len r)) (len pre + (1 + 0) + m)); lia.
    - replace (pre ++ fmt :: r) with ((pre ++ [fmt]) ++ firstn (N.to_nat m) r ++ skipn (N.to_nat m) r)
        by (rewrite firstn_skipn, <- app_assoc; reflexivity).
      replace (len pre + (1 + 0)) with (len (pre ++ [fmt])) by (rewrite len_app; reflexivity).
      replace (len (pre ++ [fmt]) + m) with (len (pre ++ [fmt]) + len (firstn (N.to_nat m) r)) by (rewrite firstn_len by assumption; lia).
      apply str_slice_ascii. rewrite <- app_assoc. cbn [app].
      rewrite <- (firstn_skipn (N.to_nat m) r) in Ha.
      apply ascii_app in Ha. destruct Ha as [Ha1 Ha2]. apply ascii_cons in Ha2. destruct Ha2 as [Hf Ha2].
      apply ascii_app in Ha2. apply ascii_app. split; [assumption|]. apply ascii_cons. tauto.
    - rewrite <- (firstn_skipn (N.to_nat m) r) in Ha. apply ascii_app in Ha. destruct Ha as [_ Ha].
      apply ascii_cons in Ha. destruct Ha as [_ Ha]. now apply ascii_app in Ha.
    - unfold len in *. rewrite skipn_length. lia. }
  assert (W : forall m (k : N -> res (emv_data * N)), m < usize_limit p -> usize_limit p <= len pre + 1 + m ->
    (forall c, c < len (pre ++ [fmt]) -> k c = Panic) -> bind (uadd p (len (pre ++ [fmt])) m) k = Panic).
  { intros m k Hm Ho Hk. destruct (uadd_wraps p (len (pre ++ [fmt])) m B) as [U|(c & U & Hc)]; try lia; rewrite U; [reflexivity|]. cbn [bind]. now apply Hk. }
  destruct (fmt =? letter_a).
  - rewrite C1. cbn [bind]. destruct (N.leb_spec (usize_limit p) (len pre + 1 + n)) as [Over|Fit].
    + apply W; [lia|assumption|]. intros c Hc. assert (Lx : len (pre ++ fmt :: r) = len pre + (1 + len r)) by (rewrite len_app, len_cons; reflexivity).
      destruct (N.ltb_spec (len (pre ++ fmt :: r)) c); [lia|].
      destruct (uadd_wraps p (len (pre ++ [fmt])) n B) as [U|(c' & U & Hc')]; try lia; rewrite U; [reflexivity|]. cbn [bind]. now rewrite str_slice_backwards.
    + destruct (C n Fit) as (C2 & C3 & C4). rewrite C2. cbn [bind]. rewrite C3.
      destruct (N.ltb_spec (len r) n) as [H|H]; [reflexivity|].
      destruct (C4 H) as (C5 & C6 & C7). cbn [bind]. rewrite C5. cbn [bind].
      rewrite is_masked_str_ascii, utf8_ascii by assumption. cbn zeta. now rewrite <- C7.
  - destruct (fmt =? letter_h); [|reflexivity].
    assert (D : umul p n 2 = Panic /\ usize_limit p <= 2 * n \/ umul p n 2 = Ok (2 * n) /\ 2 * n < usize_limit p).
    { unfold umul, checked. replace (n * 2) with (2 * n) by lia. destruct (N.ltb_spec (2 * n) (usize_limit p)); [now right|]. destruct Sf as [->|Wd]; [now left|]. exfalso.
      assert (2 ^ 33 <= usize_limit p) by (unfold usize_limit; apply N.pow_le_mono_r; [lia|exact Wd]). change (2 ^ 33) with 8589934592 in *. lia. }
    destruct D as [[D Hm]|[D Hm]]; rewrite D; cbn [bind]; [rewrite (proj2 (N.leb_le _ _)) by lia; reflexivity|].
    rewrite C1. cbn [bind]. destruct (N.leb_spec (usize_limit p) (len pre + 1 + 2 * n)) as [Over|Fit].
    + apply W; [lia|assumption|]. intros c Hc. assert (Lx : len (pre ++ fmt :: r) = len pre + (1 + len r)) by (rewrite len_app, len_cons; reflexivity).
      destruct (N.ltb_spec (len (pre ++ fmt :: r)) c); [lia|].
      destruct (uadd_wraps p (len (pre ++ [fmt])) (2 * n) B) as [U|(c' & U & Hc')]; try lia; rewrite U; [reflexivity|]. cbn [bind]. now rewrite str_slice_backwards.
    + destruct (C (2 * n) Fit) as (C2 & C3 & C4). rewrite C2. cbn [bind]. rewrite C3.
      destruct (N.ltb_spec (len r) (2 * n)) as [H|H]; [reflexivity|].
      destruct (C4 H) as (C5 & C6 & C7). cbn [bind]. rewrite C5. cbn [bind].
      rewrite is_masked_str_ascii by assumption. cbn zeta.
      destruct (is_masked_u8 _ masks); [now rewrite <- C7|].
      rewrite strict_map_err. destruct (all_hex _); cbn [bind]; [now rewrite <- C7|reflexivity].
Qed.

Lemma ingenico_loop_step32 f p masks pre suf nodes : build p -> doubling_safe p ->
  suf <> [] -> ascii_text (pre ++ suf) -> fits32 (pre ++ suf) ->
  ingenico_loop (S f) p masks (pre ++ suf) (len pre) nodes
  = if over_field (usize_limit p) (len pre) suf then Panic
    else match inext masks suf with
    | Ok (e, rest) =>
        let i := len pre + (len suf - len rest) + 1 in
        if ie_type e =? letter_T
        then n <- ing_child (ber_parse p masks) e;;
             ingenico_loop f p masks (pre ++ suf) i (nodes ++ [n])
        else ingenico_loop f p masks (pre ++ suf) i nodes
    | Err e => Err e | Panic => Panic | NoFuel => NoFuel
    end.
Proof.
  intros B Sf Hne Ha F. assert (HR : len (pre ++ suf) < 2147483648) by exact F. pose proof (roomy_r64 _ F) as Hr. cbn [ingenico_loop].
  assert (Lm : 4294967296 <= usize_limit p) by exact (limit32 p B).
  rewrite (proj2 (N.ltb_lt _ _)) by (rewrite len_app; destruct suf; [congruence|rewrite len_cons; lia]).
  destruct suf as [|ty r0]; [congruence|]. clear Hne.
  rewrite index_app_len. cbn [bind].
  assert (HL : len (pre ++ ty :: r0) = len pre + 1 + len r0) by (rewrite len_app, len_cons; lia).
  rewrite uadd_ok by lia. cbn [bind]. rewrite HL.
  unfold inext, over_field.
  destruct r0 as [|x0 r0'] eqn:Er0.
  { rewrite len_nil. rewrite (proj2 (N.leb_le _ _)) by lia. reflexivity. }
  rewrite (proj2 (N.leb_gt _ _)) by (rewrite len_cons; lia). rewrite <- Er0 in *. clear Er0 x0 r0'.
  replace (len pre + 1) with (len (pre ++ [ty])) in * by (rewrite len_app; reflexivity).
  replace (pre ++ ty :: r0) with ((pre ++ [ty]) ++ r0) in * by (rewrite <- app_assoc; reflexivity).
  rewrite (proj1 (colon32 p _ _ B Ha F)), find_colon_spec by assumption.
  destruct (split_colon r0) as [[td r1]|] eqn:E1; [|reflexivity]. cbn [bind].
  apply split_colon_app in E1. subst r0.
  rewrite str_slice_ascii by (rewrite app_assoc in Ha; now apply ascii_app in Ha). cbn [bind].
  rewrite strict_map_err. destruct (all_hex td) eqn:Htd; [|reflexivity]. cbn [bind negb].
  rewrite (len_app td), (len_cons colon) in HL.
  rewrite uadd_ok by lia. cbn [bind].
  set (tag := trim_leading_0_bytes (bytes_of_digits td)) in *.
  destruct tag as [|t0 tag'] eqn:Etag.
  { rewrite (orb_true_r). reflexivity. }
  assert (T0 : t0 < 256).
  { assert (Bt : bytes_ok (bytes_of_digits td)) by (now apply bytes_of_digits_bytes, all_hex_forall).
    destruct (trim_leading_split (bytes_of_digits td)) as (k & E & _). fold tag in E. subst tag. rewrite Etag in E.
    rewrite E in Bt. apply bytes_ok_app in Bt. destruct Bt as [_ Bt]. now apply bytes_ok_cons in Bt. }
  assert (Hz : (len (t0 :: tag') =? 0) = false) by (rewrite len_cons; apply N.eqb_neq; lia).
  rewrite Hz, orb_false_r.
  replace (len (pre ++ [ty]) + len td + 1) with (len ((pre ++ [ty]) ++ td ++ [colon]))
    by (rewrite (len_app _ (td ++ [colon])), (len_app td); change (len [colon]) with 1; lia).
  replace ((pre ++ [ty]) ++ td ++ colon :: r1) with (((pre ++ [ty]) ++ td ++ [colon]) ++ r1) in *
    by (rewrite <- !app_assoc; reflexivity).
  set (pre1 := (pre ++ [ty]) ++ td ++ [colon]) in *.
  assert (HP1 : len pre1 = len (pre ++ [ty]) + len td + 1)
    by (unfold pre1; rewrite (len_app _ (td ++ [colon])), (len_app td); change (len [colon]) with 1; lia).
  assert (HL1 : len (pre1 ++ r1) = len pre1 + len r1) by apply len_app.
  replace (len (pre ++ [ty]) + len (td ++ colon :: r1)) with (len (pre1 ++ r1))
    by (rewrite HL1, HP1, (len_app td), len_cons; lia).
  destruct r1 as [|y1 r1'] eqn:Er1.
  { rewrite app_nil_r. rewrite (proj2 (N.leb_le _ _)) by lia. reflexivity. }
  rewrite (proj2 (N.leb_gt _ _)) by (rewrite HL1, len_cons; lia).
  rewrite <- Er1 in *. clear Er1 y1 r1'.
  change (index (t0 :: tag') 0) with (@Ok N t0). cbn [bind].
  rewrite tag_metadata_spec by assumption. cbn [bind fst snd].
  rewrite (proj1 (colon32 p _ _ B Ha F)), find_colon_spec by assumption.
  destruct (split_colon r1) as [[ld r2]|] eqn:E2; [|reflexivity]. cbn [bind].
  apply split_colon_app in E2. subst r1.
  rewrite str_slice_ascii by (rewrite app_assoc in Ha; now apply ascii_app in Ha). cbn [bind].
  rewrite strict_map_err. destruct (all_hex ld) eqn:Hld; [|reflexivity]. cbn [bind negb].
  destruct (N.ltb_spec 4 (len (bytes_of_digits ld))) as [H4|H4]; [reflexivity|].
  unfold byte_slice_to_u32. rewrite byte_slice_to_uint_ok by (unfold len in H4; lia). cbn [bind].
  assert (Hn : be_value (bytes_of_digits ld) < 2 ^ 32) by (apply be_digits_lt; [assumption|now apply all_hex_forall]).
  set (n := be_value (bytes_of_digits ld)) in *. cbn zeta. assert (Hn' : n < 4294967296) by exact Hn.
  rewrite N.mod_small by lia.
  rewrite (len_app ld), (len_cons colon) in HL1.
  rewrite uadd_ok by lia. cbn [bind].
  replace (len pre1 + len ld + 1) with (len (pre1 ++ ld ++ [colon]))
    by (rewrite (len_app _ (ld ++ [colon])), (len_app ld); change (len [colon]) with 1; lia).
  replace (pre1 ++ ld ++ colon :: r2) with ((pre1 ++ ld ++ [colon]) ++ r2) in *
    by (rewrite <- !app_assoc; reflexivity).
  set (pre2 := pre1 ++ ld ++ [colon]) in *.
  assert (HP2 : len pre2 = len pre1 + len ld + 1)
    by (unfold pre2; rewrite (len_app _ (ld ++ [colon])), (len_app ld); change (len [colon]) with 1; lia).
  destruct r2 as [|fmt r3].
  { rewrite app_nil_r. rewrite (proj2 (N.leb_le _ _)) by lia. reflexivity. }
  rewrite (proj2 (N.leb_gt _ _)) by (rewrite len_app, len_cons; lia).
  rewrite ingenico_data_step32 by assumption.
  replace (len pre + (len (ty :: td ++ colon :: ld ++ colon :: fmt :: r3) - len r3)) with (len pre2 + 1).
  2:{ rewrite HP2, HP1. rewrite (len_app pre [ty]). change (len [ty]) with 1. rewrite len_cons, (len_app td), len_cons, (len_app ld), len_cons, len_cons. lia. }
  destruct (if fmt =? letter_a then usize_limit p <=? len pre2 + 1 + n else if fmt =? letter_h then usize_limit p <=? len pre2 + 1 + 2 * n else false); [reflexivity|].
  destruct (inext_data masks n fmt r3) as [[d rest]| | |] eqn:Ed; try reflexivity. cbn [bind].
  apply inext_data_suffix in Ed. destruct Ed as [txt ->].
  rewrite len_app in HR. rewrite len_cons, len_app in HR. rewrite len_app.
  rewrite uadd_ok by lia. cbn [bind ie_type].
  replace (len pre2 + 1 + (len txt + len rest - len rest) + 1)
    with (len pre + (len (ty :: td ++ colon :: ld ++ colon :: fmt :: txt ++ rest) - len rest) + 1).
  2:{ rewrite HP2, HP1. rewrite (len_app pre [ty]). change (len [ty]) with 1.
      rewrite len_cons, (len_app td), len_cons, (len_app ld), len_cons, len_cons, (len_app txt). lia. }
  change tag_type_emv with letter_T.
  destruct (ty =? letter_T); cbn [negb]; [|reflexivity].
  unfold ing_child. cbn [ie_tag ie_data first_byte].
  destruct (get_child_block (ber_parse p masks) (type_of t0) d); reflexivity.
Qed.

Lemma text_overruns_cases limit masks off s : text_overruns limit masks off s <->
  over_field limit off s = true
  \/ exists e rest, inext masks s = Ok (e, rest)
     /\ ((ie_type e = letter_T /\ type_of (first_byte (ie_tag e)) = Constructed /\ exists v, ie_data e = Normal v /\ overruns limit masks 0 v)
         \/ exists sep rest', rest = sep :: rest' /\ text_overruns limit masks (off + (len s - len rest) + 1) rest').
Proof.
  split.
  - destruct 1 as [off ty td t ld n fmt k rest T L Fm H|off f t v rest Fd C H|off f e sep rest Fd H].
    + left. apply over_field_iff. exists ty, td, t, ld, n, fmt, k, rest. auto.
    + right. exists (mkEntry letter_T t (Normal v)), rest. split; [apply inext_iff; eauto|]. left. split; [reflexivity|]. split; [assumption|]. exists v. auto.
    + right. exists e, (sep :: rest). split; [apply inext_iff; eauto|]. right. exists sep, rest. split; [reflexivity|]. rewrite len_app.
      replace (off + (len f + len (sep :: rest) - len (sep :: rest)) + 1) with (off + len f + 1) by lia. assumption.
  - intros [H|(e & rest & E & [(Ty & C & v & D & H)|(sep & rest' & -> & H)])].
    + apply over_field_iff in H. destruct H as (ty & td & t & ld & n & fmt & k & rest & -> & T & L & Fm & H). eapply text_overruns_here; eassumption.
    + apply inext_iff in E. destruct E as (f & -> & Fd). destruct e as [ty t d]. cbn [ie_type ie_tag ie_data] in *. subst. eapply text_overruns_inside; eassumption.
    + apply inext_iff in E. destruct E as (f & -> & Fd). eapply text_overruns_after; [exact Fd|]. rewrite len_app in H.
      replace (off + (len f + len (sep :: rest') - len (sep :: rest')) + 1) with (off + len f + 1) in H by lia. exact H.
Qed.
Lemma text_overruns_nil limit masks off : ~ text_overruns limit masks off [].
Proof. intros H. apply text_overruns_cases in H. destruct H as [H|(e & rest & H & _)]; discriminate. Qed.
Lemma ber_parse_fuel p masks bytes : build p -> bytes_ok bytes -> fits32 bytes -> ber_parse p masks bytes <> NoFuel.
Proof. intros B O F. exact (proj2 (ber_loop_crash p masks B (S (List.length bytes)) [] bytes [] O F (Nat.lt_succ_diag_r _))). Qed.
Lemma ingenico_loop_crash p masks : build p -> doubling_safe p -> forall fuel pre suf nodes, ascii_text (pre ++ suf) -> fits32 (pre ++ suf) -> (List.length suf < fuel)%nat ->
  (ingenico_loop fuel p masks (pre ++ suf) (len pre) nodes = Panic <-> text_overruns (usize_limit p) masks (len pre) suf)
  /\ ingenico_loop fuel p masks (pre ++ suf) (len pre) nodes <> NoFuel.
Proof.
  intros B Sf. induction fuel as [|f IH]; intros pre suf nodes A F L; [lia|]. destruct suf as [|b suf].
  { rewrite app_nil_r, ingenico_loop_end by lia. split; [split; [discriminate|]|discriminate]. intros H. now apply text_overruns_nil in H. }
  rewrite ingenico_loop_step32 by (try assumption; discriminate). rewrite text_overruns_cases.
  destruct (over_field (usize_limit p) (len pre) (b :: suf)); [split; [tauto|discriminate]|].
  destruct (inext_total masks (b :: suf)) as [[[e rest] En]|[En|En]]; rewrite En.
  2:{ split; [|discriminate]. split; [discriminate|]. intros [H|(x & y & E & _)]; discriminate. }
  2:{ split; [|discriminate]. split; [discriminate|]. intros [H|(x & y & E & _)]; discriminate. }
  cbv zeta. assert (As : ascii_text (b :: suf)) by (now apply ascii_app in A).
  assert (Ib : match ing_child (ber_parse p masks) e with
               | Panic => type_of (first_byte (ie_tag e)) = Constructed /\ exists v, ie_data e = Normal v /\ overruns (usize_limit p) masks 0 v
               | Ok _ => ~ (type_of (first_byte (ie_tag e)) = Constructed /\ exists v, ie_data e = Normal v /\ overruns (usize_limit p) masks 0 v)
               | _ => False end).
  { unfold ing_child, get_child_block. destruct (type_of (first_byte (ie_tag e))); cbn [bind]; [intros (K & _); discriminate|].
    destruct (ie_data e) as [v|] eqn:Dv; cbn [bind]; [|intros (_ & v & K & _); discriminate].
    destruct (inext_bytes masks _ _ _ v As En Dv) as [Ov Lv]. assert (Fv : fits32 v) by (unfold fits32 in *; rewrite len_app in F; lia).
    pose proof (ber_parse_crash p masks v B Ov Fv) as C. pose proof (ber_parse_fuel p masks v B Ov Fv) as Nf.
    destruct (ber_parse p masks v) as [c|er| |]; cbn [bind]; [intros (_ & v' & K & K'); injection K as <-; apply C in K'; discriminate..|split; [reflexivity|exists v; split; [reflexivity|now apply C]]|congruence]. }
  destruct (inext_suffix _ _ _ _ En) as (fl & E & Hf).
  assert (D : forall nodes', (ingenico_loop f p masks (pre ++ b :: suf) (len pre + (len (b :: suf) - len rest) + 1) nodes' = Panic
      <-> exists sep rest', rest = sep :: rest' /\ text_overruns (usize_limit p) masks (len pre + (len (b :: suf) - len rest) + 1) rest')
    /\ ingenico_loop f p masks (pre ++ b :: suf) (len pre + (len (b :: suf) - len rest) + 1) nodes' <> NoFuel).
  { intros nodes'. rewrite E in *. rewrite (len_app fl rest). replace (len pre + (len fl + len rest - len rest) + 1) with (len pre + len fl + 1) by lia.
    destruct rest as [|sep rest].
    - destruct f as [|f]; [rewrite app_length in L; cbn in Hf, L; lia|]. rewrite ingenico_loop_end by (rewrite !len_app, len_nil; lia). split; [|discriminate]. split; [discriminate|].
      intros (sep & rest' & K & _). discriminate.
    - replace (pre ++ fl ++ sep :: rest) with ((pre ++ fl ++ [sep]) ++ rest) in * by (rewrite <- !app_assoc; reflexivity).
      replace (len pre + len fl + 1) with (len (pre ++ fl ++ [sep])) by (rewrite !len_app; change (len [sep]) with 1; lia).
      assert (Lr : (List.length rest < f)%nat) by (rewrite app_length in L; cbn [List.length] in L; lia).
      destruct (IH (pre ++ fl ++ [sep]) rest nodes' A F Lr) as [I1 I2]. split; [|assumption]. rewrite I1. split.
      + intros H. exists sep, rest. auto.
      + intros (sep' & rest' & K & H). injection K as <- <-. assumption. }
  assert (X : forall P Q : Prop, (P <-> (ie_type e = letter_T /\ type_of (first_byte (ie_tag e)) = Constructed /\ exists v, ie_data e = Normal v /\ overruns (usize_limit p) masks 0 v) \/ Q)
    -> (Q = exists sep rest', rest = sep :: rest' /\ text_overruns (usize_limit p) masks (len pre + (len (b :: suf) - len rest) + 1) rest')
    -> (P <-> false = true \/ exists e0 rest0, Ok (e, rest) = Ok (e0, rest0) /\ ((ie_type e0 = letter_T /\ type_of (first_byte (ie_tag e0)) = Constructed /\ exists v, ie_data e0 = Normal v /\ overruns (usize_limit p) masks 0 v)
         \/ exists sep rest', rest0 = sep :: rest' /\ text_overruns (usize_limit p) masks (len pre + (len (b :: suf) - len rest0) + 1) rest'))).
  { intros P Q H ->. rewrite H. clear. split.
    - intros K. right. exists e, rest. auto.
    - intros [K|(e0 & r0 & K & M)]; [discriminate|]. injection K as <- <-. exact M. }
  destruct (N.eqb_spec (ie_type e) letter_T) as [Ty|Ty].
  - destruct (ing_child (ber_parse p masks) e) as [n|er| |]; cbn [bind]; [|contradiction| |contradiction].
    + destruct (D (nodes ++ [n])) as [D1 D2]. split; [|assumption]. eapply X; [|reflexivity]. rewrite D1. tauto.
    + split; [|discriminate]. eapply X; [|reflexivity]. tauto.
  - destruct (D nodes) as [D1 D2]. split; [|assumption]. eapply X; [|reflexivity]. rewrite D1. tauto.
Qed.
Lemma ingenico_parse_crash p masks s : build p -> doubling_safe p -> fits32 s ->
  (ingenico_parse p masks s = Panic <-> ascii_text s /\ text_overruns (usize_limit p) masks 0 s).
Proof.
  intros B Sf F. unfold ingenico_parse. destruct (is_ascii s) eqn:A; cbn [negb].
  - apply is_ascii_iff in A. rewrite (proj1 (ingenico_loop_crash p masks B Sf (S (List.length s)) [] s [] A F (Nat.lt_succ_diag_r _))). tauto.
  - split; [discriminate|]. intros [K _]. apply is_ascii_iff in K. congruence.
Qed.
