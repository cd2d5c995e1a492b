(** Proofs about the Ingenico parser (src/emv/tlv_parsing/ingenico_tlv.rs). *)

From Coq Require Import ZArith NArith List String Ascii Bool Lia ZifyN ZifyBool ZifyNat.
From Verif Require Import Base ModelUtil ModelEnums ModelTlv SpecUtil SpecTlv SpecIngenico
  ProofsUtil ProofsBer ProofsGrammar.
Import ListNotations.
Local Open Scope N_scope.

(** ** ASCII strings *)

Lemma ascii_cons c s : ascii_text (c :: s) <-> c < 128 /\ ascii_text s.
Proof. unfold ascii_text. rewrite Forall_cons_iff. tauto. Qed.
Lemma ascii_app a b : ascii_text (a ++ b) <-> ascii_text a /\ ascii_text b.
Proof. apply Forall_app. Qed.
Lemma is_ascii_iff s : is_ascii s = true <-> ascii_text s.
Proof.
  rewrite is_ascii_spec, forallb_forall. unfold ascii_text. rewrite Forall_forall.
  split; intros H c Hc; now apply N.ltb_lt, H.
Qed.
Lemma utf8_ascii s : ascii_text s -> utf8 s = s.
Proof.
  induction 1 as [|c s Hc Hs IH]; [reflexivity|]. unfold utf8 in *. cbn [flat_map].
  rewrite utf8_char_ascii by assumption. cbn [app]. now rewrite IH.
Qed.
Lemma ascii_bytes s : ascii_text s -> bytes_ok s.
Proof. apply Forall_impl. unfold is_byte. intros; lia. Qed.

Lemma str_skip_ascii a b : ascii_text a -> str_skip (a ++ b) (len a) = Ok b.
Proof.
  induction 1 as [|c a Hc Ha IH]; [destruct b; reflexivity|].
  cbn [app str_skip]. rewrite len_cons. rewrite (proj2 (N.eqb_neq _ _)) by lia.
  rewrite utf8_char_ascii by assumption. change (len [c]) with 1.
  rewrite (proj2 (N.leb_le _ _)) by lia. replace (1 + len a - 1) with (len a) by lia. exact IH.
Qed.
Lemma str_take_ascii a b : ascii_text a -> str_take (a ++ b) (len a) = Ok a.
Proof.
  induction 1 as [|c a Hc Ha IH]; [destruct b; reflexivity|].
  cbn [app str_take]. rewrite len_cons. rewrite (proj2 (N.eqb_neq _ _)) by lia.
  rewrite utf8_char_ascii by assumption. change (len [c]) with 1.
  rewrite (proj2 (N.leb_le _ _)) by lia. replace (1 + len a - 1) with (len a) by lia. now rewrite IH.
Qed.
Lemma str_slice_ascii a b c : ascii_text (a ++ b) -> str_slice (a ++ b ++ c) (len a) (len a + len b) = Ok b.
Proof.
  intros H. unfold str_slice. rewrite (proj2 (N.leb_le _ _)) by lia.
  rewrite app_assoc, <- len_app, str_take_ascii by assumption. cbn [bind].
  apply str_skip_ascii. now apply ascii_app in H.
Qed.

(* The text before and after the first colon. *)
Fixpoint split_colon (s : list N) : option (list N * list N) :=
  match s with
  | [] => None
  | c :: r => if c =? colon then Some ([], r)
              else match split_colon r with Some (a, b) => Some (c :: a, b) | None => None end
  end.

Lemma split_colon_app s a b : split_colon s = Some (a, b) -> s = a ++ colon :: b.
Proof.
  revert a. induction s as [|c s IH]; intros a; cbn [split_colon]; [discriminate|].
  destruct (N.eqb_spec c colon) as [->|H].
  - intros E. inversion E; subst. reflexivity.
  - destruct (split_colon s) as [[a' b']|]; [|discriminate]. intros E. inversion E; subst.
    cbn. f_equal. now apply IH.
Qed.
Lemma split_colon_no a b : ~ In colon a -> split_colon (a ++ colon :: b) = Some (a, b).
Proof.
  induction a as [|c a IH]; intros H; cbn [app split_colon]; [reflexivity|].
  destruct (N.eqb_spec c colon) as [->|Hc]; [exfalso; apply H; now left|].
  rewrite IH; [reflexivity|]. intros Hi. apply H. now right.
Qed.
Lemma split_colon_more s a b c : split_colon s = Some (a, b) -> split_colon (s ++ c) = Some (a, b ++ c).
Proof.
  revert a. induction s as [|x s IH]; intros a; cbn [app split_colon]; [discriminate|].
  destruct (x =? colon).
  - intros E. inversion E; subst. reflexivity.
  - destruct (split_colon s) as [[a' b']|]; [|discriminate]. intros E. inversion E; subst.
    now rewrite (IH a' eq_refl).
Qed.

Lemma str_find_spec s : ascii_text s ->
  str_find s colon = match split_colon s with Some (a, _) => Some (len a) | None => None end.
Proof.
  induction 1 as [|c s Hc Hs IH]; [reflexivity|]. cbn [str_find split_colon].
  destruct (c =? colon); [reflexivity|]. rewrite IH, utf8_char_ascii by assumption.
  destruct (split_colon s) as [[a b]|]; [|reflexivity]. now rewrite (len_cons c a).
Qed.

Lemma find_colon_spec p pre suf : ascii_text (pre ++ suf) -> roomy p (len (pre ++ suf)) ->
  find_colon p (pre ++ suf) (len pre)
  = match split_colon suf with Some (a, _) => Ok (len pre + len a) | None => Err NonCompliant end.
Proof.
  intros Ha Hr. unfold find_colon, str_slice_from. apply ascii_app in Ha. destruct Ha as [Hp Hs].
  rewrite str_skip_ascii by assumption. cbn [bind].
  change tag_field_separator with colon. rewrite str_find_spec by assumption.
  destruct (split_colon suf) as [[a b]|] eqn:E; [|reflexivity].
  apply split_colon_app in E. subst suf. unfold roomy in Hr. rewrite !len_app in Hr. apply uadd_ok. lia.
Qed.

(** ** One field, on a suffix *)

Definition all_hex (s : list N) : bool := forallb is_hex_digitb s.

Definition inext_data (masks : list N) (n fmt : N) (r : list N) : res (emv_data * list N) :=
  if fmt =? letter_a
  then if len r <? n then Err NonCompliant
       else let txt := firstn (N.to_nat n) r in
            Ok (if is_masked_u8 txt masks then Masked else Normal txt, skipn (N.to_nat n) r)
  else if fmt =? letter_h
  then if len r <? 2 * n then Err NonCompliant
       else let txt := firstn (N.to_nat (2 * n)) r in
            if is_masked_u8 txt masks then Ok (Masked, skipn (N.to_nat (2 * n)) r)
            else if all_hex txt then Ok (Normal (bytes_of_digits txt), skipn (N.to_nat (2 * n)) r)
            else Err NonCompliant
  else Err NonCompliant.

Definition inext (masks : list N) (s : list N) : res (ing_entry * list N) :=
  match s with
  | [] => Err NonCompliant
  | ty :: r0 =>
      match split_colon r0 with
      | None => Err NonCompliant
      | Some (td, r1) =>
          if negb (all_hex td) then Err NonCompliant
          else let tag := trim_leading_0_bytes (bytes_of_digits td) in
               match tag with
               | [] => Err NonCompliant
               | _ :: _ =>
                   match split_colon r1 with
                   | None => Err NonCompliant
                   | Some (ld, r2) =>
                       if negb (all_hex ld) then Err NonCompliant
                       else if 4 <? len (bytes_of_digits ld) then Err Unsupported
                       else match r2 with
                            | [] => Err NonCompliant
                            | fmt :: r3 =>
                                match inext_data masks (be_value (bytes_of_digits ld)) fmt r3 with
                                | Ok (d, rest) => Ok (mkEntry ty tag d, rest)
                                | Err e => Err e | Panic => Panic | NoFuel => NoFuel
                                end
                            end
                   end
               end
      end
  end.

Definition ing_child (parse : list N -> res (list raw_node)) (e : ing_entry) : res raw_node :=
  c <- get_child_block parse (type_of (first_byte (ie_tag e))) (ie_data e);;
  Ok (RawNode (mkRawTag (ie_tag e) (class_of (first_byte (ie_tag e))) (type_of (first_byte (ie_tag e))) (ie_data e)) c).

Lemma strict_map_err s : map_err (parse_hex_str_strict s) NonCompliant
  = if all_hex s then Ok (bytes_of_digits s) else Err NonCompliant.
Proof. rewrite parse_hex_str_strict_spec. unfold all_hex. destruct (forallb is_hex_digitb s); reflexivity. Qed.

Lemma is_masked_str_ascii s masks : ascii_text s -> is_masked_str s masks = is_masked_u8 s masks.
Proof. intros H. unfold is_masked_str, is_masked_u8, str_len. now rewrite utf8_ascii. Qed.

Lemma ingenico_data_spec p masks n pre fmt r : n < 2 ^ 32 ->
  ascii_text (pre ++ fmt :: r) -> roomy p (len (pre ++ fmt :: r)) ->
  ingenico_data p masks (pre ++ fmt :: r) n (len pre)
  = match inext_data masks n fmt r with
    | Ok (d, rest) => Ok (d, len pre + 1 + (len r - len rest))
    | Err e => Err e | Panic => Panic | NoFuel => NoFuel
    end.
Proof.
  unfold roomy. intros Hn Ha Hr. unfold ingenico_data, inext_data. rewrite index_app_len. cbn [bind].
  change data_format_ascii with letter_a. change data_format_hex with letter_h.
  rewrite len_app, len_cons in Hr.
  assert (C : forall m, m <= 2 * n ->
    uadd p (len pre) 1 = Ok (len (pre ++ [fmt]))
    /\ uadd p (len (pre ++ [fmt])) m = Ok (len (pre ++ [fmt]) + m)
    /\ (len (pre ++ fmt :: r) <? len (pre ++ [fmt]) + m) = (len r <? m)
    /\ (m <= len r -> str_slice (pre ++ fmt :: r) (len (pre ++ [fmt])) (len (pre ++ [fmt]) + m) = Ok (firstn (N.to_nat m) r)
        /\ ascii_text (firstn (N.to_nat m) r)
        /\ len (pre ++ [fmt]) + m = len pre + 1 + (len r - len (skipn (N.to_nat m) r)))).
  { intros m Hm. rewrite len_app, len_cons, len_nil. change (2 ^ 33) with (2 ^ 32 * 2) in Hr.
    repeat split.
    - apply uadd_ok. lia.
    - apply uadd_ok. lia.
    - rewrite len_app, len_cons. destruct (N.ltb_spec (len r) m), (N.ltb_spec (len pre + (1 + len r)) (len pre + (1 + 0) + m)); lia.
    - replace (pre ++ fmt :: r) with ((pre ++ [fmt]) ++ firstn (N.to_nat m) r ++ skipn (N.to_nat m) r)
        by (rewrite firstn_skipn, <- app_assoc; reflexivity).
      replace (len pre + (1 + 0)) with (len (pre ++ [fmt])) by (rewrite len_app; reflexivity).
      replace (len (pre ++ [fmt]) + m) with (len (pre ++ [fmt]) + len (firstn (N.to_nat m) r)) by (rewrite firstn_len by assumption; lia).
      apply str_slice_ascii. rewrite <- app_assoc. cbn [app].
      rewrite <- (firstn_skipn (N.to_nat m) r) in Ha.
      apply ascii_app in Ha. destruct Ha as [Ha1 Ha2]. apply ascii_cons in Ha2. destruct Ha2 as [Hf Ha2].
      apply ascii_app in Ha2. apply ascii_app. split; [assumption|]. apply ascii_cons. tauto.
    - rewrite <- (firstn_skipn (N.to_nat m) r) in Ha. apply ascii_app in Ha. destruct Ha as [_ Ha].
      apply ascii_cons in Ha. destruct Ha as [_ Ha]. now apply ascii_app in Ha.
    - unfold len in *. rewrite skipn_length. lia. }
  destruct (fmt =? letter_a).
  - destruct (C n ltac:(lia)) as (C1 & C2 & C3 & C4). rewrite C1. cbn [bind]. rewrite C2. cbn [bind]. rewrite C3.
    destruct (N.ltb_spec (len r) n) as [H|H]; [reflexivity|].
    destruct (C4 H) as (C5 & C6 & C7). cbn [bind]. rewrite C5. cbn [bind].
    rewrite is_masked_str_ascii, utf8_ascii by assumption. cbn zeta. now rewrite <- C7.
  - destruct (fmt =? letter_h); [|reflexivity].
    rewrite umul_ok by (change (2 ^ 33) with (2 ^ 32 * 2) in Hr; lia). cbn [bind].
    replace (n * 2) with (2 * n) by lia.
    destruct (C (2 * n) ltac:(lia)) as (C1 & C2 & C3 & C4). rewrite C1. cbn [bind]. rewrite C2. cbn [bind]. rewrite C3.
    destruct (N.ltb_spec (len r) (2 * n)) as [H|H]; [reflexivity|].
    destruct (C4 H) as (C5 & C6 & C7). cbn [bind]. rewrite C5. cbn [bind].
    rewrite is_masked_str_ascii by assumption. cbn zeta.
    destruct (is_masked_u8 _ masks); [now rewrite <- C7|].
    rewrite strict_map_err. destruct (all_hex _); cbn [bind]; [now rewrite <- C7|reflexivity].
Qed.

Lemma inext_data_suffix masks n fmt r d rest : inext_data masks n fmt r = Ok (d, rest) ->
  exists txt, r = txt ++ rest.
Proof.
  unfold inext_data. destruct (fmt =? letter_a).
  - destruct (len r <? n); [discriminate|]. intros H. inversion H; subst. exists (firstn (N.to_nat n) r). now rewrite firstn_skipn.
  - destruct (fmt =? letter_h); [|discriminate]. destruct (len r <? 2 * n); [discriminate|]. cbn zeta.
    destruct (is_masked_u8 _ masks); [|destruct (all_hex _); [|discriminate]];
      intros H; inversion H; subst; eexists; symmetry; apply firstn_skipn.
Qed.

Lemma be_digits_lt ld : (len (bytes_of_digits ld) <= 4) -> Forall (fun c => is_hex_digitb c = true) ld ->
  be_value (bytes_of_digits ld) < 2 ^ 32.
Proof.
  intros H F. eapply N.lt_le_trans.
  - apply be_value_lt. apply bytes_of_digits_bytes. assumption.
  - transitivity (256 ^ 4); [apply N.pow_le_mono_r; [lia|exact H]|]. vm_compute. discriminate.
Qed.

Lemma all_hex_forall s : all_hex s = true <-> Forall (fun c => is_hex_digitb c = true) s.
Proof. unfold all_hex. rewrite forallb_forall, Forall_forall. tauto. Qed.
Lemma all_hex_iff s : all_hex s = true <-> Forall is_hex_digit s.
Proof.
  rewrite all_hex_forall. split; apply Forall_impl; intros c; apply is_hex_digitb_spec.
Qed.

Lemma ingenico_loop_step f p masks pre suf nodes :
  suf <> [] -> ascii_text (pre ++ suf) -> roomy p (len (pre ++ suf)) ->
  ingenico_loop (S f) p masks (pre ++ suf) (len pre) nodes
  = match inext masks suf with
    | Ok (e, rest) =>
        let i := len pre + (len suf - len rest) + 1 in
        if ie_type e =? letter_T
        then n <- ing_child (ber_parse p masks) e;;
             ingenico_loop f p masks (pre ++ suf) i (nodes ++ [n])
        else ingenico_loop f p masks (pre ++ suf) i nodes
    | Err e => Err e | Panic => Panic | NoFuel => NoFuel
    end.
Proof.
  intros Hne Ha Hr. cbn [ingenico_loop].
  rewrite (proj2 (N.ltb_lt _ _)) by (rewrite len_app; destruct suf; [congruence|rewrite len_cons; lia]).
  destruct suf as [|ty r0]; [congruence|]. clear Hne.
  rewrite index_app_len. cbn [bind].
  assert (HR : len (pre ++ ty :: r0) + 2 ^ 33 + 16 <= usize_limit p) by exact Hr.
  assert (HL : len (pre ++ ty :: r0) = len pre + 1 + len r0) by (rewrite len_app, len_cons; lia).
  rewrite uadd_ok by lia. cbn [bind]. rewrite HL.
  unfold inext.
  destruct r0 as [|x0 r0'] eqn:Er0.
  { rewrite len_nil. rewrite (proj2 (N.leb_le _ _)) by lia. reflexivity. }
  rewrite (proj2 (N.leb_gt _ _)) by (rewrite len_cons; lia). rewrite <- Er0 in *. clear Er0 x0 r0'.
  replace (len pre + 1) with (len (pre ++ [ty])) in * by (rewrite len_app; reflexivity).
  replace (pre ++ ty :: r0) with ((pre ++ [ty]) ++ r0) in * by (rewrite <- app_assoc; reflexivity).
  rewrite find_colon_spec by assumption.
  destruct (split_colon r0) as [[td r1]|] eqn:E1; [|reflexivity]. cbn [bind].
  apply split_colon_app in E1. subst r0.
  rewrite str_slice_ascii by (rewrite app_assoc in Ha; now apply ascii_app in Ha). cbn [bind].
  rewrite strict_map_err. destruct (all_hex td) eqn:Htd; [|reflexivity]. cbn [bind negb].
  rewrite (len_app td), (len_cons colon) in HL.
  rewrite uadd_ok by lia. cbn [bind].
  set (tag := trim_leading_0_bytes (bytes_of_digits td)) in *.
  destruct tag as [|t0 tag'] eqn:Etag.
  { rewrite (orb_true_r). reflexivity. }
  assert (T0 : t0 < 256).
  { assert (B : bytes_ok (bytes_of_digits td)) by (now apply bytes_of_digits_bytes, all_hex_forall).
    destruct (trim_leading_split (bytes_of_digits td)) as (k & E & _). fold tag in E. subst tag. rewrite Etag in E.
    rewrite E in B. apply bytes_ok_app in B. destruct B as [_ B]. now apply bytes_ok_cons in B. }
  assert (Hz : (len (t0 :: tag') =? 0) = false) by (rewrite len_cons; apply N.eqb_neq; lia).
  rewrite Hz, orb_false_r.
  replace (len (pre ++ [ty]) + len td + 1) with (len ((pre ++ [ty]) ++ td ++ [colon]))
    by (rewrite (len_app _ (td ++ [colon])), (len_app td); change (len [colon]) with 1; lia).
  replace ((pre ++ [ty]) ++ td ++ colon :: r1) with (((pre ++ [ty]) ++ td ++ [colon]) ++ r1) in *
    by (rewrite <- !app_assoc; reflexivity).
  set (pre1 := (pre ++ [ty]) ++ td ++ [colon]) in *.
  assert (HP1 : len pre1 = len (pre ++ [ty]) + len td + 1)
    by (unfold pre1; rewrite (len_app _ (td ++ [colon])), (len_app td); change (len [colon]) with 1; lia).
  assert (HL1 : len (pre1 ++ r1) = len pre1 + len r1) by apply len_app.
  replace (len (pre ++ [ty]) + len (td ++ colon :: r1)) with (len (pre1 ++ r1))
    by (rewrite HL1, HP1, (len_app td), len_cons; lia).
  destruct r1 as [|y1 r1'] eqn:Er1.
  { rewrite app_nil_r. rewrite (proj2 (N.leb_le _ _)) by lia. reflexivity. }
  rewrite (proj2 (N.leb_gt _ _)) by (rewrite HL1, len_cons; lia).
  rewrite <- Er1 in *. clear Er1 y1 r1'.
  change (index (t0 :: tag') 0) with (@Ok N t0). cbn [bind].
  rewrite tag_metadata_spec by assumption. cbn [bind fst snd].
  rewrite find_colon_spec by assumption.
  destruct (split_colon r1) as [[ld r2]|] eqn:E2; [|reflexivity]. cbn [bind].
  apply split_colon_app in E2. subst r1.
  rewrite str_slice_ascii by (rewrite app_assoc in Ha; now apply ascii_app in Ha). cbn [bind].
  rewrite strict_map_err. destruct (all_hex ld) eqn:Hld; [|reflexivity]. cbn [bind negb].
  destruct (N.ltb_spec 4 (len (bytes_of_digits ld))) as [H4|H4]; [reflexivity|].
  unfold byte_slice_to_u32. rewrite byte_slice_to_uint_ok by (unfold len in H4; lia). cbn [bind].
  assert (Hn : be_value (bytes_of_digits ld) < 2 ^ 32) by (apply be_digits_lt; [assumption|now apply all_hex_forall]).
  set (n := be_value (bytes_of_digits ld)) in *. cbn zeta.
  rewrite N.mod_small by (change (2 ^ 33) with (2 ^ 32 * 2) in HR; lia).
  rewrite (len_app ld), (len_cons colon) in HL1.
  rewrite uadd_ok by lia. cbn [bind].
  replace (len pre1 + len ld + 1) with (len (pre1 ++ ld ++ [colon]))
    by (rewrite (len_app _ (ld ++ [colon])), (len_app ld); change (len [colon]) with 1; lia).
  replace (pre1 ++ ld ++ colon :: r2) with ((pre1 ++ ld ++ [colon]) ++ r2) in *
    by (rewrite <- !app_assoc; reflexivity).
  set (pre2 := pre1 ++ ld ++ [colon]) in *.
  assert (HP2 : len pre2 = len pre1 + len ld + 1)
    by (unfold pre2; rewrite (len_app _ (ld ++ [colon])), (len_app ld); change (len [colon]) with 1; lia).
  destruct r2 as [|fmt r3].
  { rewrite app_nil_r. rewrite (proj2 (N.leb_le _ _)) by lia. reflexivity. }
  rewrite (proj2 (N.leb_gt _ _)) by (rewrite len_app, len_cons; lia).
  rewrite ingenico_data_spec by assumption.
  destruct (inext_data masks n fmt r3) as [[d rest]| | |] eqn:Ed; try reflexivity. cbn [bind].
  apply inext_data_suffix in Ed. destruct Ed as [txt ->].
  rewrite len_app in HR. rewrite len_cons, len_app in HR. rewrite len_app.
  rewrite uadd_ok by lia. cbn [bind ie_type].
  replace (len pre2 + 1 + (len txt + len rest - len rest) + 1)
    with (len pre + (len (ty :: td ++ colon :: ld ++ colon :: fmt :: txt ++ rest) - len rest) + 1).
  2:{ rewrite HP2, HP1. rewrite (len_app pre [ty]). change (len [ty]) with 1.
      rewrite len_cons, (len_app td), len_cons, (len_app ld), len_cons, len_cons, (len_app txt). lia. }
  change tag_type_emv with letter_T.
  destruct (ty =? letter_T); cbn [negb]; [|reflexivity].
  unfold ing_child. cbn [ie_tag ie_data first_byte].
  destruct (get_child_block (ber_parse p masks) (type_of t0) d); reflexivity.
Qed.

(** ** The parser on suffixes *)

Fixpoint ip (fuel : nat) (masks suf : list N) : res (list raw_node) :=
  match fuel with
  | O => NoFuel
  | S f =>
      match suf with
      | [] => Ok []
      | _ => match inext masks suf with
             | Ok (e, rest) =>
                 if ie_type e =? letter_T
                 then n <- ing_child (parse_bytes masks) e;;
                      ns <- ip f masks (tl rest);; Ok (n :: ns)
                 else ip f masks (tl rest)
             | Err e => Err e | Panic => Panic | NoFuel => NoFuel
             end
      end
  end.

Lemma inext_suffix masks s e rest : inext masks s = Ok (e, rest) ->
  exists f, s = f ++ rest /\ (1 <= List.length f)%nat.
Proof.
  unfold inext. destruct s as [|ty r0]; [discriminate|].
  destruct (split_colon r0) as [[td r1]|] eqn:E1; [|discriminate]. apply split_colon_app in E1. subst.
  destruct (negb (all_hex td)); [discriminate|]. cbn zeta.
  destruct (trim_leading_0_bytes (bytes_of_digits td)); [discriminate|].
  destruct (split_colon r1) as [[ld r2]|] eqn:E2; [|discriminate]. apply split_colon_app in E2. subst.
  destruct (negb (all_hex ld)); [discriminate|]. destruct (4 <? _); [discriminate|].
  destruct r2 as [|fmt r3]; [discriminate|].
  destruct (inext_data _ _ fmt r3) as [[d rest']| | |] eqn:Ed; try discriminate.
  apply inext_data_suffix in Ed. destruct Ed as [txt ->]. intros H. inversion H; subst.
  exists (ty :: td ++ colon :: ld ++ colon :: fmt :: txt). split; [|cbn; lia].
  cbn [app]. rewrite <- app_assoc. cbn [app]. rewrite <- app_assoc. reflexivity.
Qed.

Lemma inext_data_bytes masks n fmt r v rest : ascii_text r ->
  inext_data masks n fmt r = Ok (Normal v, rest) -> bytes_ok v /\ len v <= len r.
Proof.
  intros Ha. unfold inext_data. destruct (fmt =? letter_a).
  - destruct (N.ltb_spec (len r) n); [discriminate|]. cbn zeta.
    destruct (is_masked_u8 _ masks); intros H'; inversion H'; subst.
    rewrite <- (firstn_skipn (N.to_nat n) r) in Ha. apply ascii_app in Ha. split; [now apply ascii_bytes|].
    rewrite firstn_len; assumption.
  - destruct (fmt =? letter_h); [|discriminate]. destruct (N.ltb_spec (len r) (2 * n)); [discriminate|]. cbn zeta.
    destruct (is_masked_u8 _ masks); [intros H'; inversion H'|]. destruct (all_hex _) eqn:E; [|discriminate].
    intros H'; inversion H'; subst. split; [now apply bytes_of_digits_bytes, all_hex_forall|].
    unfold len in *. rewrite bytes_of_digits_length, firstn_length.
    
    match goal with |- N.of_nat (Nat.div2 ?m) <= _ =>
      assert (m <= List.length r)%nat by (apply Nat.le_min_r); pose proof (Nat.div2_odd m); generalize dependent m end.
    intros m H1 H2. lia.
Qed.

Lemma inext_bytes masks s e rest v : ascii_text s -> inext masks s = Ok (e, rest) -> ie_data e = Normal v ->
  bytes_ok v /\ len v <= len s.
Proof.
  unfold inext. destruct s as [|ty r0]; [discriminate|]. intros Ha.
  destruct (split_colon r0) as [[td r1]|] eqn:E1; [|discriminate]. apply split_colon_app in E1. subst.
  destruct (negb (all_hex td)); [discriminate|]. cbn zeta.
  destruct (trim_leading_0_bytes (bytes_of_digits td)); [discriminate|].
  destruct (split_colon r1) as [[ld r2]|] eqn:E2; [|discriminate]. apply split_colon_app in E2. subst.
  destruct (negb (all_hex ld)); [discriminate|]. destruct (4 <? _); [discriminate|].
  destruct r2 as [|fmt r3]; [discriminate|].
  destruct (inext_data _ _ fmt r3) as [[d rest']| | |] eqn:Ed; try discriminate.
  intros H Hd. inversion H; subst. cbn [ie_data] in Hd. subst d.
  apply inext_data_bytes in Ed.
  - destruct Ed as [B L]. split; [assumption|]. rewrite len_cons, len_app, len_cons, len_app, !len_cons. lia.
  - apply ascii_cons in Ha. destruct Ha as [_ Ha]. apply ascii_app in Ha. destruct Ha as [_ Ha].
    apply ascii_cons in Ha. destruct Ha as [_ Ha]. apply ascii_app in Ha. destruct Ha as [_ Ha].
    apply ascii_cons in Ha. destruct Ha as [_ Ha]. now apply ascii_cons in Ha.
Qed.

Lemma ing_child_ext f g e : (forall v, ie_data e = Normal v -> f v = g v) ->
  ing_child f e = ing_child g e.
Proof.
  intros H. unfold ing_child, get_child_block.
  destruct (type_of (first_byte (ie_tag e))); [reflexivity|]. destruct (ie_data e) as [v|]; [|reflexivity].
  now rewrite (H v eq_refl).
Qed.

Lemma ingenico_loop_end f p masks data i nodes : len data <= i ->
  ingenico_loop (S f) p masks data i nodes = Ok nodes.
Proof. intros H. cbn [ingenico_loop]. now rewrite (proj2 (N.ltb_ge _ _)). Qed.

Lemma ingenico_loop_ip p masks : forall fuel pre suf nodes,
  ascii_text (pre ++ suf) -> roomy p (len (pre ++ suf)) ->
  ingenico_loop fuel p masks (pre ++ suf) (len pre) nodes = rmap (fun ns => nodes ++ ns) (ip fuel masks suf).
Proof.
  induction fuel as [|f IH]; intros pre suf nodes Ha Hr; [reflexivity|].
  destruct suf as [|c suf].
  { rewrite app_nil_r, ingenico_loop_end by lia. cbn. now rewrite app_nil_r. }
  rewrite ingenico_loop_step by (try assumption; discriminate).
  change (ip (S f) masks (c :: suf)) with
      (match inext masks (c :: suf) with
             | Ok (e, rest) =>
                 if ie_type e =? letter_T
                 then n <- ing_child (parse_bytes masks) e;;
                      ns <- ip f masks (tl rest);; Ok (n :: ns)
                 else ip f masks (tl rest)
             | Err e => Err e | Panic => Panic | NoFuel => NoFuel
             end).
  destruct (inext masks (c :: suf)) as [[e rest]| | |] eqn:En; try reflexivity. cbn zeta.
  rewrite (ing_child_ext (ber_parse p masks) (parse_bytes masks)).
  2:{ intros v Hv. assert (Hs : ascii_text (c :: suf)) by (now apply ascii_app in Ha).
      destruct (inext_bytes masks _ _ _ v Hs En Hv) as [B L]. apply ber_parse_eq; [assumption|].
      apply (roomy_le _ _ _ Hr). rewrite len_app. lia. }
  destruct (inext_suffix _ _ _ _ En) as (fl & E & Hf). rewrite E in *. clear E c suf En.
  assert (LOOP : forall nodes', ingenico_loop f p masks (pre ++ fl ++ rest) (len pre + (len (fl ++ rest) - len rest) + 1) nodes'
            = rmap (fun ns => nodes' ++ ns) (ip f masks (tl rest))).
  { intros nodes'. rewrite (len_app fl rest). replace (len pre + (len fl + len rest - len rest) + 1) with (len pre + len fl + 1) by lia.
    destruct rest as [|sep rest].
    - destruct f as [|f]; [reflexivity|]. rewrite ingenico_loop_end by (rewrite !len_app, len_nil; lia).
      cbn. now rewrite app_nil_r.
    - replace (pre ++ fl ++ sep :: rest) with ((pre ++ fl ++ [sep]) ++ rest) in * by (rewrite <- !app_assoc; reflexivity).
      replace (len pre + len fl + 1) with (len (pre ++ fl ++ [sep])) by (rewrite !len_app; change (len [sep]) with 1; lia).
      cbn [tl]. now apply IH. }
  destruct (ie_type e =? letter_T).
  - destruct (ing_child (parse_bytes masks) e) as [n| | |]; try reflexivity. cbn [bind].
    rewrite LOOP. destruct (ip f masks (tl rest)); try reflexivity. cbn. now rewrite <- app_assoc.
  - apply LOOP.
Qed.

Definition parse_text (masks s : list N) : res (list raw_node) := ip (S (List.length s)) masks s.

Lemma ingenico_parse_eq p masks s : roomy p (len s) ->
  ingenico_parse p masks s = if is_ascii s then parse_text masks s else Err NonCompliant.
Proof.
  intros Hr. unfold ingenico_parse, parse_text. destruct (is_ascii s) eqn:E; [|reflexivity]. cbn [negb].
  apply is_ascii_iff in E.
  change (ingenico_loop (S (List.length s)) p masks ([] ++ s) (len (@nil N)) [] = ip (S (List.length s)) masks s).
  rewrite ingenico_loop_ip by assumption. destruct (ip _ _ _); reflexivity.
Qed.

Lemma inext_data_total masks n fmt r : (exists x, inext_data masks n fmt r = Ok x) \/ inext_data masks n fmt r = Err NonCompliant.
Proof.
  unfold inext_data. destruct (fmt =? letter_a); [destruct (len r <? n); eauto|].
  destruct (fmt =? letter_h); [|eauto]. destruct (len r <? 2 * n); [eauto|]. cbn zeta.
  destruct (is_masked_u8 _ masks); [eauto|]. destruct (all_hex _); eauto.
Qed.
Lemma inext_total masks s : (exists x, inext masks s = Ok x) \/ inext masks s = Err NonCompliant \/ inext masks s = Err Unsupported.
Proof.
  unfold inext. destruct s as [|ty r0]; [auto|]. destruct (split_colon r0) as [[td r1]|]; [|auto].
  destruct (negb (all_hex td)); [auto|]. cbn zeta. destruct (trim_leading_0_bytes _); [auto|].
  destruct (split_colon r1) as [[ld r2]|]; [|auto]. destruct (negb (all_hex ld)); [auto|].
  destruct (4 <? _); [auto|]. destruct r2 as [|fmt r3]; [auto|].
  destruct (inext_data_total masks (be_value (bytes_of_digits ld)) fmt r3) as [[[d rest] ->]| ->]; eauto.
Qed.

Lemma ing_child_ok masks e : (forall v, ie_data e = Normal v -> bytes_ok v) ->
  exists n, ing_child (parse_bytes masks) e = Ok n.
Proof.
  intros H. unfold ing_child, get_child_block. destruct (type_of _); cbn [bind]; [eauto|].
  destruct (ie_data e) as [v|]; cbn [bind]; [|eauto].
  pose proof (parse_bytes_settled masks v (H v eq_refl)) as S.
  destruct (parse_bytes masks v); cbn in *; eauto; contradiction.
Qed.

Lemma ascii_tl r : ascii_text r -> ascii_text (tl r).
Proof. destruct r; [auto|]. intros H. now apply ascii_cons in H. Qed.

Lemma ip_fuel masks : forall fuel suf, ascii_text suf -> (List.length suf < fuel)%nat ->
  settled (ip fuel masks suf) /\ forall fuel', (List.length suf < fuel')%nat -> ip fuel' masks suf = ip fuel masks suf.
Proof.
  induction fuel as [|f IH]; intros suf Ha Hf; [lia|].
  destruct suf as [|c suf]. { split; [exact I|]. intros [|f'] H; [lia|reflexivity]. }
  assert (UN : forall f', ip (S f') masks (c :: suf) =
      (match inext masks (c :: suf) with
             | Ok (e, rest) =>
                 if ie_type e =? letter_T
                 then n <- ing_child (parse_bytes masks) e;;
                      ns <- ip f' masks (tl rest);; Ok (n :: ns)
                 else ip f' masks (tl rest)
             | Err e => Err e | Panic => Panic | NoFuel => NoFuel
             end)) by reflexivity.
  rewrite UN.
  destruct (inext_total masks (c :: suf)) as [[[e rest] En]|[En|En]]; rewrite En.
  2,3: split; [exact I|]; intros [|f'] H; [lia|]; rewrite UN, En; reflexivity.
  destruct (inext_suffix _ _ _ _ En) as (fl & E & Hfl).
  assert (Hlen : (List.length (tl rest) < List.length (c :: suf))%nat).
  { rewrite E, app_length. destruct rest; cbn [tl List.length]; lia. }
  assert (Hat : ascii_text (tl rest)).
  { apply ascii_tl. rewrite E in Ha. now apply ascii_app in Ha. }
  destruct (IH (tl rest) Hat ltac:(lia)) as [Sr Ir].
  destruct (ing_child_ok masks e) as [n En'].
  { intros v Hv. now apply (inext_bytes masks _ _ _ v Ha En Hv). }
  rewrite En'. cbn [bind]. split.
  - destruct (ie_type e =? letter_T); [|assumption]. destruct (ip f masks (tl rest)); cbn in *; tauto.
  - intros [|f'] H; [lia|]. rewrite UN, En, En'. cbn [bind].
    now rewrite (Ir f') by (cbn [List.length] in *; lia).
Qed.

Lemma parse_text_settled masks s : ascii_text s -> settled (parse_text masks s).
Proof. intros H. apply ip_fuel; [assumption|lia]. Qed.

Lemma parse_text_eq masks s : ascii_text s -> s <> [] ->
  parse_text masks s
  = match inext masks s with
    | Ok (e, rest) =>
        if ie_type e =? letter_T
        then n <- ing_child (parse_bytes masks) e;;
             ns <- parse_text masks (tl rest);; Ok (n :: ns)
        else parse_text masks (tl rest)
    | Err e => Err e | Panic => Panic | NoFuel => NoFuel
    end.
Proof.
  intros Ha Hne. destruct s as [|c suf]; [congruence|]. unfold parse_text at 1.
  change (ip (S (List.length (c :: suf))) masks (c :: suf)) with
      (match inext masks (c :: suf) with
             | Ok (e, rest) =>
                 if ie_type e =? letter_T
                 then n <- ing_child (parse_bytes masks) e;;
                      ns <- ip (List.length (c :: suf)) masks (tl rest);; Ok (n :: ns)
                 else ip (List.length (c :: suf)) masks (tl rest)
             | Err e => Err e | Panic => Panic | NoFuel => NoFuel
             end).
  destruct (inext masks (c :: suf)) as [[e rest]| | |] eqn:En; try reflexivity.
  destruct (inext_suffix _ _ _ _ En) as (fl & E & Hfl).
  assert (Hlen : (List.length (tl rest) < List.length (c :: suf))%nat).
  { rewrite E, app_length. destruct rest; cbn [tl List.length]; lia. }
  assert (Hat : ascii_text (tl rest)).
  { apply ascii_tl. rewrite E in Ha. now apply ascii_app in Ha. }
  unfold parse_text.
  rewrite (proj2 (ip_fuel masks (S (List.length (tl rest))) (tl rest) Hat ltac:(lia)) (List.length (c :: suf)) ltac:(lia)).
  reflexivity.
Qed.

(** ** One field and the grammar *)

Lemma tag_digits_iff td tag : all_hex td = true ->
  (tag_digits td tag <-> trim_leading_0_bytes (bytes_of_digits td) = tag /\ tag <> []).
Proof.
  intros Htd. unfold tag_digits.
  destruct (trim_leading_split (bytes_of_digits td)) as (k & E & Hn & Hz).
  set (tr := trim_leading_0_bytes (bytes_of_digits td)) in *. split.
  - intros (_ & k' & E' & Hne & Hz'). split; [|assumption].
    assert (Htr : tr <> []). { intros H. apply Hn in H. rewrite H in E'. symmetry in E'. apply app_eq_nil in E'. tauto. }
    rewrite E in E'. clear E Hn. revert k' E'. clearbody tr. clear Htd td.
    assert (P : forall k a b k', repeat 0 k ++ a = repeat 0 k' ++ b -> a <> [] -> b <> [] ->
              (match a with 0 :: _ :: _ => False | _ => True end) ->
              (match b with 0 :: _ :: _ => False | _ => True end) -> a = b).
    { clear. induction k as [|k IH]; intros a b k' E Ha Hb Za Zb.
      - cbn [repeat app] in E. destruct k' as [|k']; [assumption|]. cbn [repeat app] in E. subst a.
        destruct k'; cbn [repeat app] in Za.
        + destruct b; [congruence|contradiction].
        + contradiction.
      - destruct k' as [|k'].
        + cbn [repeat app] in E. subst b. destruct k; cbn [repeat app] in Zb.
          * destruct a; [congruence|contradiction].
          * contradiction.
        + cbn [repeat app] in E. inversion E as [E']. eapply IH; eassumption. }
    intros k' E'. apply (P k tr tag k' E'); auto.
    destruct tag as [|[|] [|]]; auto. now specialize (Hz' _ eq_refl).
  - intros [<- Hne]. split; [now apply all_hex_iff|]. exists k. split; [assumption|]. split; [assumption|].
    intros t Ht. rewrite Ht in Hz. destruct t; [reflexivity|contradiction].
Qed.

Lemma inext_data_iff masks n fmt r d rest :
  inext_data masks n fmt r = Ok (d, rest) <-> exists txt, r = txt ++ rest /\ ing_data masks n fmt txt d.
Proof.
  split.
  - unfold inext_data. destruct (N.eqb_spec fmt letter_a) as [->|Ha].
    + destruct (N.ltb_spec (len r) n); [discriminate|]. intros E. inversion E; subst.
      exists (firstn (N.to_nat n) r). split; [now rewrite firstn_skipn|]. constructor; [now apply firstn_len|].
      now apply reported_iff.
    + destruct (N.eqb_spec fmt letter_h) as [->|Hh]; [|discriminate].
      destruct (N.ltb_spec (len r) (2 * n)); [discriminate|]. cbn zeta.
      destruct (is_masked_u8 _ masks) eqn:M.
      * intros E. injection E as <- <-. exists (firstn (N.to_nat (2 * n)) r). split; [now rewrite firstn_skipn|].
        apply ing_data_masked; [now apply firstn_len|now apply is_masked_u8_spec].
      * destruct (all_hex _) eqn:A; [|discriminate]. intros E. injection E as <- <-.
        exists (firstn (N.to_nat (2 * n)) r). split; [now rewrite firstn_skipn|].
        rewrite <- not_true_iff_false, is_masked_u8_spec in M.
        apply ing_data_hex; [now apply firstn_len|exact M|now apply all_hex_iff].
  - intros (txt & -> & D). unfold inext_data.
    assert (FS : forall m, len txt = m -> (len (txt ++ rest) <? m) = false
              /\ firstn (N.to_nat m) (txt ++ rest) = txt /\ skipn (N.to_nat m) (txt ++ rest) = rest).
    { intros m <-. split; [apply N.ltb_ge; rewrite len_app; lia|].
      unfold len. rewrite Nat2N.id, firstn_app, firstn_all, Nat.sub_diag, skipn_app, skipn_all, Nat.sub_diag.
      cbn [firstn skipn app]. now rewrite app_nil_r. }
    destruct D as [txt d Hl R|txt Hl M|txt Hl M A]; destruct (FS _ Hl) as (F1 & F2 & F3).
    + rewrite N.eqb_refl, F1, F2, F3. apply reported_iff in R. subst d. reflexivity.
    + change (letter_h =? letter_a) with false. rewrite N.eqb_refl, F1, F2, F3. cbn zeta.
      apply is_masked_u8_spec in M. now rewrite M.
    + change (letter_h =? letter_a) with false. rewrite N.eqb_refl, F1, F2, F3. cbn zeta.
      destruct (is_masked_u8 txt masks) eqn:E; [apply is_masked_u8_spec in E; contradiction|].
      apply all_hex_iff in A. now rewrite A.
Qed.

Lemma hex_no_colon s : Forall is_hex_digit s -> ~ In colon s.
Proof. intros F H. rewrite Forall_forall in F. specialize (F _ H). unfold is_hex_digit, colon in F. lia. Qed.

Lemma len_digits_9 ld : len (bytes_of_digits ld) <= 4 <-> (List.length ld <= 9)%nat.
Proof.
  unfold len. rewrite bytes_of_digits_length. pose proof (Nat.div2_odd (List.length ld)) as E.
  destruct (Nat.odd (List.length ld)); cbn [Nat.b2n] in E; lia.
Qed.

Lemma inext_iff masks s e rest :
  inext masks s = Ok (e, rest) <-> exists f, s = f ++ rest /\ ing_field masks f e.
Proof.
  split.
  - unfold inext. destruct s as [|ty r0]; [discriminate|].
    destruct (split_colon r0) as [[td r1]|] eqn:E1; [|discriminate]. apply split_colon_app in E1. subst.
    destruct (all_hex td) eqn:Htd; [|discriminate]. cbn [negb]. cbn zeta.
    destruct (trim_leading_0_bytes (bytes_of_digits td)) as [|t0 tag] eqn:Et; [discriminate|].
    destruct (split_colon r1) as [[ld r2]|] eqn:E2; [|discriminate]. apply split_colon_app in E2. subst.
    destruct (all_hex ld) eqn:Hld; [|discriminate]. cbn [negb].
    destruct (N.ltb_spec 4 (len (bytes_of_digits ld))) as [|H4]; [discriminate|].
    destruct r2 as [|fmt r3]; [discriminate|].
    destruct (inext_data _ _ fmt r3) as [[d rest']| | |] eqn:Ed; try discriminate.
    apply inext_data_iff in Ed. destruct Ed as (txt & -> & D). intros H. inversion H; subst.
    exists (ty :: td ++ colon :: ld ++ colon :: fmt :: txt). split.
    + cbn [app]. rewrite <- app_assoc. cbn [app]. rewrite <- app_assoc. reflexivity.
    + econstructor; [|split; [|split]|exact D].
      * apply tag_digits_iff; [assumption|]. split; [assumption|discriminate].
      * now apply all_hex_iff.
      * now apply len_digits_9.
      * reflexivity.
  - intros (f & -> & F). destruct F as [ty td tag ld n fmt txt d T (L1 & L2 & L3) D].
    unfold inext. cbn [app]. rewrite <- app_assoc. cbn [app].
    pose proof T as T'. destruct T' as [Htd _].
    rewrite split_colon_no by (now apply hex_no_colon).
    assert (Hh : all_hex td = true) by (now apply all_hex_iff). rewrite Hh. cbn [negb].
    apply tag_digits_iff in T; [|assumption]. destruct T as [-> Hne]. cbn zeta.
    destruct tag as [|t0 tag]; [congruence|].
    rewrite <- app_assoc. cbn [app]. rewrite split_colon_no by (now apply hex_no_colon).
    assert (Hl : all_hex ld = true) by (now apply all_hex_iff). rewrite Hl. cbn [negb].
    rewrite (proj2 (N.ltb_ge _ _)) by (now apply len_digits_9). subst n.
    now rewrite (proj2 (inext_data_iff _ _ _ _ d rest)) by eauto.
Qed.

Lemma ing_field_ne masks f e : ing_field masks f e -> f <> [].
Proof. intros []. discriminate. Qed.

(* Appending more text does not change the outcome of a complete field, nor Unsupported. *)
Lemma inext_app masks s x e rest : inext masks s = Ok (e, rest) -> inext masks (s ++ x) = Ok (e, rest ++ x).
Proof.
  intros H. apply inext_iff in H. destruct H as (f & -> & F). apply inext_iff. exists f.
  split; [now rewrite app_assoc|assumption].
Qed.
Lemma inext_unsupported_app masks s x : inext masks s = Err Unsupported -> inext masks (s ++ x) = Err Unsupported.
Proof.
  unfold inext. destruct s as [|ty r0]; [discriminate|]. cbn [app].
  destruct (split_colon r0) as [[td r1]|] eqn:E1; [|discriminate].
  rewrite (split_colon_more _ _ _ x E1).
  destruct (negb (all_hex td)); [discriminate|]. cbn zeta.
  destruct (trim_leading_0_bytes (bytes_of_digits td)) as [|t0 tag] eqn:Et; [discriminate|].
  destruct (split_colon r1) as [[ld r2]|] eqn:E2; [|discriminate].
  rewrite (split_colon_more _ _ _ x E2).
  destruct (negb (all_hex ld)); [discriminate|]. destruct (4 <? _); [reflexivity|].
  destruct r2 as [|fmt r3]; [discriminate|].
  destruct (inext_data_total masks (be_value (bytes_of_digits ld)) fmt r3) as [[[d rest] ->]| ->]; discriminate.
Qed.

(** ** Nodes *)

Lemma ing_child_node masks e n : (forall v, ie_data e = Normal v -> bytes_ok v) ->
  (ing_child (parse_bytes masks) e = Ok n <-> ing_node masks (ie_tag e) (ie_data e) n).
Proof.
  intros Hb. unfold ing_child. destruct e as [ty tag d]. cbn [ie_tag ie_data] in *.
  destruct (type_of (first_byte tag)) eqn:Ty.
  - cbn [get_child_block bind]. split.
    + intros E. inversion E; subst. rewrite <- Ty. constructor. now left.
    + intros H. inversion H; subst; [now rewrite Ty|congruence].
  - destruct d as [v|].
    + cbn [get_child_block]. specialize (Hb v eq_refl).
      destruct (parse_bytes masks v) as [cs|er| |] eqn:E; cbn [bind].
      * pose proof E as G. apply parse_bytes_sound in G; [|assumption]. destruct G as (objs & Ho & Ht). split.
        -- intros H. inversion H; subst. econstructor; eassumption.
        -- intros H. inversion H as [? Hc|? objs' cs' _ Ho' Ht']; subst.
           ++ destruct Hc as [Hc|[Hc|(v' & Hv' & Hc)]]; [congruence|discriminate|].
              inversion Hv'; subst. exfalso. apply Hc. eauto.
           ++ rewrite (ber_objects_det _ _ _ Ho' Ho) in Ht'. now rewrite (ber_trees_det _ _ _ Ht' _ Ht).
      * split.
        -- intros H. inversion H; subst. rewrite <- Ty. constructor. right; right. exists v. split; [reflexivity|].
           intros (objs & Ho). destruct (parse_bytes_accepts masks v objs Hb Ho). congruence.
        -- intros H. inversion H as [? Hc|? objs' cs' _ Ho' Ht']; subst; [now rewrite Ty|].
           destruct (parse_bytes_accepts masks v objs' Hb Ho'). congruence.
      * pose proof (parse_bytes_settled masks v Hb) as S. rewrite E in S. contradiction.
      * pose proof (parse_bytes_settled masks v Hb) as S. rewrite E in S. contradiction.
    + cbn [get_child_block bind]. split.
      * intros E. inversion E; subst. rewrite <- Ty. constructor. right. now left.
      * intros H. inversion H; subst. now rewrite Ty.
Qed.

(** ** Whole texts *)

Lemma parse_text_nil masks : parse_text masks [] = Ok [].
Proof. reflexivity. Qed.

Lemma parse_text_field masks f e rest : ascii_text (f ++ rest) -> ing_field masks f e ->
  parse_text masks (f ++ rest)
  = if ie_type e =? letter_T
    then n <- ing_child (parse_bytes masks) e;;
         ns <- parse_text masks (tl rest);; Ok (n :: ns)
    else parse_text masks (tl rest).
Proof.
  intros Ha F. rewrite parse_text_eq; [|assumption|].
  - now rewrite (proj2 (inext_iff masks (f ++ rest) e rest)) by eauto.
  - intros E. apply app_eq_nil in E. now apply (ing_field_ne _ _ _ F).
Qed.

Lemma field_data_bytes masks f e v : ascii_text f -> ing_field masks f e -> ie_data e = Normal v -> bytes_ok v.
Proof.
  intros Ha F Hv. apply (inext_bytes masks f e [] v Ha); [|assumption].
  apply inext_iff. exists f. split; [now rewrite app_nil_r|assumption].
Qed.

Lemma parse_text_grammar masks : forall s ns, ascii_text s ->
  (parse_text masks s = Ok ns <-> exists es, ing_text masks s es /\ ing_nodes masks es ns).
Proof.
  induction s as [s IH] using length_ind. intros ns Ha. split.
  - intros H. destruct s as [|c s]. { inversion H; subst. exists []. split; constructor. }
    destruct (inext_total masks (c :: s)) as [[[e rest] En]|[En|En]];
      rewrite parse_text_eq, En in H by (try assumption; discriminate); try discriminate.
    destruct (inext_suffix _ _ _ _ En) as (fl' & El & Hfl).
    assert (Hlen : (List.length (tl rest) < List.length (c :: s))%nat).
    { rewrite El, app_length. destruct rest; cbn [tl List.length]; lia. }
    pose proof En as En'. apply inext_iff in En'. destruct En' as (f & Ef & F).
    assert (Har : ascii_text (tl rest)). { rewrite Ef in Ha. apply ascii_app in Ha. now apply ascii_tl. }
    assert (D : forall v, ie_data e = Normal v -> bytes_ok v).
    { intros v Hv. now apply (inext_bytes masks _ _ _ v Ha En). }
    assert (TXT : forall es, ing_text masks (tl rest) es -> ing_text masks (c :: s) (e :: es)).
    { intros es T. rewrite Ef. destruct rest as [|sep rest].
      - cbn [tl] in T. inversion T as [|f0 e0 F0 E0|f0 e0 sep0 r0 es0 F0 T0 E0]; subst.
        + rewrite app_nil_r. now constructor.
        + now apply ing_field_ne in F0.
        + destruct f0; discriminate.
      - cbn [tl] in T. now constructor. }
    destruct (N.eqb_spec (ie_type e) letter_T) as [Ty|Ty].
    + destruct (ing_child (parse_bytes masks) e) as [n| | |] eqn:Ec; try discriminate. cbn [bind] in H.
      destruct (parse_text masks (tl rest)) as [ns'| | |] eqn:Er; try discriminate. cbn [bind] in H. inversion H; subst.
      destruct (proj1 (IH (tl rest) Hlen ns' Har) Er) as (es & T & Nn).
      exists (e :: es). split; [now apply TXT|]. apply ing_nodes_take; auto. now apply ing_child_node.
    + destruct (proj1 (IH (tl rest) Hlen ns Har) H) as (es & T & Nn).
      exists (e :: es). split; [now apply TXT|]. now apply ing_nodes_skip.
  - intros (es & T & Nn).
    assert (STEP : forall f e rest es', s = f ++ rest -> ing_field masks f e ->
              ing_text masks (tl rest) es' -> ing_nodes masks (e :: es') ns -> parse_text masks s = Ok ns).
    { intros f e rest es' -> F T' Nn'. rewrite (parse_text_field masks f e rest Ha F).
      assert (Hlen : (List.length (tl rest) < List.length (f ++ rest))%nat).
      { rewrite app_length. pose proof (ing_field_ne _ _ _ F) as Hne. destruct f; [congruence|].
        destruct rest; cbn [tl List.length]; lia. }
      apply ascii_app in Ha. destruct Ha as [Hf Hrest]. assert (Har : ascii_text (tl rest)) by (now apply ascii_tl).
      inversion Nn' as [|? ? ? Ty Nn2|? ? n ns' Ty Nd Nn2]; subst.
      - rewrite (proj2 (N.eqb_neq _ _) Ty). apply (IH (tl rest) Hlen ns Har). eauto.
      - rewrite Ty, N.eqb_refl.
        rewrite (proj2 (ing_child_node masks e n (fun v Hv => field_data_bytes masks f e v Hf F Hv)) Nd).
        cbn [bind]. rewrite (proj2 (IH (tl rest) Hlen ns' Har)) by eauto. reflexivity. }
    inversion T as [|f0 e0 F0 E0|f0 e0 sep0 r0 es0 F0 T0 E0]; subst.
    + inversion Nn; subst. reflexivity.
    + apply (STEP s e0 [] []); auto; [now rewrite app_nil_r|constructor].
    + apply (STEP f0 e0 (sep0 :: r0) es0); auto.
Qed.

Lemma ing_field_det masks f rest e f' rest' e' : f ++ rest = f' ++ rest' ->
  ing_field masks f e -> ing_field masks f' e' -> f = f' /\ e = e' /\ rest = rest'.
Proof.
  intros E F F'.
  assert (H : inext masks (f ++ rest) = Ok (e, rest)) by (apply inext_iff; eauto).
  assert (H' : inext masks (f ++ rest) = Ok (e', rest')) by (apply inext_iff; rewrite E; eauto).
  rewrite H in H'. inversion H'; subst. split; [|auto]. now apply app_inv_tail in E.
Qed.

Lemma ing_text_det masks : forall s es, ing_text masks s es -> forall es', ing_text masks s es' -> es = es'.
Proof.
  induction 1 as [|f e F|f e sep rest es F T IH]; intros es' T'.
  - inversion T' as [|f0 e0 F0 E0|f0 e0 sep0 r0 es0 F0 T0 E0]; subst; auto.
    + now apply ing_field_ne in F0.
    + destruct f0; discriminate.
  - inversion T' as [|f0 e0 F0 E0|f0 e0 sep0 r0 es0 F0 T0 E0]; subst.
    + now apply ing_field_ne in F.
    + destruct (ing_field_det masks f [] e f [] e0) as (_ & -> & _); auto.
    + destruct (ing_field_det masks (f0 ++ sep0 :: r0) [] e f0 (sep0 :: r0) e0) as (_ & _ & Z); auto; [now rewrite app_nil_r|discriminate].
  - inversion T' as [|f0 e0 F0 E0|f0 e0 sep0 r0 es0 F0 T0 E0]; subst.
    + destruct f; discriminate.
    + destruct (ing_field_det masks f (sep :: rest) e (f ++ sep :: rest) [] e0) as (_ & _ & Z); auto; [now rewrite app_nil_r|discriminate].
    + destruct (ing_field_det masks f (sep :: rest) e f0 (sep0 :: r0) e0) as (_ & -> & Z); auto.
      inversion Z; subst. f_equal. auto.
Qed.
