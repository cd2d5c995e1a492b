(** Facts about the bit field interpreter, from a decidable check that a declaration
    matches a bit table of SpecValues.v. *)

From Coq Require Import ZArith NArith List String Ascii Bool Lia ZifyN ZifyBool ZifyNat.
From Verif Require Import Base ModelUtil ModelEnums ModelBitflag ModelSchemas ModelValues SpecUtil
  SpecCodes SpecValues ProofsUtil ProofsBer.
Import ListNotations.
Local Open Scope N_scope.

(** ** Code tables *)

Lemma find_code_in {A} (t : list (N * A * string)) c a s : find_code t c = Some (a, s) -> In (c, a, s) t.
Proof.
  induction t as [|[[k x] r] t IH]; cbn [find_code]; [discriminate|].
  destruct (N.eqb_spec k c) as [->|]; intros H; [inversion H; now left|right; auto].
Qed.
Lemma find_code_none {A} (t : list (N * A * string)) c : find_code t c = None -> forall a s, ~ In (c, a, s) t.
Proof.
  induction t as [|[[k x] r] t IH]; cbn [find_code]; [intros _ a s []|].
  destruct (N.eqb_spec k c) as [->|Hk]; [discriminate|]. intros H a s [E|E]; [inversion E; congruence|now apply (IH H a s)].
Qed.

Definition distinct_codes {A} (t : list (N * A * string)) : bool :=
  (fix go (l : list N) : bool := match l with [] => true | c :: l' => negb (existsb (N.eqb c) l') && go l' end)
    (map (fun r => fst (fst r)) t).
Lemma find_code_complete {A} (t : list (N * A * string)) c a s :
  distinct_codes t = true -> In (c, a, s) t -> find_code t c = Some (a, s).
Proof.
  unfold distinct_codes. induction t as [|[[k x] r] t IH]; [intros _ []|]. cbn [map fst]. rewrite andb_true_iff.
  intros [H1 H2] [E|E]; cbn [find_code].
  - inversion E; subst. now rewrite N.eqb_refl.
  - destruct (N.eqb_spec k c) as [->|]; [|now apply IH].
    exfalso. apply negb_true_iff in H1. rewrite <- not_true_iff_false in H1. apply H1, existsb_exists.
    exists c. split; [|apply N.eqb_refl]. apply in_map_iff. now exists (c, a, s).
Qed.

Ltac code_cases := repeat match goal with
  | |- context [?v =? ?k] => destruct (N.eqb_spec v k); [subst; reflexivity|]
  end.

(** ** Kinds *)

Definition ftype_of (k : kind) : ftype :=
  match k with
  | Flag => TBool | Number => TU8 | GenAc1 => TGenAc1 | GenAc2 => TGenAc2 | Format => TFormatCode
  | Version => TCryptogramVersion | Method => TCvMethod | Condition => TCvmCondition
  end.

Ltac table_step c := match goal with
  | |- context [c =? ?k] => destruct (N.eqb_spec c k) as [->|?]; [reflexivity|];
      try rewrite (proj2 (N.eqb_neq k c)) by congruence
  end.

Lemma coded_kind k c : k <> Flag ->
  typed_try_from (ftype_of k) c = match decode k c with Some (v, _) => Ok v | None => Err NonCcdCompliant end.
Proof.
  intros Hk. destruct k; [congruence|..]; cbn [ftype_of typed_try_from decode]; unfold rmap, coded, optional, ok_opt;
    cbv [gen_ac1_application_cryptogram_type_try_from gen_ac2_application_cryptogram_type_try_from
         format_code_try_from cryptogram_version_try_from cv_method_try_from cvm_condition_try_from];
    cbn [find_code gen_ac1_codes gen_ac2_codes format_code_codes cryptogram_version_codes cv_method_codes cvm_condition_codes];
    try reflexivity; repeat table_step c; reflexivity.
Qed.

Lemma decode_text k c v s : k <> Flag -> decode k c = Some (v, s) -> fval_text v = s.
Proof.
  intros Hk. destruct k; [congruence|..]; cbn [decode]; unfold coded, optional;
    try (intros H; injection H as <- <-; reflexivity);
    destruct (find_code _ c) as [[a r]|] eqn:E; intros H; try discriminate; injection H as <- <-; try reflexivity;
    apply find_code_in in E; cbn in E;
    repeat (destruct E as [E|E]; [injection E as _ <- <-; reflexivity|]); destruct E.
Qed.

Definition lossless (k : kind) : bool := match k with Method | Condition => false | _ => true end.

Lemma decode_code k c v s : k <> Flag -> lossless k = true -> decode k c = Some (v, s) -> fval_to_u8 v = c.
Proof.
  intros Hk Hl. destruct k; try congruence; try discriminate Hl; cbn [decode]; unfold coded;
    try (intros H; injection H as <- <-; reflexivity);
    destruct (find_code _ c) as [[a r]|] eqn:E; intros H; try discriminate; injection H as <- <-;
    apply find_code_in in E; cbn in E;
    repeat (destruct E as [E|E]; [injection E as <- <- _; reflexivity|]); destruct E.
Qed.

Lemma decode_flag_type k c v s : decode k c = Some (v, s) -> k <> Flag ->
  match v with VBool _ => False | _ => True end.
Proof.
  intros H Hk. destruct k; [congruence|..]; cbn [decode] in H; unfold coded, optional in H;
    try (injection H as <- <-; exact I);
    destruct (find_code _ c) as [[a r]|]; try discriminate; injection H as <- <-; exact I.
Qed.

(** ** Declarations against tables *)

Definition kind_eqb (a b : kind) : bool :=
  match a, b with
  | Flag, Flag | Number, Number | GenAc1, GenAc1 | GenAc2, GenAc2 | Format, Format | Version, Version
  | Method, Method | Condition, Condition => true
  | _, _ => false
  end.
Definition ftype_is (t : ftype) (k : kind) : bool :=
  match t, k with
  | TBool, Flag | TU8, Number | TGenAc1, GenAc1 | TGenAc2, GenAc2 | TFormatCode, Format
  | TCryptogramVersion, Version | TCvMethod, Method | TCvmCondition, Condition => true
  | _, _ => false
  end.
Lemma ftype_is_eq t k : ftype_is t k = true -> t = ftype_of k.
Proof. destruct t, k; try discriminate; reflexivity. Qed.

Definition sev_eqb (a b : severity) : bool :=
  match a, b with SevNormal, SevNormal | SevWarning, SevWarning | SevError, SevError => true | _, _ => false end.
Lemma sev_eqb_eq a b : sev_eqb a b = true -> a = b.
Proof. destruct a, b; try discriminate; reflexivity. Qed.

Definition text_ok (f : field) (e : bit_field) : bool :=
  match e_kind e with
  | Flag => String.eqb (f_text f) (e_label e)
  | _ => leqb (lit (f_text f)) (lit (e_label e) ++ [123; 125]) && forallb (fun c => negb (c =? 123)) (lit (e_label e))
  end.

Definition width (e : bit_field) : N := e_hi e - e_lo e + 1.
Definition low (e : bit_field) : N := e_lo e - 1.

Definition matches (count : N) (mask : list N) (nf : N * field) (e : bit_field) : bool :=
  let '(bn, f) := nf in
  (e_byte e =? bn + 1) && (bn <? count) && String.eqb (f_name f) (e_name e)
  && (f_mask f =? N.shiftl (N.ones (width e)) (low e))
  && match e_kind e, f_shift f with
     | Flag, None => e_hi e =? e_lo e
     | Flag, Some _ => false
     | _, Some k => k =? low e
     | _, None => low e =? 0
     end
  && ftype_is (f_type f) (e_kind e) && sev_eqb (f_sev f) (e_sev e) && text_ok f e
  && (field_offset count bn f =? 8 * (count - e_byte e) + (e_hi e - 1)) && (field_len f =? width e)
  && (N.land (f_mask f) (nth (N.to_nat bn) mask 0) =? f_mask f) && (f_mask f <? 256).

Fixpoint all_match (count : N) (mask : list N) (fl : list (N * field)) (t : list bit_field) : bool :=
  match fl, t with
  | [], [] => true
  | nf :: fl', e :: t' => matches count mask nf e && all_match count mask fl' t'
  | _, _ => false
  end.

Definition flat (bs : list (N * list field)) : list (N * field) :=
  flat_map (fun b => map (pair (fst b)) (snd b)) bs.

Fixpoint numbered (k : N) (bs : list (N * list field)) : bool :=
  match bs with [] => true | b :: t => (fst b =? k) && numbered (k + 1) t end.

Fixpoint distinct_names (l : list string) : bool :=
  match l with [] => true | a :: t => negb (existsb (String.eqb a) t) && distinct_names t end.

Fixpoint descending_table (n limit : N) (t : list bit_field) : bool :=
  match t with
  | [] => true
  | e :: t' => let off := 8 * (n - e_byte e) + (e_hi e - 1) in
               (off <? limit) && (1 <=? width e) && (width e <=? off + 1)
               && descending_table n (off + 1 - width e) t'
  end.

Definition schema_matches (sch : schema) (t : list bit_field) (mask : list N) : bool :=
  leqb (used_bits_mask sch) mask && (len mask =? s_count sch) && numbered 0 (s_blocks sch)
  && all_match (s_count sch) mask (flat (s_blocks sch)) t && distinct_names (map e_name t)
  && descending_table (s_count sch) (8 * s_count sch) t
  && forallb (fun m => m <? 256) mask.

(** ** Bits *)

Lemma masked_bits w k b m : N.land (N.shiftl (N.ones w) k) m = N.shiftl (N.ones w) k ->
  N.shiftr (N.land (N.shiftl (N.ones w) k) (N.land b m)) k = (b / 2 ^ k) mod 2 ^ w.
Proof.
  intros H. rewrite (N.land_comm b m), N.land_assoc, H.
  rewrite N.shiftr_land, N.shiftr_shiftl_l, N.sub_diag, N.shiftl_0_r by apply N.le_refl.
  now rewrite N.land_comm, N.land_ones, N.shiftr_div_pow2.
Qed.

Lemma leqb_eq a : forall b, leqb a b = true <-> a = b.
Proof.
  induction a as [|x a IH]; intros [|y b]; cbn; try (split; [discriminate|discriminate]); [tauto|].
  rewrite andb_true_iff, N.eqb_eq, IH. split; [intros [-> ->]; reflexivity|intros H; inversion H; auto].
Qed.

Lemma format1_label l arg : forallb (fun c => negb (c =? 123)) l = true -> format1 (l ++ [123; 125]) arg = l ++ arg.
Proof.
  induction l as [|c l IH]; cbn [app forallb].
  - intros _. cbn. now rewrite app_nil_r.
  - rewrite andb_true_iff, negb_true_iff, N.eqb_neq. intros [Hc Hl].
    rewrite <- IH by assumption. cbn [format1].
    destruct c as [|c]; [reflexivity|].
    repeat (destruct c as [c|c|]; try reflexivity; try (exfalso; lia)).
Qed.

Lemma mask_bytes_keep raw : forall mask, List.length mask = List.length raw -> mask_bytes raw mask = Ok (keep_bits raw mask).
Proof.
  induction raw as [|b raw IH]; intros [|m mask] H; try discriminate; [reflexivity|].
  cbn [mask_bytes keep_bits]. rewrite IH by (cbn in H; lia). reflexivity.
Qed.

Lemma keep_bits_nth raw : forall mask i, List.length mask = List.length raw -> (i < List.length raw)%nat ->
  nth_error (keep_bits raw mask) i = Some (N.land (nth i raw 0) (nth i mask 0)).
Proof.
  induction raw as [|b raw IH]; intros [|m mask] i H Hi; try discriminate; cbn in *; [lia|].
  destruct i as [|i]; [reflexivity|]. cbn [nth_error nth]. apply IH; lia.
Qed.

Lemma keep_bits_length raw : forall mask, List.length mask = List.length raw -> List.length (keep_bits raw mask) = List.length raw.
Proof. induction raw as [|b raw IH]; intros [|m mask] H; try discriminate; cbn in *; auto. Qed.

Lemma keep_bits_idem raw : forall mask, keep_bits (keep_bits raw mask) mask = keep_bits raw mask.
Proof.
  induction raw as [|b raw IH]; intros [|m mask]; cbn; try reflexivity. rewrite IH. f_equal.
  now rewrite <- N.land_assoc, N.land_diag.
Qed.

(** ** Parsing *)

Lemma mapM_app {A B} (f : A -> res B) a b : mapM f (a ++ b) = (x <- mapM f a;; y <- mapM f b;; Ok (x ++ y)).
Proof.
  induction a as [|x a IH]; cbn.
  - destruct (mapM f b); reflexivity.
  - fold (mapM f). destruct (f x); try reflexivity. cbn [bind]. rewrite IH.
    destruct (mapM f a); try reflexivity. cbn [bind]. destruct (mapM f b); reflexivity.
Qed.

Definition parse_at (bytes : list N) (nf : N * field) : res fval := parse_field bytes (fst nf) (snd nf).

Lemma parse_fields_mapM bytes n fs : parse_fields bytes n fs = mapM (parse_at bytes) (map (pair n) fs).
Proof. induction fs as [|f fs IH]; cbn; [reflexivity|]. unfold parse_at at 1. cbn [fst snd]. now rewrite IH. Qed.

Lemma parse_blocks_mapM bytes bs : parse_blocks bytes bs = mapM (parse_at bytes) (flat bs).
Proof.
  induction bs as [|[n fs] bs IH]; [reflexivity|]. unfold flat. cbn [parse_blocks flat_map fst snd]. fold (flat bs).
  now rewrite mapM_app, parse_fields_mapM, IH.
Qed.

Section Matching.
  Variables (count : N) (mask raw : list N).
  Hypothesis Hlen : len raw = count.
  Hypothesis Hmask : List.length mask = List.length raw.

  Lemma match_bits bn f e : matches count mask (bn, f) e = true ->
    exists b, index (keep_bits raw mask) bn = Ok b
      /\ N.shiftr (N.land (f_mask f) b) (low e) = field_bits e raw
      /\ N.shiftl (field_bits e raw) (low e) = N.land (f_mask f) b.
  Proof.
    unfold matches. rewrite !andb_true_iff. intros H. decompose [and] H. clear H.
    repeat match goal with H : (_ =? _) = true |- _ => apply N.eqb_eq in H end.
    match goal with H : (bn <? count) = true |- _ => apply N.ltb_lt in H end.
    assert (Hi : (N.to_nat bn < List.length raw)%nat) by (unfold len in Hlen; lia).
    unfold index. rewrite keep_bits_nth by assumption. eexists. split; [reflexivity|].
    set (x := nth (N.to_nat bn) raw 0). set (m := nth (N.to_nat bn) mask 0) in *.
    assert (E : N.shiftr (N.land (f_mask f) (N.land x m)) (low e) = field_bits e raw).
    { match goal with H : f_mask f = _ |- _ => rewrite H in * end. rewrite masked_bits by assumption.
      unfold field_bits, bits_of, low, width. replace (e_byte e - 1) with bn by lia. reflexivity. }
    split; [assumption|]. rewrite <- E.
    match goal with H : f_mask f = _ |- _ => rewrite H end.
    apply N.bits_inj. intros i. destruct (N.lt_ge_cases i (low e)) as [Hl|Hg].
    - rewrite N.shiftl_spec_low by assumption. rewrite N.land_spec, N.shiftl_spec_low by assumption. reflexivity.
    - rewrite N.shiftl_spec_high' by assumption. rewrite N.shiftr_spec'. f_equal. lia.
  Qed.

  Lemma flag_bits e : e_hi e = e_lo e -> field_bits e raw < 2.
  Proof.
    intros H. unfold field_bits, bits_of. rewrite H, N.sub_diag. change (2 ^ (0 + 1)) with 2.
    apply N.mod_upper_bound. discriminate.
  Qed.

  Lemma match_parse nf e : matches count mask nf e = true ->
    parse_at (keep_bits raw mask) nf
    = match field_value e raw with Some v => Ok v | None => Err NonCcdCompliant end.
  Proof.
    destruct nf as [bn f]. intros M. destruct (match_bits bn f e M) as (b & Hb & E & E2).
    unfold parse_at, parse_field. cbn [fst snd]. rewrite Hb. cbn [bind].
    unfold matches in M. rewrite !andb_true_iff in M. decompose [and] M. clear M.
    match goal with H : ftype_is _ _ = true |- _ => apply ftype_is_eq in H; rename H into Ht end.
    unfold field_value. destruct (kind_eqb (e_kind e) Flag) eqn:K.
    - assert (EK : e_kind e = Flag) by (destruct (e_kind e); [reflexivity|discriminate..]).
      rewrite EK in *. rewrite Ht. cbn [ftype_of decode option_map fst]. do 2 f_equal.
      destruct (f_shift f); [discriminate|].
      match goal with H : (e_hi e =? e_lo e) = true |- _ => apply N.eqb_eq in H; pose proof (flag_bits e H) as Hlt end.
      rewrite <- E2. destruct (N.eq_dec (field_bits e raw) 0) as [E0|E0].
      + rewrite E0, N.shiftl_0_l. reflexivity.
      + assert (E1 : field_bits e raw = 1) by lia. rewrite E1. rewrite N.shiftl_1_l.
        symmetry. cbn. apply eq_sym, N.ltb_lt. apply N.lt_le_trans with 1; [lia|].
        change 1 with (2 ^ 0). apply N.pow_le_mono_r; [discriminate|apply N.le_0_l].
    - assert (EK : e_kind e <> Flag) by (intros X; rewrite X in K; discriminate).
      assert (Es : match f_shift f with Some k => N.shiftr (N.land (f_mask f) b) k | None => N.land (f_mask f) b end
                   = field_bits e raw).
      { destruct (e_kind e); [congruence|..]; (destruct (f_shift f) as [k|];
          match goal with H : (_ =? _) = true |- _ => idtac end);
        repeat match goal with H : (?k =? low e) = true |- _ => apply N.eqb_eq in H; subst
                             | H : (low e =? 0) = true |- _ => apply N.eqb_eq in H; rewrite H in * end;
        first [exact E | (rewrite N.shiftr_0_r in E; exact E)]. }
      destruct (f_type f) eqn:Tf; [destruct (e_kind e); discriminate|..]; rewrite Es, Ht, coded_kind by assumption;
        destruct (decode (e_kind e) (field_bits e raw)) as [[v s]|]; reflexivity.
  Qed.

  Lemma all_match_parse : forall fl t, all_match count mask fl t = true ->
    mapM (parse_at (keep_bits raw mask)) fl
    = match decode_all t raw with Some vs => Ok vs | None => Err NonCcdCompliant end.
  Proof.
    induction fl as [|nf fl IH]; intros [|e t] H; try discriminate; [reflexivity|].
    cbn [all_match] in H. apply andb_true_iff in H. destruct H as [H1 H2]. cbn [mapM decode_all].
    fold (mapM (parse_at (keep_bits raw mask))). rewrite (match_parse nf e H1), (IH t H2).
    destruct (field_value e raw); [|reflexivity]. cbn [bind]. destruct (decode_all t raw); reflexivity.
  Qed.

  Lemma match_repr nf e v : matches count mask nf e = true -> lossless (e_kind e) = true ->
    field_value e raw = Some v ->
    exists b, index (keep_bits raw mask) (fst nf) = Ok b /\ field_repr (snd nf) v = N.land (f_mask (snd nf)) b.
  Proof.
    destruct nf as [bn f]. intros M Hl Hv. destruct (match_bits bn f e M) as (b & Hb & E & E2).
    exists b. split; [assumption|]. cbn [snd].
    unfold matches in M. rewrite !andb_true_iff in M. decompose [and] M. clear M.
    match goal with H : ftype_is _ _ = true |- _ => apply ftype_is_eq in H; rename H into Ht end.
    match goal with H : (f_mask f <? 256) = true |- _ => apply N.ltb_lt in H; rename H into Hm end.
    match goal with H : (f_mask f =? N.shiftl _ _) = true |- _ => apply N.eqb_eq in H; rename H into Em end.
    unfold field_value in Hv. unfold field_repr. rewrite Ht. destruct (kind_eqb (e_kind e) Flag) eqn:K.
    - assert (EK : e_kind e = Flag) by (destruct (e_kind e); [reflexivity|discriminate..]).
      rewrite EK in *. cbn [decode option_map fst] in Hv. injection Hv as <-. cbn [ftype_of].
      destruct (f_shift f); [discriminate|].
      match goal with H : (e_hi e =? e_lo e) = true |- _ => apply N.eqb_eq in H; pose proof (flag_bits e H) as Hlt; rename H into Hhl end.
      rewrite <- E2. destruct (N.eqb_spec (field_bits e raw) 1) as [->|E0].
      + rewrite Em. unfold width. rewrite Hhl, N.sub_diag. reflexivity.
      + replace (field_bits e raw) with 0 by lia. now rewrite N.shiftl_0_l.
    - assert (EK : e_kind e <> Flag) by (intros X; rewrite X in K; discriminate).
      destruct (decode (e_kind e) (field_bits e raw)) as [[v' s]|] eqn:D; [|discriminate]. cbn in Hv. injection Hv as <-.
      assert (L : N.land (f_mask f) b < 256).
      { destruct (N.eq_dec (N.land (f_mask f) b) 0) as [->|N0]; [lia|].
        assert (L2 : N.log2 (N.land (f_mask f) b) <= N.log2 (f_mask f)).
        { eapply N.le_trans; [apply N.log2_land|]. lia. }
        apply N.log2_lt_pow2 with (b := 8); [lia|]. eapply N.le_lt_trans; [exact L2|].
        destruct (N.eq_dec (f_mask f) 0) as [->|Nm]; [reflexivity|]. apply N.log2_lt_pow2; [lia|exact Hm]. }
      assert (Er : match f_shift f with Some k => N.shiftl (fval_to_u8 v') k mod 256 | None => fval_to_u8 v' end
                   = N.land (f_mask f) b).
      { rewrite (decode_code _ _ _ _ EK Hl D).
        destruct (f_shift f) as [k|].
        - assert (Ek : k = low e) by (destruct (e_kind e); try congruence; now apply N.eqb_eq).
          rewrite Ek, E2. now apply N.mod_small.
        - assert (Ek : low e = 0) by (destruct (e_kind e); try congruence; now apply N.eqb_eq).
          rewrite Ek in E2. now rewrite N.shiftl_0_r in E2. }
      destruct (ftype_of (e_kind e)) eqn:Tk; [destruct (e_kind e); try discriminate; congruence|..]; exact Er.
  Qed.

  Lemma match_ranges nf e v : matches count mask nf e = true -> field_value e raw = Some v ->
    field_ranges count (fst nf) (snd nf) v = field_shown count e raw.
  Proof.
    destruct nf as [bn f]. intros M Hv. cbn [fst snd].
    unfold matches in M. rewrite !andb_true_iff in M. decompose [and] M. clear M.
    match goal with H : ftype_is _ _ = true |- _ => apply ftype_is_eq in H; rename H into Ht end.
    match goal with H : sev_eqb _ _ = true |- _ => apply sev_eqb_eq in H; rename H into Hs end.
    match goal with H : text_ok _ _ = true |- _ => rename H into Htx end.
    repeat match goal with H : (field_offset _ _ _ =? _) = true |- _ => apply N.eqb_eq in H; rename H into Ho end.
    repeat match goal with H : (field_len _ =? _) = true |- _ => apply N.eqb_eq in H; rename H into Hw end.
    unfold field_ranges, field_shown. rewrite Ht, Hs, Ho, Hw. unfold field_value in Hv. unfold text_ok in Htx.
    destruct (kind_eqb (e_kind e) Flag) eqn:K.
    - assert (EK : e_kind e = Flag) by (destruct (e_kind e); [reflexivity|discriminate..]).
      rewrite EK in *. cbn [decode option_map fst] in Hv. injection Hv as <-. cbn [ftype_of].
      apply String.eqb_eq in Htx. rewrite Htx. destruct (field_bits e raw =? 1); reflexivity.
    - assert (EK : e_kind e <> Flag) by (intros X; rewrite X in K; discriminate).
      destruct (decode (e_kind e) (field_bits e raw)) as [[v' s]|] eqn:D; [|discriminate]. cbn in Hv. injection Hv as <-.
      assert (T : lit (f_text f) = lit (e_label e) ++ [123; 125] /\ forallb (fun c => negb (c =? 123)) (lit (e_label e)) = true).
      { destruct (e_kind e); try congruence; (apply andb_true_iff in Htx; destruct Htx as [T1 T2]; split; [now apply leqb_eq|assumption]). }
      destruct T as [T1 T2]. rewrite T1, format1_label by assumption. rewrite (decode_text _ _ _ _ EK D).
      destruct (e_kind e) eqn:Ek; try congruence; cbn [ftype_of]; rewrite D; reflexivity.
  Qed.
End Matching.

(** ** Ranges *)

Lemma block_ranges_app count n fs : forall vs1 rest, List.length vs1 = List.length fs ->
  block_ranges count n fs (vs1 ++ rest)
  = (flat_map (fun p => field_ranges count n (fst p) (snd p)) (combine fs vs1), rest).
Proof.
  induction fs as [|f fs IH]; intros [|v vs1] rest H; try discriminate; [destruct rest; reflexivity|].
  cbn [app block_ranges combine flat_map fst snd]. rewrite IH by (cbn in H; lia). reflexivity.
Qed.

Lemma combine_map_l {A B C} (f : A -> B) (l : list A) : forall (m : list C),
  combine (map f l) m = map (fun p => (f (fst p), snd p)) (combine l m).
Proof. induction l as [|a l IH]; intros [|b m]; cbn; [reflexivity..|]. now rewrite IH. Qed.

Lemma combine_app {A B} (a1 : list A) : forall (b1 : list B) a2 b2, List.length a1 = List.length b1 ->
  combine (a1 ++ a2) (b1 ++ b2) = combine a1 b1 ++ combine a2 b2.
Proof.
  induction a1 as [|x a1 IH]; intros [|y b1] a2 b2 H; try discriminate; [reflexivity|].
  cbn. rewrite IH by (cbn in H; lia). reflexivity.
Qed.

Lemma flat_map_map {A B C} (f : A -> B) (g : B -> list C) l : flat_map g (map f l) = flat_map (fun x => g (f x)) l.
Proof. induction l as [|a l IH]; cbn; [reflexivity|]. now rewrite IH. Qed.

Lemma blocks_ranges_flat count bs : forall vs, List.length vs = List.length (flat bs) ->
  blocks_ranges count bs vs
  = flat_map (fun p => field_ranges count (fst (fst p)) (snd (fst p)) (snd p)) (combine (flat bs) vs).
Proof.
  induction bs as [|[n fs] bs IH]; intros vs H; [reflexivity|].
  unfold flat in *. cbn [flat_map fst snd blocks_ranges] in *. fold (flat bs) in *.
  rewrite app_length, map_length in H.
  assert (E : vs = firstn (List.length fs) vs ++ skipn (List.length fs) vs) by (symmetry; apply firstn_skipn).
  assert (L1 : List.length (firstn (List.length fs) vs) = List.length fs) by (rewrite firstn_length; lia).
  assert (L2 : List.length (skipn (List.length fs) vs) = List.length (flat bs)) by (rewrite skipn_length; lia).
  set (v1 := firstn (List.length fs) vs) in *. set (v2 := skipn (List.length fs) vs) in *. clearbody v1 v2. subst vs.
  rewrite block_ranges_app by assumption. rewrite IH by assumption.
  rewrite combine_app by (rewrite map_length; lia). rewrite flat_map_app, combine_map_l, flat_map_map. reflexivity.
Qed.

Lemma decode_all_length t raw vs : decode_all t raw = Some vs -> List.length vs = List.length t.
Proof.
  revert vs. induction t as [|e t IH]; cbn [decode_all]; intros vs H; [injection H as <-; reflexivity|].
  destruct (field_value e raw); [|discriminate]. destruct (decode_all t raw); [|discriminate].
  injection H as <-. cbn. now rewrite IH.
Qed.

Lemma all_match_length count mask : forall fl t, all_match count mask fl t = true -> List.length fl = List.length t.
Proof.
  induction fl as [|nf fl IH]; intros [|e t] H; try discriminate; [reflexivity|].
  cbn in H. apply andb_true_iff in H. cbn. now rewrite (IH t).
Qed.

Lemma all_match_ranges count mask raw : forall fl t vs,
  all_match count mask fl t = true -> decode_all t raw = Some vs ->
  flat_map (fun p => field_ranges count (fst (fst p)) (snd (fst p)) (snd p)) (combine fl vs) = all_shown count t raw.
Proof.
  induction fl as [|nf fl IH]; intros [|e t] vs H D; try discriminate.
  { cbn in D. injection D as <-. reflexivity. }
  cbn [all_match] in H. apply andb_true_iff in H. destruct H as [H1 H2]. cbn [decode_all] in D.
  destruct (field_value e raw) as [v|] eqn:Ev; [|discriminate]. destruct (decode_all t raw) as [vs'|] eqn:Evs; [|discriminate].
  injection D as <-. cbn [combine flat_map fst snd]. unfold all_shown in *. cbn [flat_map].
  rewrite (IH t vs' H2 Evs). f_equal. now apply (match_ranges count mask raw).
Qed.

(** ** Serialising *)

Lemma block_repr_app raw mask fs n b : List.length mask = List.length raw -> index (keep_bits raw mask) n = Ok b ->
  forall t vs1 rest, len raw = len mask ->
  all_match (len raw) mask (map (pair n) fs) t = true -> forallb (fun e => lossless (e_kind e)) t = true ->
  decode_all t raw = Some vs1 ->
  block_repr fs (vs1 ++ rest) = (N.land b (fold_right (fun f acc => N.lor (f_mask f) acc) 0 fs), rest).
Proof.
  intros Hm Hb. induction fs as [|f fs IH]; intros [|e t] vs1 rest Hl H L D; try discriminate.
  { cbn in D. injection D as <-. cbn. rewrite N.land_0_r. destruct rest; reflexivity. }
  cbn [map all_match] in H. apply andb_true_iff in H. destruct H as [H1 H2]. cbn [forallb] in L. apply andb_true_iff in L.
  destruct L as [L1 L2]. cbn [decode_all] in D.
  destruct (field_value e raw) as [v|] eqn:Ev; [|discriminate]. destruct (decode_all t raw) as [vs'|] eqn:Evs; [|discriminate].
  injection D as <-. cbn [app block_repr fold_right]. rewrite (IH t vs' rest Hl H2 L2 Evs). f_equal.
  destruct (match_repr (len raw) mask raw eq_refl Hm (n, f) e v H1 L1 Ev) as (b' & Hb' & E). cbn [fst snd] in *.
  assert (b' = b) by congruence. subst b'. rewrite E, N.land_lor_distr_r, (N.land_comm (f_mask f) b). reflexivity.
Qed.

Lemma all_match_app count mask fl1 : forall fl2 t, all_match count mask (fl1 ++ fl2) t = true ->
  exists t1 t2, t = t1 ++ t2 /\ all_match count mask fl1 t1 = true /\ all_match count mask fl2 t2 = true.
Proof.
  induction fl1 as [|nf fl1 IH]; intros fl2 t H; [exists [], t; auto|].
  destruct t as [|e t]; [discriminate|]. cbn in H. apply andb_true_iff in H. destruct H as [H1 H2].
  destruct (IH fl2 t H2) as (t1 & t2 & -> & A1 & A2). exists (e :: t1), t2. cbn. rewrite H1, A1. auto.
Qed.

Lemma decode_all_app t1 t2 raw vs : decode_all (t1 ++ t2) raw = Some vs ->
  exists v1 v2, vs = v1 ++ v2 /\ decode_all t1 raw = Some v1 /\ decode_all t2 raw = Some v2.
Proof.
  revert vs. induction t1 as [|e t1 IH]; intros vs; cbn [app decode_all]; [intros H; exists [], vs; auto|].
  destruct (field_value e raw) as [v|]; [|discriminate]. destruct (decode_all (t1 ++ t2) raw) as [vs'|]; [|discriminate].
  intros H. injection H as <-. destruct (IH vs' eq_refl) as (v1 & v2 & -> & E1 & E2).
  exists (v :: v1), v2. rewrite E1. auto.
Qed.

Lemma blocks_repr_flat raw mask : List.length mask = List.length raw -> forall bs k t vs,
  numbered k bs = true -> (N.to_nat k + List.length bs <= List.length raw)%nat ->
  all_match (len raw) mask (flat bs) t = true -> forallb (fun e => lossless (e_kind e)) t = true ->
  decode_all t raw = Some vs ->
  blocks_repr bs vs
  = map (fun i => N.land (nth i (keep_bits raw mask) 0)
                         (nth (i - N.to_nat k) (map (fun b => fold_right (fun f acc => N.lor (f_mask f) acc) 0 (snd b)) bs) 0))
        (seq (N.to_nat k) (List.length bs)).
Proof.
  intros Hm. induction bs as [|[n fs] bs IH]; intros k t vs Hn Hk H L D; [reflexivity|].
  cbn [numbered fst] in Hn. apply andb_true_iff in Hn. destruct Hn as [E Hn]. apply N.eqb_eq in E. subst n.
  unfold flat in H. cbn [flat_map fst snd] in H. fold (flat bs) in H.
  destruct (all_match_app _ _ _ _ _ H) as (t1 & t2 & -> & A1 & A2).
  rewrite forallb_app in L. apply andb_true_iff in L. destruct L as [L1 L2].
  destruct (decode_all_app _ _ _ _ D) as (v1 & v2 & -> & D1 & D2).
  cbn [List.length] in Hk.
  assert (Hb : index (keep_bits raw mask) k = Ok (nth (N.to_nat k) (keep_bits raw mask) 0)).
  { unfold index. rewrite (nth_error_nth' _ 0); [reflexivity|]. rewrite keep_bits_length by assumption. lia. }
  cbn [blocks_repr]. rewrite (block_repr_app raw mask fs k _ Hm Hb t1 v1 v2); try assumption.
  2:{ unfold len. lia. }
  cbn [List.length seq map snd]. rewrite Nat.sub_diag. cbn [nth]. f_equal.
  rewrite (IH (k + 1) t2 v2); try assumption; [|lia].
  replace (N.to_nat (k + 1)) with (S (N.to_nat k)) by lia.
  apply map_ext_in. intros i Hi. apply in_seq in Hi. f_equal.
  replace (i - N.to_nat k)%nat with (S (i - S (N.to_nat k))) by lia. reflexivity.
Qed.

Lemma keep_bits_seq raw : forall mask, List.length mask = List.length raw ->
  keep_bits raw mask = map (fun i => N.land (nth i raw 0) (nth i mask 0)) (seq 0 (List.length raw)).
Proof.
  induction raw as [|b raw IH]; intros [|m mask] H; try discriminate; [reflexivity|].
  cbn [keep_bits List.length seq map nth]. f_equal. rewrite IH by (cbn in H; lia). rewrite <- seq_shift, map_map. reflexivity.
Qed.

(** ** Order *)

Lemma descending_shown n t raw : forall limit, descending_table n limit t = true -> left_to_right limit (all_shown n t raw).
Proof.
  assert (W : forall l a b, a <= b -> left_to_right a l -> left_to_right b l).
  { intros [|r l] a b Hab; [trivial|]. cbn. intros (H1 & H2 & H3 & H4). repeat split; try assumption. lia. }
  induction t as [|e t IH]; intros limit H; [exact I|].
  cbn [descending_table] in H. rewrite !andb_true_iff in H. destruct H as [[[H1 H2] H3] H4].
  apply N.ltb_lt in H1. apply N.leb_le in H2, H3. specialize (IH _ H4).
  assert (C : forall s sev, left_to_right limit (mkRange (8 * (n - e_byte e) + (e_hi e - 1)) (width e) s sev :: all_shown n t raw)).
  { intros s sev. cbn. repeat split; assumption. }
  assert (S : left_to_right limit (all_shown n t raw)).
  { eapply W; [|exact IH]. lia. }
  unfold all_shown in *. cbn [flat_map]. unfold field_shown at 1.
  destruct (e_kind e); [destruct (field_bits e raw =? 1); [apply C|exact S]|..];
    (destruct (decode _ (field_bits e raw)) as [[v s]|]; [apply C|exact S]).
Qed.

(** ** Whole values *)

Section Values.
  Variables (sch : schema) (t : list bit_field) (mask : list N).
  Hypothesis M : schema_matches sch t mask = true.

  Lemma sm_parts : used_bits_mask sch = mask /\ len mask = s_count sch /\ numbered 0 (s_blocks sch) = true
    /\ all_match (s_count sch) mask (flat (s_blocks sch)) t = true /\ distinct_names (map e_name t) = true
    /\ descending_table (s_count sch) (8 * s_count sch) t = true /\ Forall is_byte mask.
  Proof.
    unfold schema_matches in M. rewrite !andb_true_iff in M. decompose [and] M.
    repeat split; try assumption; try (now apply leqb_eq); try (now apply N.eqb_eq).
    apply Forall_forall. intros x Hx. unfold is_byte. apply N.ltb_lt.
    match goal with H : forallb _ mask = true |- _ => rewrite forallb_forall in H; now apply H end.
  Qed.

  Lemma sm_length (raw : list N) : len raw = s_count sch -> List.length mask = List.length raw.
  Proof. intros H. destruct sm_parts as (_ & E & _). unfold len in *. lia. Qed.

  Theorem bf_parse (raw : list N) : bf_try_from sch raw =
    if len raw =? s_count sch
    then match decode_all t raw with Some vs => Ok vs | None => Err NonCcdCompliant end
    else Err (ByteCountIncorrect Eq (s_count sch) (len raw)).
  Proof.
    destruct sm_parts as (P1 & P2 & P3 & P4 & _). unfold bf_try_from.
    destruct (N.eqb_spec (len raw) (s_count sch)) as [E|E]; cbn [negb]; [|reflexivity].
    rewrite P1, mask_bytes_keep by now apply sm_length. cbn [bind]. rewrite parse_blocks_mapM.
    apply (all_match_parse (s_count sch) mask raw E (sm_length raw E) _ _ P4).
  Qed.

  Theorem bf_parse_ok raw v : bf_try_from sch raw = Ok v <-> len raw = s_count sch /\ decode_all t raw = Some v.
  Proof.
    rewrite bf_parse. destruct (N.eqb_spec (len raw) (s_count sch)) as [E|E].
    - destruct (decode_all t raw) as [vs|]; split.
      + intros H. injection H as <-. auto.
      + intros [_ H]. injection H as <-. reflexivity.
      + discriminate.
      + intros [_ H]. discriminate.
    - split; [discriminate|]. tauto.
  Qed.

  Theorem bf_parse_masked raw : len raw = s_count sch -> bf_try_from sch (keep_bits raw mask) = bf_try_from sch raw.
  Proof.
    intros E. pose proof (sm_length raw E) as L. destruct sm_parts as (P1 & P2 & _). unfold bf_try_from.
    assert (E' : len (keep_bits raw mask) = s_count sch) by (unfold len; rewrite keep_bits_length by assumption; exact E).
    rewrite E, E', N.eqb_refl. cbn [negb]. rewrite P1, !mask_bytes_keep; [|now rewrite L|rewrite keep_bits_length; assumption].
    now rewrite keep_bits_idem.
  Qed.

  Theorem bf_ranges_shown raw v : bf_try_from sch raw = Ok v -> bf_ranges sch v = all_shown (s_count sch) t raw.
  Proof.
    intros H. apply bf_parse_ok in H. destruct H as [E D]. destruct sm_parts as (_ & _ & _ & P4 & _).
    unfold bf_ranges. rewrite blocks_ranges_flat.
    - now apply (all_match_ranges (s_count sch) mask raw).
    - rewrite (decode_all_length _ _ _ D). symmetry. now apply (all_match_length (s_count sch) mask).
  Qed.

  Theorem bf_ranges_ordered raw v : bf_try_from sch raw = Ok v -> left_to_right (8 * s_count sch) (bf_ranges sch v).
  Proof.
    intros H. rewrite (bf_ranges_shown raw v H). destruct sm_parts as (_ & _ & _ & _ & _ & P & _). now apply descending_shown.
  Qed.

  Theorem bf_repr_keep raw v : forallb (fun e => lossless (e_kind e)) t = true ->
    bf_try_from sch raw = Ok v -> bf_repr sch v = keep_bits raw mask.
  Proof.
    intros L H. apply bf_parse_ok in H. destruct H as [E D]. pose proof (sm_length raw E) as Lm.
    destruct sm_parts as (P1 & P2 & P3 & P4 & _).
    assert (Lb : List.length (s_blocks sch) = List.length raw).
    { rewrite <- Lm, <- P1. unfold used_bits_mask. now rewrite map_length. }
    unfold bf_repr. rewrite (blocks_repr_flat raw mask Lm (s_blocks sch) 0 t v); try assumption.
    - transitivity (keep_bits (keep_bits raw mask) mask); [|apply keep_bits_idem].
      rewrite (keep_bits_seq (keep_bits raw mask) mask) by (rewrite keep_bits_length; assumption).
      rewrite Lb, (keep_bits_length raw mask) by assumption. apply map_ext. intros i. rewrite Nat.sub_0_r.
      fold (used_bits_mask sch). now rewrite P1.
    - cbn. lia.
    - now rewrite E.
  Qed.

  Lemma get_field_value raw v e : bf_try_from sch raw = Ok v -> In e t ->
    get_field sch v (e_name e) = field_value e raw.
  Proof.
    intros H Hin. apply bf_parse_ok in H. destruct H as [E D]. destruct sm_parts as (_ & _ & _ & P4 & P5 & _).
    unfold get_field, schema_fields.
    assert (Ef : flat_map snd (s_blocks sch) = map snd (flat (s_blocks sch))).
    { unfold flat. clear. induction (s_blocks sch) as [|[n fs] bs IH]; cbn; [reflexivity|].
      rewrite IH, map_app, map_map. cbn. now rewrite map_id. }
    rewrite Ef. clear Ef. revert P4 v D. generalize (flat (s_blocks sch)). clear M.
    induction t as [|e0 t0 IH]; [destruct Hin|]. intros [|nf fl] P4; [discriminate|]. intros v D.
    cbn [all_match] in P4. apply andb_true_iff in P4. destruct P4 as [M1 M2].
    cbn [map distinct_names] in P5. apply andb_true_iff in P5. destruct P5 as [N1 N2].
    cbn [decode_all] in D. destruct (field_value e0 raw) as [v0|] eqn:E0; [|discriminate].
    destruct (decode_all t0 raw) as [vs|] eqn:Es; [|discriminate]. injection D as <-.
    cbn [map lookup_field]. destruct nf as [bn f]. cbn [snd].
    assert (Nf : f_name f = e_name e0).
    { unfold matches in M1. rewrite !andb_true_iff in M1. decompose [and] M1. now apply String.eqb_eq. }
    rewrite Nf. destruct Hin as [->|Hin].
    - now rewrite String.eqb_refl, E0.
    - assert (Hne : e_name e0 <> e_name e).
      { intros X. apply negb_true_iff in N1. rewrite <- not_true_iff_false in N1. apply N1, existsb_exists.
        exists (e_name e). split; [now apply in_map|]. now apply String.eqb_eq. }
      apply String.eqb_neq in Hne. rewrite Hne. now apply IH.
  Qed.

  Lemma field_names : map f_name (schema_fields sch) = map e_name t.
  Proof.
    destruct sm_parts as (_ & _ & _ & P4 & _). unfold schema_fields.
    assert (Ef : flat_map snd (s_blocks sch) = map snd (flat (s_blocks sch))).
    { unfold flat. clear. induction (s_blocks sch) as [|[n fs] bs IH]; cbn; [reflexivity|].
      rewrite IH, map_app, map_map. cbn. now rewrite map_id. }
    rewrite Ef. clear Ef. revert P4. generalize (flat (s_blocks sch)). clear M.
    induction t as [|e0 t0 IH]; intros [|[bn f] fl] P4; try discriminate; [reflexivity|].
    cbn [all_match] in P4. apply andb_true_iff in P4. destruct P4 as [M1 M2]. cbn [map snd]. rewrite IH by assumption. f_equal.
    unfold matches in M1. rewrite !andb_true_iff in M1. decompose [and] M1. now apply String.eqb_eq.
  Qed.
End Values.

Lemma tvr_matches : schema_matches tvr_schema tvr_bits tvr_used = true.
Proof. vm_compute. reflexivity. Qed.
Lemma tsi_matches : schema_matches tsi_schema tsi_bits tsi_used = true.
Proof. vm_compute. reflexivity. Qed.
Lemma termcap_matches : schema_matches termcap_schema termcap_bits termcap_used = true.
Proof. vm_compute. reflexivity. Qed.
Lemma addtermcap_matches : schema_matches addtermcap_schema addtermcap_bits addtermcap_used = true.
Proof. vm_compute. reflexivity. Qed.
Lemma cvr_matches : schema_matches cvr_schema cvr_bits cvr_used = true.
Proof. vm_compute. reflexivity. Qed.
Lemma cci_matches : schema_matches cci_schema cci_bits cci_used = true.
Proof. vm_compute. reflexivity. Qed.
Lemma cv_rule_matches : schema_matches cv_rule_schema cv_rule_bits cv_rule_used = true.
Proof. vm_compute. reflexivity. Qed.
