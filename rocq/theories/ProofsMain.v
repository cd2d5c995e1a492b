(** Proofs about the program as a whole. *)

From Coq Require Import ZArith NArith List String Ascii Bool Lia ZifyN ZifyBool ZifyNat Permutation.
From Verif Require Import Base ModelUtil ModelEnums ModelBitflag ModelSchemas ModelTags ModelTlv ModelValues ModelProcess ModelDisplay
  SpecUtil SpecCodes SpecValues SpecTlv SpecIngenico SpecTags SpecProcess SpecDisplay
  ProofsUtil ProofsBer ProofsGrammar ProofsIngenico ProofsValues PropertiesValues
  PropertiesBer PropertiesIngenico ProofsProcess PropertiesProcess ProofsDisplay ProofsDiagram ProofsScreens ProofsLayout PropertiesDisplay ModelMain SpecMain.
Import ListNotations.
Local Open Scope N_scope.

(** ** One operation *)

(* What main does for one operation. *)
Definition value_result (op : operation) (s : str) : option (res value) :=
  match op with
  | OpTvr => Some (rmap ValTvr (tvr_try_from (parse_hex_str s)))
  | OpIad => Some (rmap ValIad (iad_try_from (parse_hex_str s)))
  | OpCvr => Some (rmap ValCvr (cvr_try_from (parse_hex_str s)))
  | OpTsi => Some (rmap ValTsi (tsi_try_from (parse_hex_str s)))
  | OpCvmResults => Some (rmap ValCvmResults (cvm_results_try_from (parse_hex_str s)))
  | OpCvmList => Some (rmap ValCvmList (cvm_list_try_from (parse_hex_str s)))
  | OpIdentify => Some (rmap ValTagInfo (tag_info_try_from (parse_hex_str s)))
  | OpServiceCode => Some (n <- parse_str_to_u16 s;; rmap ValServiceCode (service_code_try_from_u16 n))
  | _ => None
  end.
Definition tlv_result (p : platform) (masks : list N) (op : operation) (s : str) : option (res (option tlv_format * list raw_node)) :=
  match op with
  | OpAuto => Some (rmap (fun fb => (Some (fst fb), snd fb)) (auto_parse p masks s))
  | OpBer => Some (rmap (pair None) (ber_parse p masks (parse_hex_str s)))
  | OpIngenico => Some (rmap (pair None) (ingenico_parse p masks s))
  | _ => None
  end.
Definition header (f : option tlv_format) : disp := match f with None => dnil | Some f => auto_header f end.
Definition run_one (p : platform) (st : settings) (op : operation) (s : str) : outcome :=
  match value_result op s with
  | Some r => run_op r (show_value p)
  | None =>
      match tlv_result p (set_masking st) op s with
      | Some r => run_op (fb <- r;; b <- process_block (snd fb);; Ok (fst fb, b))
                         (fun fb => header (fst fb) >>> show_block p (set_sort st) (snd fb))
      | None => out_help
      end
  end.

Lemma main_chosen p e m st op s : load_settings e m = Ok st -> chosen m op s -> run_main p e m = run_one p st op s.
Proof.
  intros L (G & before & after & E & F).
  assert (N : forall o, In o before -> given m o = None) by (now apply Forall_forall).
  assert (B : before = firstn (List.length before) all_operations) by (rewrite E, firstn_app, Nat.sub_diag, firstn_all; cbn; now rewrite app_nil_r).
  assert (O : nth_error all_operations (List.length before) = Some op) by (rewrite E, nth_error_app2, Nat.sub_diag by lia; reflexivity).
  unfold run_main. rewrite L. clear E F. revert B O N. generalize (List.length before). intros k B O N. subst before.
  do 11 (destruct k as [|k]; [cbn in O; injection O as <-; cbn [given] in G; rewrite ?G;
    repeat match goal with
           | |- context [match m_tvr m with _ => _ end] => first [rewrite (N OpTvr ltac:(cbn; tauto) : m_tvr m = None)|fail 1]
           | |- context [match m_ccd_iad m with _ => _ end] => rewrite (N OpIad ltac:(cbn; tauto) : m_ccd_iad m = None)
           | |- context [match m_ccd_cvr m with _ => _ end] => rewrite (N OpCvr ltac:(cbn; tauto) : m_ccd_cvr m = None)
           | |- context [match m_tsi m with _ => _ end] => rewrite (N OpTsi ltac:(cbn; tauto) : m_tsi m = None)
           | |- context [match m_cvm_results m with _ => _ end] => rewrite (N OpCvmResults ltac:(cbn; tauto) : m_cvm_results m = None)
           | |- context [match m_cvm_list m with _ => _ end] => rewrite (N OpCvmList ltac:(cbn; tauto) : m_cvm_list m = None)
           | |- context [match m_identify m with _ => _ end] => rewrite (N OpIdentify ltac:(cbn; tauto) : m_identify m = None)
           | |- context [match m_auto_tlv m with _ => _ end] => rewrite (N OpAuto ltac:(cbn; tauto) : m_auto_tlv m = None)
           | |- context [match m_ber_tlv m with _ => _ end] => rewrite (N OpBer ltac:(cbn; tauto) : m_ber_tlv m = None)
           | |- context [match m_ingenico_tlv m with _ => _ end] => rewrite (N OpIngenico ltac:(cbn; tauto) : m_ingenico_tlv m = None)
           end; first [reflexivity|unfold run_one, tlv_result, value_result;
             match goal with
             | |- context [auto_parse ?p ?k ?s] => destruct (auto_parse p k s) as [[? b]| | |]
             | |- context [ber_parse ?p ?k ?s] => destruct (ber_parse p k s) as [b| | |]
             | |- context [ingenico_parse ?p ?k ?s] => destruct (ingenico_parse p k s) as [b| | |]
             end; cbn [rmap bind fst snd]; try reflexivity; destruct (process_block b); cbn [bind]; reflexivity]|]).
  cbn in O. destruct k; discriminate.
Qed.

(** ** Single values *)

Lemma hex_bytes_eq s : hex_bytes s = parse_hex_str s.
Proof. symmetry. apply parse_hex_str_spec. Qed.
Lemma hex_bytes_ok s : bytes_ok (hex_bytes s).
Proof. rewrite hex_bytes_eq. apply parse_hex_str_bytes. Qed.

Definition settles_as (masks : list N) (op : operation) (s : str) (r : res value) : Prop :=
  (forall v, r = Ok v <-> meaning op s v) /\ (forall e, r = Err e <-> refused masks op s e)
  /\ r <> Panic /\ r <> NoFuel /\ (forall v, r = Ok v -> parsed_value v).

Lemma settles_exact masks op s t f :
  (forall v, meaning op s v <-> value_of t (hex_bytes s) v) -> (forall e, refused masks op s e <-> rejected t (hex_bytes s) e) ->
  exact t f (fun _ => false) -> (forall v, f (parse_hex_str s) = Ok v -> parsed_value v) ->
  settles_as masks op s (f (parse_hex_str s)).
Proof.
  intros M R X P. destruct (X _ (hex_bytes_ok s)) as (X1 & X2 & X3 & X4 & _). rewrite hex_bytes_eq in *. repeat split; auto.
  - intros H. now apply M, X1.
  - intros H. now apply X1, M.
  - intros H. now apply R, X2.
  - intros H. now apply X2, R.
Qed.

Ltac no_tag := match goal with H : tlv_block _ _ _ _ _ |- _ => inversion H end.
Ltac ref_iff := intros e; split; [intros H; inversion H; subst; [assumption|no_tag]|intros H; constructor; exact H].
Ltac mean_iff := intros v; split; [intros H; inversion H; subst; assumption|intros H; constructor; exact H].
Ltac from_parse c := intros v H; apply rmap_ok in H; destruct H as (x & H & ->); exact (c _ x (parse_hex_str_bytes _) H).

Lemma all_service_codes n : n <= 999 -> exists sc, service_code_try_from_u16 n = Ok sc.
Proof.
  intros H. assert (T : forallb (fun k => match service_code_try_from_u16 (N.of_nat k) with Ok _ => true | _ => false end) (seq 0 1000) = true) by (vm_compute; reflexivity).
  rewrite forallb_forall in T. specialize (T (N.to_nat n)). rewrite N2Nat.id in T.
  destruct (service_code_try_from_u16 n) as [sc| | |]; [now exists sc| | |]; (assert (X : false = true) by (apply T, in_seq; lia); discriminate X).
Qed.

Lemma value_settles masks op s r : value_result op s = Some r -> settles_as masks op s r.
Proof.
  destruct op; try discriminate; cbn [value_result]; intros E; injection E as <-.
  - apply (settles_exact masks OpTvr s [0x95] (fun d => rmap ValTvr (tvr_try_from d))); [mean_iff|ref_iff|exact exact_95|from_parse parsed_tvr].
  - pose proof (hex_bytes_ok s) as Hb. destruct (exact_9F10 _ Hb) as (X1 & _ & _). cbn beta in X1. rewrite hex_bytes_eq in *.
    destruct (C49_iad_otherwise_non_ccd _ Hb) as [[v V]|V].
    + assert (L : exists cci dki cvr counters dd, iad_layout (parse_hex_str s) cci dki cvr counters dd /\ (cci = 0xA5 \/ cci = 0xA6)) by (apply C49_iad_accepted_iff; eauto).
      rewrite V in *. split; [|split; [|split; [discriminate|split; [discriminate|]]]].
      * intros w. rewrite X1. split; [intros H; constructor; now rewrite hex_bytes_eq|intros H; inversion H; subst; now rewrite <- hex_bytes_eq].
      * intros e. split; [discriminate|]. intros H; inversion H; subst; [|no_tag]. exfalso. rewrite hex_bytes_eq in *. auto.
      * intros w H. injection H as <-. eapply parsed_iad; eassumption.
    + assert (L : ~ exists cci dki cvr counters dd, iad_layout (parse_hex_str s) cci dki cvr counters dd /\ (cci = 0xA5 \/ cci = 0xA6)).
      { intros L. apply C49_iad_accepted_iff in L; [|assumption]. destruct L. congruence. }
      rewrite V in *. split; [|split; [|split; [discriminate|split; [discriminate|discriminate]]]].
      * intros w. rewrite X1. split; [intros H; constructor; now rewrite hex_bytes_eq|intros H; inversion H; subst; now rewrite <- hex_bytes_eq].
      * intros e. split; [intros H; injection H as <-; constructor; now rewrite hex_bytes_eq|]. intros H; inversion H; subst; [reflexivity|no_tag].
  - assert (In5 : In (cvr_try_from, cvr_schema, 5, cvr_bits, cvr_used) all_bit_values) by (right; right; right; right; right; right; right; left; reflexivity).
    destruct (all_bit_values_ok _ _ _ _ _ In5) as (E & En & M).
    assert (Ok' : forall w, cvr_try_from (parse_hex_str s) = Ok w <-> bits_value 5 cvr_bits (parse_hex_str s) w).
    { intros w. rewrite E. rewrite (bf_parse_ok cvr_schema cvr_bits cvr_used M). unfold bits_value. now rewrite En. }
    pose proof (C40_wrong_length _ _ _ _ _ (parse_hex_str s) In5) as Wl.
    pose proof (C40_right_length_accepted _ _ _ _ _ (parse_hex_str s) In5 ltac:(discriminate)) as Rl.
    split; [|split; [|split; [|split]]].
    + intros v. rewrite rmap_ok. split.
      * intros (w & H & ->). constructor. rewrite hex_bytes_eq. now apply Ok'.
      * intros H. inversion H; subst. rewrite hex_bytes_eq in *. exists v0. split; [now apply Ok'|reflexivity].
    + intros e. rewrite rmap_err. split.
      * intros H. destruct (N.eq_dec (len (parse_hex_str s)) 5) as [L|L]; [destruct (Rl L); congruence|].
        apply Wl in L as L'. rewrite H in L'. injection L' as ->. rewrite <- hex_bytes_eq in *. now constructor.
      * intros H. inversion H; subst; [|no_tag]. rewrite hex_bytes_eq in *. now apply Wl.
    + rewrite (proj1 (rmap_panic _ _)). intros H. destruct (N.eq_dec (len (parse_hex_str s)) 5) as [L|L]; [destruct (Rl L); congruence|apply Wl in L; congruence].
    + rewrite (proj2 (rmap_panic _ _)). intros H. destruct (N.eq_dec (len (parse_hex_str s)) 5) as [L|L]; [destruct (Rl L); congruence|apply Wl in L; congruence].
    + from_parse parsed_cvr.
  - apply (settles_exact masks OpTsi s [0x9B] (fun d => rmap ValTsi (tsi_try_from d))); [mean_iff|ref_iff|exact exact_9B|from_parse parsed_tsi].
  - apply (settles_exact masks OpCvmResults s [0x9F; 0x34] (fun d => rmap ValCvmResults (cvm_results_try_from d))); [mean_iff|ref_iff|exact exact_9F34|from_parse parsed_cvm_results].
  - apply (settles_exact masks OpCvmList s [0x8E] (fun d => rmap ValCvmList (cvm_list_try_from d))); [mean_iff|ref_iff|exact exact_8E|from_parse parsed_cvm_list].
  - pose proof (hex_bytes_ok s) as Hb. pose proof (hex_bytes_eq s) as He. destruct (hex_bytes s) as [|b t] eqn:Eh.
    + rewrite <- He. rewrite C39_tag_info_empty. cbn [rmap]. split; [|split; [|split; [discriminate|split; [discriminate|discriminate]]]].
      * intros v. split; [discriminate|]. intros H. inversion H. congruence.
      * intros e. split; [intros H; injection H as <-; now constructor|]. intros H. inversion H; subst; [reflexivity|no_tag].
    + rewrite <- He. destruct (C39_tag_info b t Hb) as (i & I0 & I1 & I2 & I3 & I4). rewrite I0. cbn [rmap].
      split; [|split; [|split; [discriminate|split; [discriminate|]]]].
      * intros v. split; [intros H; injection H as <-; now apply (meaning_identify s b t)|]. intros H. inversion H as [| | | | | |s' b' t' i' J0 J1 J2 J3 J4|]; subst.
        rewrite Eh in J0. injection J0 as <- <-. do 2 f_equal. destruct i as [a1 a2 a3 a4], i' as [c1 c2 c3 c4]. cbn in *. subst. f_equal.
        destruct a2 as [x|], c2 as [y|]; [|exfalso|exfalso|reflexivity].
        -- assert (K : Some x = Some y) by (apply I4; now apply J4). congruence.
        -- assert (K : None = Some x) by (apply J4; now apply I4). discriminate.
        -- assert (K : None = Some y) by (apply I4; now apply J4). discriminate.
      * intros e. split; [discriminate|]. intros H. inversion H; subst; [congruence|no_tag].
      * intros v H. injection H as <-. exact (parsed_tag_info _ i Hb I0).
  - assert (S : forall n, n <= 999 -> forall sc, service_code_try_from_u16 n = Ok sc <-> service_code_of n (n / 100) (n / 10 mod 10) (n mod 10) sc).
    { intros n Hn sc. apply service_code_of_iff; lia. }
    assert (U : forall n n', denotes_number s n -> denotes_number s n' -> n < 65536 -> n' < 65536 -> n = n').
    { intros n n' H1 H2 L1 L2. pose proof (proj2 (parse_str_to_u16_spec s n) (conj H1 L1)). pose proof (proj2 (parse_str_to_u16_spec s n') (conj H2 L2)). congruence. }
    destruct (parse_str_to_u16_total s) as [[n E]|E]; rewrite E; cbn [bind].
    + apply parse_str_to_u16_spec in E. destruct E as [D L]. destruct (N.le_gt_cases n 999) as [Hn|Hn].
      * destruct (all_service_codes n Hn) as [sc Sc]. rewrite Sc. cbn [rmap]. split; [|split; [|split; [discriminate|split; [discriminate|]]]].
        -- intros v. split; [intros H; injection H as <-; apply (meaning_service_code s n); try assumption; now apply S|].
           intros H. inversion H as [| | | | | | |s' n' sc' D' L' C']; subst. assert (n = n') by (apply U; [assumption|assumption|lia|lia]). subst n'.
           apply S in C'; [|assumption]; rewrite Sc in C'; injection C' as ->; reflexivity.
        -- intros e. split; [discriminate|]. intros H. inversion H as [| | | | | | |s' F'| | | | | |]; subst; [|no_tag]. specialize (F' n D). lia.
        -- intros v H. injection H as <-. exact (parsed_service_code n sc Sc).
      * rewrite (C51_service_code_rejected n Hn). cbn [rmap]. split; [|split; [|split; [discriminate|split; [discriminate|discriminate]]]].
        -- intros v. split; [discriminate|]. intros H. inversion H as [| | | | | | |s' n' sc' D' L' C']; subst. assert (n = n') by (apply U; [assumption|assumption|lia|lia]). lia.
        -- intros e. split; [intros H; injection H as <-; constructor|].
           ++ intros n' D'. destruct (N.le_gt_cases n' 999) as [Hn'|Hn']; [|assumption]. assert (n = n') by (apply U; [assumption|assumption|lia|lia]). lia.
           ++ intros H. inversion H; subst; [reflexivity|no_tag].
    + split; [|split; [|split; [discriminate|split; [discriminate|discriminate]]]].
      * intros v. split; [discriminate|]. intros H. inversion H as [| | | | | | |s' n' sc' D' L' C']; subst.
        assert (X : parse_str_to_u16 s = Ok n') by (apply parse_str_to_u16_spec; split; [assumption|lia]). congruence.
      * intros e. split; [intros H; injection H as <-; constructor|].
        -- intros n' D'. destruct (N.le_gt_cases n' 999) as [Hn'|Hn']; [|assumption]. assert (X : parse_str_to_u16 s = Ok n') by (apply parse_str_to_u16_spec; split; [assumption|lia]). congruence.
        -- intros H. inversion H; subst; [reflexivity|no_tag].
Qed.

(** ** Blocks *)

Lemma ber_block_iff p masks s ns : text64 p s -> (ber_parse p masks (parse_hex_str s) = Ok ns <-> ber_block masks s ns).
Proof. intros H. unfold ber_block. rewrite hex_bytes_eq. apply C11_ber_grammar. now apply hex_input64. Qed.
Lemma ingenico_block_iff p masks s ns : text64 p s -> (ingenico_parse p masks s = Ok ns <-> ingenico_block masks s ns).
Proof. apply C24_ingenico_grammar. Qed.

Definition first_failing (ns : list raw_node) (e : parse_error) : Prop :=
  exists before t after, flat_map preorder ns = before ++ t :: after /\ (forall x e', In x before -> ~ tag_fails x e') /\ tag_fails t e.

Lemma tlv_settles p masks op s r : text64 p s -> tlv_result p masks op s = Some r ->
  (forall f ns, r = Ok (f, ns) <-> tlv_block masks op s f ns)
  /\ (forall e, r = Err e -> refused masks op s e)
  /\ (forall e, refused masks op s e -> r = Err e \/ exists f ns, r = Ok (f, ns) /\ first_failing ns e)
  /\ r <> Panic /\ r <> NoFuel /\ (forall f ns, r = Ok (f, ns) -> forest_ok ns).
Proof.
  intros T. pose proof (ber_block_iff p masks s) as B. pose proof (ingenico_block_iff p masks s) as I.
  destruct op; try discriminate; cbn [tlv_result]; intros E; injection E as <-.
  - assert (X : forall f ns, rmap (fun fb : tlv_format * list raw_node => (Some (fst fb), snd fb)) (auto_parse p masks s) = Ok (f, ns) <-> tlv_block masks OpAuto s f ns).
    { intros f ns. rewrite rmap_ok. split.
      - intros ([f' ns'] & H & K). injection K as -> ->. cbn [fst snd]. destruct f'.
        + apply C31_auto_ber in H. destruct H as (Hs & (e & He) & H). constructor; [assumption| |now apply B].
          intros n' Hn'. apply I in Hn'; [|assumption]. congruence.
        + apply C31_auto_ingenico in H. destruct H as (Hs & H). constructor; [assumption|now apply I].
      - intros H. inversion H; subst.
        + exists (Ingenico, ns). split; [|reflexivity]. apply C31_auto_ingenico. split; [assumption|now apply I].
        + exists (BerTlv, ns). split; [|reflexivity]. apply C31_auto_ber. split; [assumption|]. split; [|now apply B].
          destruct (C23_ingenico_settles p masks s T) as [[n Hn]|?]; [|assumption]. apply I in Hn; [|assumption]. now apply H1 in Hn. }
    split; [exact X|]. split; [|split; [|split; [|split]]].
    + intros e. rewrite rmap_err. intros H. assert (e = Unrecognised) as ->.
      { destruct (C31_auto_settles p masks s T) as [(f & ns & K)|K]; rewrite K in H; [discriminate|now injection H]. }
      apply refused_auto. destruct s as [|c s]; [now left|]. assert (Hcs : c :: s <> []) by discriminate. right. split; intros ns Hn.
      * apply I in Hn; [|assumption]. pose proof (proj2 (C31_auto_ingenico p masks (c :: s) ns) (conj Hcs Hn)). congruence.
      * destruct (C23_ingenico_settles p masks (c :: s) T) as [[n Hi]|Hi].
        -- pose proof (proj2 (C31_auto_ingenico p masks (c :: s) n) (conj Hcs Hi)). congruence.
        -- apply B in Hn; [|assumption]. pose proof (proj2 (C31_auto_ber p masks (c :: s) ns) (conj Hcs (conj Hi Hn))). congruence.
    + intros e H. inversion H as [| | | | | | | | | | | |s' R|op' s' f ns b t a e' K1 K2 K3 K4]; subst.
      * left. apply rmap_err. destruct (C31_auto_settles p masks s T) as [(f & ns & K)|K]; [|assumption]. exfalso.
        assert (Y : tlv_block masks OpAuto s (Some f) ns) by (apply X; now rewrite K).
        inversion Y; subst; destruct R as [->|[R1 R2]]; try contradiction; [now apply (R1 ns)|now apply (R2 ns)].
      * right. exists f, ns. split; [now apply X|]. exists b, t, a. auto.
    + rewrite (proj1 (rmap_panic _ _)). destruct (C31_auto_settles p masks s T) as [(f & ns & K)|K]; congruence.
    + rewrite (proj2 (rmap_panic _ _)). destruct (C31_auto_settles p masks s T) as [(f & ns & K)|K]; congruence.
    + intros f ns H. apply X in H. inversion H as [| |s' n' H1 H2|s' n' H1 H2 H3]; subst.
      * apply I in H2; [|assumption]. exact (C34_parsed_ingenico_ok p masks s ns T H2).
      * apply B in H3; [|assumption]. exact (C34_parsed_ber_ok p masks _ ns (hex_input64 p s T) H3).
  - assert (X : forall f ns, rmap (pair None) (ber_parse p masks (parse_hex_str s)) = Ok (f, ns) <-> tlv_block masks OpBer s f ns).
    { intros f ns. rewrite rmap_ok. split.
      - intros (n' & H & K). injection K as -> ->. constructor. now apply B.
      - intros H. inversion H; subst. exists ns. split; [now apply B|reflexivity]. }
    pose proof (C16_ber_unsupported p masks _ (hex_input64 p s T)) as U. rewrite <- hex_bytes_eq in U. fold (ber_too_long s) in U. rewrite hex_bytes_eq in U.
    pose proof (C09_ber_parse_settles p masks _ (hex_input64 p s T)) as S.
    split; [exact X|]. split; [|split; [|split; [|split]]].
    + intros e. rewrite rmap_err. intros H. destruct (C16_ber_error_kinds p masks _ e (hex_input64 p s T) H) as [-> | ->].
      * apply refused_ber_unsupported. now apply U.
      * apply refused_ber; [intros ns Hn; apply B in Hn; [congruence|assumption]|]. intros K. apply U in K. congruence.
    + intros e H. inversion H as [| | | | | | | |s' R|s' R1 R2| | | |op' s' f ns b t a e' K1 K2 K3 K4]; subst.
      * left. apply rmap_err. now apply U.
      * left. apply rmap_err. destruct S as [[ns K]|[e K]]; [apply B in K; [now apply R1 in K|assumption]|].
        destruct (C16_ber_error_kinds p masks _ e (hex_input64 p s T) K) as [-> | ->]; [apply U in K; contradiction|assumption].
      * right. exists f, ns. split; [now apply X|]. exists b, t, a. auto.
    + rewrite (proj1 (rmap_panic _ _)). destruct S as [[ns K]|[e K]]; congruence.
    + rewrite (proj2 (rmap_panic _ _)). destruct S as [[ns K]|[e K]]; congruence.
    + intros f ns H. apply X in H. inversion H as [s' n' H1| | |]; subst. apply B in H1; [|assumption]. exact (C34_parsed_ber_ok p masks _ ns (hex_input64 p s T) H1).
  - assert (X : forall f ns, rmap (pair None) (ingenico_parse p masks s) = Ok (f, ns) <-> tlv_block masks OpIngenico s f ns).
    { intros f ns. rewrite rmap_ok. split.
      - intros (n' & H & K). injection K as -> ->. constructor. now apply I.
      - intros H. inversion H; subst. exists ns. split; [now apply I|reflexivity]. }
    pose proof (C24_ingenico_unsupported p masks s T) as U. fold (ingenico_too_long masks s) in U.
    pose proof (C23_ingenico_settles p masks s T) as S.
    split; [exact X|]. split; [|split; [|split; [|split]]].
    + intros e. rewrite rmap_err. intros H. destruct (C24_ingenico_error_kinds p masks s e T H) as [-> | ->].
      * apply refused_ingenico; [intros ns Hn; apply I in Hn; [congruence|assumption]|]. intros K. apply U in K. congruence.
      * apply refused_ingenico_unsupported. now apply U.
    + intros e H. inversion H as [| | | | | | | | | |s' R|s' R1 R2| |op' s' f ns b t a e' K1 K2 K3 K4]; subst.
      * left. apply rmap_err. now apply U.
      * left. apply rmap_err. destruct S as [[ns K]|[e K]]; [apply I in K; [now apply R1 in K|assumption]|].
        destruct (C24_ingenico_error_kinds p masks s e T K) as [-> | ->]; [assumption|apply U in K; contradiction].
      * right. exists f, ns. split; [now apply X|]. exists b, t, a. auto.
    + rewrite (proj1 (rmap_panic _ _)). destruct S as [[ns K]|[e K]]; congruence.
    + rewrite (proj2 (rmap_panic _ _)). destruct S as [[ns K]|[e K]]; congruence.
    + intros f ns H. apply X in H. inversion H as [|s' n' H1| |]; subst. apply I in H1; [|assumption]. exact (C34_parsed_ingenico_ok p masks s ns T H1).
Qed.

(** ** What is shown *)

Lemma header_shows f : shows_lines (header f) (format_lines f).
Proof. destruct f as [[|]|]; split; [reflexivity|split; reflexivity|reflexivity|split; reflexivity|reflexivity|split; reflexivity]. Qed.

Lemma value_fits0 p v : fits p (0 + value_levels v).
Proof. intros _. destruct v as [| | | | | |l| | | | | | | | | |]; cbn [value_levels]; try lia. destruct (ModelValues.cl_rules l); lia. Qed.

Lemma run_op_shows {A} (r : res A) (d : A -> disp) a ls : r = Ok a -> shows_lines (d a) ls -> displays (run_op r d) ls.
Proof. intros -> (H1 & H2 & H3). cbn. repeat split; assumption. Qed.
Lemma run_op_complains {A} (r : res A) (d : A -> disp) e : r = Err e -> complains (run_op r d) e.
Proof. intros ->. cbn. repeat split. Qed.

(* The outcome of one operation, in all cases. *)
Lemma run_one_exact p st op s : text64 p s ->
  (exists ls k, breakdown (set_masking st) (set_sort st) op s ls k
     /\ (fits p k -> displays (run_one p st op s) ls)
     /\ (~ fits p k -> o_panic (run_one p st op s) = true /\ o_stderr (run_one p st op s) = []))
  \/ exists e, refused (set_masking st) op s e /\ complains (run_one p st op s) e.
Proof.
  intros T. unfold run_one. destruct (value_result op s) as [r|] eqn:V.
  - destruct (value_settles (set_masking st) op s r V) as (M & R & P & F & G). destruct r as [v|e| |]; try contradiction.
    + left. exists (value_lines v 0 true), (value_levels v). split; [constructor; now apply M|]. split.
      * intros _. apply (run_op_shows _ _ v); [reflexivity|]. apply C68_values; [now apply G|lia|apply value_fits0].
      * intros K. exfalso. apply K. apply value_fits0.
    + right. exists e. split; [now apply R|]. now apply run_op_complains.
  - destruct (tlv_result p (set_masking st) op s) as [r|] eqn:L.
    2:{ exfalso. destruct op; discriminate. }
    destruct (tlv_settles p _ op s r T L) as (X & E & _ & P & F & G). destruct r as [[f ns]|e| |]; try contradiction.
    + specialize (G f ns eq_refl). assert (B : tlv_block (set_masking st) op s f ns) by now apply X. pose proof (forest_ok_data _ G) as D.
      destruct (process_block ns) as [b|e| |] eqn:Pb.
      * left. pose proof (good_processed ns b G Pb) as Gb. assert (A : arranged b (sort_nodes b)) by now apply C37_sort_arranges.
        set (b' := if set_sort st then sort_nodes b else b).
        assert (Gb' : Forall good_node b') by (unfold b'; destruct (set_sort st); [now apply (arranged_good b)|assumption]).
        exists (format_lines f ++ block_lines b' 0 true), (block_levels b'). split; [|split].
        -- apply (breakdown_block _ _ _ _ f ns b b'); [assumption|now apply C33_processed_block|]. unfold b'. destruct (set_sort st); [assumption|reflexivity].
        -- intros K. cbn [bind fst snd]. rewrite Pb. cbn [bind]. apply (run_op_shows _ _ (f, b)); [reflexivity|]. cbn [fst snd].
           apply shows_then; [apply header_shows|]. unfold show_block. fold b'. apply C68_blocks; [assumption|lia|exact K].
        -- intros K. cbn [bind fst snd]. rewrite Pb. cbn [bind run_op fst snd o_panic o_stderr]. split; [|reflexivity].
           assert (Q : dead (show_block p (set_sort st) b) = true).
           { unfold show_block. fold b'. apply C59_exact; [assumption|lia|]. unfold fits in K. destruct (overflow_checks p).
             - split; [reflexivity|]. destruct (N.le_gt_cases 256 (0 + block_levels b')); [assumption|]. exfalso. apply K. intros _. lia.
             - exfalso. apply K. discriminate. }
           destruct f as [f|]; cbn [header]; [|exact Q].
           destruct f; unfold auto_header; cbn [dead dthen]; exact Q.
      * right. exists e. apply C34_first_failure in Pb as Ff; [|assumption]. destruct Ff as (before & t & after & F1 & F2 & F3).
        split; [now apply (refused_tag _ op s f ns before t after e)|]. apply run_op_complains. cbn [bind snd]. now rewrite Pb.
      * destruct (C34_no_panic ns D). contradiction.
      * destruct (C34_no_panic ns D). contradiction.
    + right. exists e. split; [now apply E|]. now apply run_op_complains.
Qed.

Lemma tlv_op masks op s f ns : tlv_block masks op s f ns -> value_result op s = None /\ forall p, exists r, tlv_result p masks op s = Some r.
Proof. intros H. inversion H; subst; (split; [reflexivity|intros p; eexists; reflexivity]). Qed.
Lemma meaning_op op s v : meaning op s v -> exists r, value_result op s = Some r.
Proof. intros H. inversion H; subst; eexists; reflexivity. Qed.

Lemma breakdown_det p masks sort op s ls k ls' k' : text64 p s ->
  breakdown masks sort op s ls k -> breakdown masks sort op s ls' k' -> ls = ls' /\ k = k'.
Proof.
  intros T H H'. destruct H as [v M|f ns r r' B Pf S].
  - destruct (meaning_op op s v M) as [x V]. destruct (value_settles masks op s x V) as (Me & _).
    destruct H' as [v' M'|f ns r r' B Pf S].
    + apply Me in M, M'. rewrite M in M'. injection M' as <-. split; reflexivity.
    + apply tlv_op in B. destruct B as [B _]. congruence.
  - destruct (tlv_op _ _ _ _ _ B) as [V L]. destruct (L p) as [x X]. destruct (tlv_settles p masks op s x T X) as (Y & _ & _ & _ & _ & G).
    destruct H' as [v' M'|f2 ns2 r2 r2' B2 Pf2 S2].
    + apply meaning_op in M'. destruct M'. congruence.
    + apply Y in B, B2. rewrite B in B2. injection B2 as <- <-. pose proof (forest_ok_data _ (G _ _ B)) as D.
      apply (C33_processed_block _ _ D) in Pf, Pf2. rewrite Pf in Pf2. injection Pf2 as <-.
      assert (r' = r2') as ->; [|split; reflexivity]. destruct sort; [|congruence]. apply C37_sort_arranges in S, S2. congruence.
Qed.

Lemma breakdown_not_refused p masks sort op s ls k e : text64 p s -> breakdown masks sort op s ls k -> refused masks op s e -> False.
Proof.
  intros T H R. destruct H as [v M|f ns r r' B Pf S].
  - destruct (meaning_op op s v M) as [x V]. destruct (value_settles masks op s x V) as (Me & Re & _). apply Me in M. apply Re in R. congruence.
  - destruct (tlv_op _ _ _ _ _ B) as [V L]. destruct (L p) as [x X]. destruct (tlv_settles p masks op s x T X) as (Y & _ & Z & _ & _ & G).
    apply Y in B. destruct (Z e R) as [Q|(f2 & ns2 & Q & F)]; [congruence|]. rewrite B in Q. injection Q as <- <-.
    pose proof (forest_ok_data _ (G _ _ B)) as D. apply (C33_processed_block _ _ D) in Pf. apply (C34_first_failure _ _ D) in F. congruence.
Qed.
Lemma refused_det p masks op s e e' : text64 p s -> refused masks op s e -> refused masks op s e' -> e = e'.
Proof.
  intros T R R'. destruct (value_result op s) as [x|] eqn:V.
  - destruct (value_settles masks op s x V) as (_ & Re & _). apply Re in R, R'. congruence.
  - destruct (tlv_result p masks op s) as [x|] eqn:X; [|exfalso; destruct op; discriminate].
    destruct (tlv_settles p masks op s x T X) as (Y & _ & Z & _ & _ & G).
    destruct (Z e R) as [Q|(f & ns & Q & F)], (Z e' R') as [Q'|(f' & ns' & Q' & F')]; try congruence.
    rewrite Q in Q'. injection Q' as <- <-. pose proof (forest_ok_data _ (G _ _ Q)) as D. apply (C34_first_failure _ _ D) in F, F'. congruence.
Qed.

Lemma only_chosen m op s : only m op s -> chosen m op s.
Proof.
  intros [G O]. split; [assumption|].
  assert (I : In op all_operations) by (destruct op; cbn; tauto). apply in_split in I. destruct I as (b & a & E). exists b, a. split; [assumption|].
  apply Forall_forall. intros o Ho. apply O. intros ->.
  assert (N : NoDup all_operations) by (repeat constructor; cbn; intuition discriminate).
  rewrite E in N. apply NoDup_remove_2 in N. apply N. apply in_or_app. now left.
Qed.
Lemma chosen_or_none m : (exists op s, chosen m op s) \/ no_operation m.
Proof.
  assert (X : (exists op s, chosen m op s) \/ Forall (fun o => given m o = None) all_operations).
  { unfold chosen. assert (forall l pre, all_operations = pre ++ l -> Forall (fun o => given m o = None) pre ->
       (exists op s, given m op = Some s /\ exists before after, all_operations = before ++ op :: after /\ Forall (fun o => given m o = None) before) \/ Forall (fun o => given m o = None) l) as K.
    { induction l as [|o l IH]; intros pre E F; [right; constructor|]. destruct (given m o) as [s|] eqn:G.
      - left. exists o, s. split; [assumption|]. exists pre, l. auto.
      - destruct (IH (pre ++ [o])) as [?|?]; [rewrite <- app_assoc; exact E|apply Forall_app; split; [assumption|now constructor]|now left|right; now constructor]. }
    now apply (K all_operations []). }
  destruct X as [?|F]; [now left|]. right. intros o. rewrite Forall_forall in F. apply F. destruct o; cbn; tauto.
Qed.
Lemma main_none p e m st : load_settings e m = Ok st -> no_operation m -> run_main p e m = out_help.
Proof.
  intros L N. unfold run_main. rewrite L.
  rewrite (N OpTvr : m_tvr m = None), (N OpIad : m_ccd_iad m = None), (N OpCvr : m_ccd_cvr m = None), (N OpTsi : m_tsi m = None),
    (N OpCvmResults : m_cvm_results m = None), (N OpCvmList : m_cvm_list m = None), (N OpIdentify : m_identify m = None),
    (N OpAuto : m_auto_tlv m = None), (N OpBer : m_ber_tlv m = None), (N OpIngenico : m_ingenico_tlv m = None), (N OpServiceCode : m_service_code m = None).
  reflexivity.
Qed.
Lemma main_bad_settings p e m : (forall st, load_settings e m <> Ok st) -> run_main p e m = out_panic.
Proof. intros H. unfold run_main. destruct (load_settings e m) as [st| | |]; try reflexivity. now specialize (H st). Qed.

(** ** Colour names *)

Lemma lower_char_iff c x : 97 <= x -> x <= 122 -> x <> 107 -> (lower_char c = x <-> upper_or_lower c x).
Proof.
  intros H1 H2 H3. unfold lower_char, upper_or_lower. destruct (N.leb_spec 65 c), (N.leb_spec c 90); cbn [andb]; try (destruct (N.eqb_spec c 0x212A)); lia.
Qed.
Lemma lowercase_iff s t : Forall (fun x => 97 <= x /\ x <= 122 /\ x <> 107) t -> (to_lowercase s = t <-> same_letters s t).
Proof.
  intros F. unfold to_lowercase, same_letters. revert s. induction F as [|x t (H1 & H2 & H3) F IH]; intros [|c s]; cbn [map].
  - split; [constructor|reflexivity].
  - split; [discriminate|intros H; inversion H].
  - split; [discriminate|intros H; inversion H].
  - split.
    + intros H. injection H as H H'. constructor; [now apply lower_char_iff|now apply IH].
    + intros H. inversion H; subst. f_equal; [now apply lower_char_iff|now apply IH].
Qed.
Lemma colour_letters c n : In (c, n) colour_names -> Forall (fun x => 97 <= x /\ x <= 122 /\ x <> 107) (lit n).
Proof. intros H. repeat (destruct H as [H|H]; [injection H as <- <-; cbn; repeat (constructor; [lia|]); constructor|]). destruct H. Qed.
Lemma colour_try_iff s c : colour_choice_try_from s = Ok c <-> exists n, In (c, n) colour_names /\ same_letters s (lit n).
Proof.
  assert (X : (exists n, In (c, n) colour_names /\ same_letters s (lit n)) <-> exists n, In (c, n) colour_names /\ to_lowercase s = lit n).
  { split; intros (n & H & K); exists n; (split; [assumption|]); apply (lowercase_iff s (lit n) (colour_letters c n H)); assumption. }
  rewrite X. clear X. unfold colour_choice_try_from. cbv zeta. split.
  - destruct (leqb _ (lit "always")) eqn:E1; [intros H; injection H as <-; apply leqb_eq in E1; exists "always"%string; split; [cbn; tauto|assumption]|].
    destruct (leqb _ (lit "ansi")) eqn:E2; [intros H; injection H as <-; apply leqb_eq in E2; exists "ansi"%string; split; [cbn; tauto|assumption]|].
    destruct (leqb _ (lit "auto")) eqn:E3; [intros H; injection H as <-; apply leqb_eq in E3; exists "auto"%string; split; [cbn; tauto|assumption]|].
    destruct (leqb _ (lit "never")) eqn:E4; [intros H; injection H as <-; apply leqb_eq in E4; exists "never"%string; split; [cbn; tauto|assumption]|discriminate].
  - intros (n & H & ->). repeat (destruct H as [H|H]; [injection H as <- <-; vm_compute; reflexivity|]). destruct H.
Qed.
Lemma colour_try_total s : (exists c, colour_choice_try_from s = Ok c) \/ colour_choice_try_from s = Err Unsupported.
Proof. unfold colour_choice_try_from. cbv zeta. repeat (destruct (leqb _ _); [eauto|]). auto. Qed.
Lemma colour_name c n : In (c, n) colour_names <-> lit n = colour_choice_text c /\ In n ["always"; "ansi"; "auto"; "never"]%string.
Proof.
  split.
  - intros H. repeat (destruct H as [H|H]; [injection H as <- <-; split; [reflexivity|cbn; tauto]|]). destruct H.
  - intros [H I]. destruct c; repeat (destruct I as [I|I]; [subst n; first [discriminate H|cbn; tauto]|]); destruct I.
Qed.
Lemma colour_text_name c : exists n, In (c, n) colour_names /\ colour_choice_text c = lit n.
Proof. destruct c; eexists; (split; [cbn; eauto|reflexivity]). Qed.

(** ** Dictionaries and layers *)

Lemma dict_get_app a b k : dict_get (a ++ b) k = match dict_get a k with Some v => Some v | None => dict_get b k end.
Proof. induction a as [|[k' v] a IH]; [reflexivity|]. cbn. destruct (String.eqb k' k); [reflexivity|assumption]. Qed.

(* A layer that is a dictionary as far as the key [k] goes. *)
Definition is_dict (l : layer) (d : dict) (k : string) : Prop := forall v, l k v <-> dict_get d k = Some v.
Lemma says_is d k : is_dict (says d) d k.
Proof. intros v. reflexivity. Qed.
Lemma decided_dicts ls ds k : Forall2 (fun l d => is_dict l d k) ls ds ->
  forall v, decided ls k v <-> dict_get (List.concat ds) k = Some v.
Proof.
  induction 1 as [|l d ls ds H F IH]; intros v; cbn [List.concat].
  - split; [intros X; inversion X|discriminate].
  - rewrite dict_get_app. split.
    + intros X. inversion X as [l' ls' k' v' L|l' ls' k' v' S D]; subst.
      * apply H in L. now rewrite L.
      * destruct (dict_get d k) as [w|] eqn:E; [exfalso; apply (S w); now apply H|now apply IH].
    + destruct (dict_get d k) as [w|] eqn:E.
      * intros X. injection X as <-. apply decided_here. now apply H.
      * intros X. apply decided_later; [|now apply IH]. intros w L. apply H in L. congruence.
Qed.

(* The command line as a dictionary. *)
Definition colour_dict (m : matches) : dict :=
  match m_colour m with
  | Some (s, src) => if is_default_source src then []
                     else match colour_choice_try_from s with Ok c => [("cli_colour"%string, CStr (colour_choice_text c))] | _ => [] end
  | None => []
  end.
Definition masking_dict (m : matches) : dict :=
  match m_masking m with
  | Some (cs, src) => if is_default_source src then [] else [("masking_characters"%string, CArr (map CChar cs))]
  | None => []
  end.
Definition sort_dict (m : matches) : dict :=
  match cli_sort_preference m with Some b => [("sort_parsed_tags"%string, CBool b)] | None => [] end.
Definition cli_dict (m : matches) : dict := sort_dict m ++ masking_dict m ++ colour_dict m.

Lemma typed_iff {A} (o : option (A * value_source)) a : typed o a <-> match o with Some (x, src) => is_default_source src = false /\ x = a | None => False end.
Proof.
  unfold typed. split.
  - intros (src & -> & H). split; [destruct src; [contradiction|reflexivity|reflexivity]|reflexivity].
  - destruct o as [[x src]|]; [|contradiction]. intros [H ->]. exists src. split; [reflexivity|]. intros ->. discriminate.
Qed.
Lemma sort_preference_iff m b : cli_sort_preference m = Some b <-> typed (m_no_sort m) (negb b) \/ not_typed (m_no_sort m) /\ typed (m_sort m) b.
Proof.
  unfold cli_sort_preference, not_typed. rewrite !typed_iff.
  assert (X : (forall a, ~ typed (m_no_sort m) a) <-> match m_no_sort m with Some (_, src) => is_default_source src = true | None => True end).
  { split.
    - intros H. destruct (m_no_sort m) as [[x src]|] eqn:E; [|exact I]. destruct (is_default_source src) eqn:S; [reflexivity|]. exfalso. apply (H x). apply typed_iff. auto.
    - destruct (m_no_sort m) as [[x src]|]; intros H a K; apply typed_iff in K; [|contradiction]. destruct K. congruence. }
  rewrite X. destruct (m_no_sort m) as [[x src]|]; [destruct (is_default_source src)|]; destruct (m_sort m) as [[y src']|]; try (destruct (is_default_source src')).
  all: split; intros H; try discriminate; try (injection H as <-); try rewrite negb_involutive; try tauto.
  all: try (destruct H as [[H1 H2]|[H1 H2]]; try discriminate; try contradiction; subst; try rewrite negb_involutive; tauto).
  all: try (destruct H as [[H1 H2]|[H1 [H2 H3]]]; try discriminate; try contradiction; subst; try rewrite negb_involutive; tauto).
  all: try (destruct H as [H|[H1 [H2 H3]]]; try discriminate; try contradiction; subst; reflexivity).
  all: try (destruct H as [H|[H1 H2]]; try discriminate; try contradiction; destruct H2; discriminate).
Qed.

Lemma sort_dict_get m k : dict_get (sort_dict m) k = if String.eqb "sort_parsed_tags" k then option_map CBool (cli_sort_preference m) else None.
Proof. unfold sort_dict. destruct (cli_sort_preference m); cbn [dict_get]; destruct (String.eqb _ k); reflexivity. Qed.
Lemma masking_dict_get m k : dict_get (masking_dict m) k =
  if String.eqb "masking_characters" k then match m_masking m with Some (cs, src) => if is_default_source src then None else Some (CArr (map CChar cs)) | None => None end else None.
Proof. unfold masking_dict. destruct (m_masking m) as [[cs src]|]; [destruct (is_default_source src)|]; cbn [dict_get]; destruct (String.eqb _ k); reflexivity. Qed.
Lemma colour_dict_get m k : dict_get (colour_dict m) k =
  if String.eqb "cli_colour" k
  then match m_colour m with
       | Some (s, src) => if is_default_source src then None else match colour_choice_try_from s with Ok c => Some (CStr (colour_choice_text c)) | _ => None end
       | None => None
       end
  else None.
Proof. unfold colour_dict. destruct (m_colour m) as [[s src]|]; [destruct (is_default_source src); [|destruct (colour_choice_try_from s)]|]; cbn [dict_get]; destruct (String.eqb _ k); reflexivity. Qed.

Lemma asks_is m k : is_dict (asks m) (cli_dict m) k.
Proof.
  intros v. unfold cli_dict. rewrite !dict_get_app, sort_dict_get, masking_dict_get, colour_dict_get. split.
  - intros H. inversion H as [s c n T I L|cs T|b N T|b T]; subst.
    + cbn [String.eqb Ascii.eqb eqb]. apply typed_iff in T. destruct (m_colour m) as [[s' src]|]; [|contradiction]. destruct T as [-> ->].
      assert (Q : colour_choice_try_from s = Ok c) by (apply colour_try_iff; eauto). rewrite Q. apply colour_name in I. destruct I as [-> _]. reflexivity.
    + cbn [String.eqb Ascii.eqb eqb]. apply typed_iff in T. destruct (m_masking m) as [[s' src]|]; [|contradiction]. destruct T as [-> ->]. reflexivity.
    + cbn [String.eqb Ascii.eqb eqb]. assert (Q : cli_sort_preference m = Some b) by (apply sort_preference_iff; auto). rewrite Q. reflexivity.
    + cbn [String.eqb Ascii.eqb eqb]. assert (Q : cli_sort_preference m = Some (negb b)) by (apply sort_preference_iff; left; now rewrite negb_involutive). rewrite Q. reflexivity.
  - destruct (String.eqb_spec "sort_parsed_tags" k) as [<-|_].
    + destruct (cli_sort_preference m) as [b|] eqn:Q; [|discriminate]. intros H. injection H as <-. apply sort_preference_iff in Q. destruct Q as [Q|[Q1 Q2]].
      * rewrite <- (negb_involutive b). now constructor.
      * now constructor.
    + destruct (String.eqb_spec "masking_characters" k) as [<-|_].
      * destruct (m_masking m) as [[cs src]|] eqn:Q; [|discriminate]. destruct (is_default_source src) eqn:D; [discriminate|]. intros H. injection H as <-.
        constructor. apply typed_iff. rewrite Q. auto.
      * destruct (String.eqb_spec "cli_colour" k) as [<-|_]; [|discriminate].
        destruct (m_colour m) as [[s src]|] eqn:Q; [|discriminate]. destruct (is_default_source src) eqn:D; [discriminate|].
        destruct (colour_choice_try_from s) as [c| | |] eqn:P; try discriminate. intros H. injection H as <-.
        apply colour_try_iff in P. destruct P as (n & I & L). pose proof I as I'. apply colour_name in I'. destruct I' as [<- _].
        apply (asks_colour m s c n); [|assumption|assumption]. apply typed_iff. rewrite Q. auto.
Qed.

(* The figment after the command line has been applied. *)
Definition fg_at (f : figment) (q : profile) : option dict := option_map (fun v => v q) (fg_values f).
Lemma fg_merge_at f cp d q : fg_at (fg_merge f cp d) q = option_map (fun x => (if profile_eqb q cp then d else []) ++ x) (fg_at f q).
Proof. unfold fg_at, fg_merge, dict_merge. cbn [fg_values]. destruct (fg_values f) as [v|]; [|reflexivity]. cbn. now destruct (profile_eqb q cp). Qed.
Lemma fg_at_id f q (P : bool) : option_map (fun x => (if P then [] else []) ++ x) (fg_at f q) = fg_at f q.
Proof. destruct (fg_at f q); destruct P; reflexivity. Qed.

Lemma apply_cli_ok cp f m : colour_typed_ok m -> exists f', apply_cli_arguments cp f m = Ok f' /\ fg_profile f' = fg_profile f
  /\ forall q, fg_at f' q = option_map (fun x => (if profile_eqb q cp then cli_dict m else []) ++ x) (fg_at f q).
Proof.
  intros C. unfold apply_cli_arguments.
  assert (F1 : exists f1, apply_colour cp f m = Ok f1 /\ fg_profile f1 = fg_profile f
     /\ forall q, fg_at f1 q = option_map (fun x => (if profile_eqb q cp then colour_dict m else []) ++ x) (fg_at f q)).
  { unfold apply_colour, colour_typed_ok, colour_dict in *. destruct (m_colour m) as [[s src]|] eqn:E.
    - destruct (is_default_source src) eqn:D.
      + exists f. repeat split. intros q. now rewrite fg_at_id.
      + destruct (C s) as (c & n & I & L); [apply typed_iff; auto|].
        assert (Q : colour_choice_try_from s = Ok c) by (apply colour_try_iff; eauto). rewrite Q. cbn [expect bind]. eexists. split; [reflexivity|]. split; [reflexivity|].
        intros q. apply fg_merge_at.
    - exists f. repeat split. intros q. now rewrite fg_at_id. }
  destruct F1 as (f1 & -> & P1 & A1). cbn [bind]. eexists. split; [reflexivity|].
  assert (F2 : fg_profile (apply_masking cp f1 m) = fg_profile f1
     /\ forall q, fg_at (apply_masking cp f1 m) q = option_map (fun x => (if profile_eqb q cp then masking_dict m else []) ++ x) (fg_at f1 q)).
  { unfold apply_masking, masking_dict. destruct (m_masking m) as [[cs src]|]; [destruct (is_default_source src)|].
    - split; [reflexivity|]. intros q. now rewrite fg_at_id.
    - split; [reflexivity|]. intros q. apply fg_merge_at.
    - split; [reflexivity|]. intros q. now rewrite fg_at_id. }
  destruct F2 as [P2 A2]. set (f2 := apply_masking cp f1 m) in *.
  assert (F3 : fg_profile (apply_sort cp f2 m) = fg_profile f2
     /\ forall q, fg_at (apply_sort cp f2 m) q = option_map (fun x => (if profile_eqb q cp then sort_dict m else []) ++ x) (fg_at f2 q)).
  { unfold apply_sort, sort_dict. destruct (cli_sort_preference m).
    - split; [reflexivity|]. intros q. apply fg_merge_at.
    - split; [reflexivity|]. intros q. now rewrite fg_at_id. }
  destruct F3 as [P3 A3]. split; [congruence|]. intros q. rewrite A3, A2, A1. unfold cli_dict. destruct (fg_at f q); [|reflexivity]. cbn [option_map].
  destruct (profile_eqb q cp); [now rewrite <- !app_assoc|reflexivity].
Qed.
Lemma apply_cli_bad cp f m : ~ colour_typed_ok m -> apply_cli_arguments cp f m = Panic.
Proof.
  intros C. unfold apply_cli_arguments, apply_colour. unfold colour_typed_ok in C. destruct (m_colour m) as [[s src]|] eqn:E.
  2:{ exfalso. apply C. intros s T. apply typed_iff in T. contradiction. }
  destruct (is_default_source src) eqn:D.
  { exfalso. apply C. intros x T. apply typed_iff in T. destruct T. congruence. }
  destruct (colour_try_total s) as [[c Q]|Q]; rewrite Q; [|reflexivity].
  exfalso. apply C. intros x T. apply typed_iff in T. destruct T as [_ <-]. apply colour_try_iff in Q. destruct Q as (n & I & L). eauto.
Qed.

(* The merged dictionary. *)
Definition selected_dicts (e : environment) (file : profile -> dict) : list dict :=
  match e_profile e with ProfCustom n => [file (ProfCustom n)] | _ => [] end.
Lemma leqb_refl l : leqb l l = true.
Proof. now apply leqb_eq. Qed.
Lemma config_at e file q : e_file e = Some file ->
  fg_at (config_figment e) q = Some ((if profile_eqb q ProfGlobal then e_vars e else []) ++ file q ++ (if profile_eqb q ProfDefault then config_defaults else [])).
Proof.
  intros F. unfold config_figment, fg_at, fg_select, fg_merge, fg_merge_all, fg_empty, dict_merge. cbn [fg_values option_map]. rewrite F. cbn [option_map].
  destruct q; cbn [profile_eqb app]; rewrite ?app_nil_r, ?app_assoc; reflexivity.
Qed.
Lemma fg_merged_at f : fg_merged f = match fg_at f ProfGlobal, fg_at f ProfDefault, fg_at f (fg_profile f) with
  | Some g, Some d, Some s => Some (g ++ (match fg_profile f with ProfCustom _ => s | _ => [] end) ++ d)
  | _, _, _ => None end.
Proof.
  unfold fg_merged, fg_at, dict_merge. destruct (fg_values f) as [v|]; [|reflexivity]. cbn [option_map]. destruct (fg_profile f); reflexivity.
Qed.
Lemma merged_global e file m : e_file e = Some file -> colour_typed_ok m ->
  exists f, apply_cli_arguments ProfGlobal (config_figment e) m = Ok f
    /\ fg_merged f = Some (List.concat (cli_dict m :: e_vars e :: file ProfGlobal :: selected_dicts e file ++ [file ProfDefault; config_defaults])).
Proof.
  intros F C. destruct (apply_cli_ok ProfGlobal (config_figment e) m C) as (f & A & P & V). exists f. split; [exact A|].
  rewrite fg_merged_at, !V, !(config_at e file) by assumption. rewrite P. cbn [config_figment fg_select fg_profile]. unfold selected_dicts.
  destruct (e_profile e); cbn [profile_eqb option_map List.concat app]; f_equal; rewrite <- ?app_assoc, ?app_nil_r; cbn [app]; rewrite ?app_nil_r; reflexivity.
Qed.
Lemma merged_default e file m : e_file e = Some file -> colour_typed_ok m ->
  exists f, apply_cli_arguments ProfDefault (config_figment e) m = Ok f
    /\ fg_merged f = Some (List.concat (e_vars e :: file ProfGlobal :: selected_dicts e file ++ [cli_dict m; file ProfDefault; config_defaults])).
Proof.
  intros F C. destruct (apply_cli_ok ProfDefault (config_figment e) m C) as (f & A & P & V). exists f. split; [exact A|].
  rewrite fg_merged_at, !V, !(config_at e file) by assumption. rewrite P. cbn [config_figment fg_select fg_profile]. unfold selected_dicts.
  destruct (e_profile e); cbn [profile_eqb option_map List.concat app]; f_equal; rewrite <- ?app_assoc, ?app_nil_r; cbn [app]; rewrite ?app_nil_r; reflexivity.
Qed.
Lemma merged_none cp e m f : e_file e = None -> apply_cli_arguments cp (config_figment e) m = Ok f -> fg_merged f = None.
Proof.
  intros F A. assert (C : colour_typed_ok m \/ ~ colour_typed_ok m).
  { unfold colour_typed_ok. destruct (m_colour m) as [[s src]|]; [|left; intros s T; apply typed_iff in T; contradiction].
    destruct (colour_try_total s) as [[c Q]|Q].
    - left. intros x T. apply typed_iff in T. destruct T as [_ <-]. apply colour_try_iff in Q. destruct Q as (n & I & L). eauto.
    - destruct (is_default_source src) eqn:D.
      + left. intros x T. apply typed_iff in T. destruct T. congruence.
      + right. intros H. destruct (H s) as (c & n & I & L); [apply typed_iff; auto|]. assert (Y : colour_choice_try_from s = Ok c) by (apply colour_try_iff; eauto). congruence. }
  destruct C as [C|C]; [|rewrite (apply_cli_bad cp _ m C) in A; discriminate].
  destruct (apply_cli_ok cp (config_figment e) m C) as (f' & A' & P & V). rewrite A in A'. injection A' as <-.
  rewrite fg_merged_at, V. assert (Z : fg_at (config_figment e) ProfGlobal = None) by (unfold config_figment, fg_at, fg_select, fg_merge, fg_merge_all; cbn [fg_values]; rewrite F; reflexivity).
  now rewrite Z.
Qed.

(** ** Extraction *)

Lemma extract_colour_iff o c : extract_colour o = Some c <-> exists v, o = Some v /\ colour_value v c.
Proof.
  unfold colour_value. split.
  - destruct o as [[s| | | |i|]|]; try discriminate; cbn [extract_colour]; intros H; [exists (CStr s)|exists (CNum i)]; (split; [reflexivity|]); [left|right].
    destruct (leqb s (lit "always")) eqn:E1; [injection H as <-; apply leqb_eq in E1; exists "always"%string; split; [cbn; tauto|now subst]|].
    destruct (leqb s (lit "ansi")) eqn:E2; [injection H as <-; apply leqb_eq in E2; exists "ansi"%string; split; [cbn; tauto|now subst]|].
    destruct (leqb s (lit "auto")) eqn:E3; [injection H as <-; apply leqb_eq in E3; exists "auto"%string; split; [cbn; tauto|now subst]|].
    destruct (leqb s (lit "never")) eqn:E4; [injection H as <-; apply leqb_eq in E4; exists "never"%string; split; [cbn; tauto|now subst]|discriminate].
    exists i. destruct (N.eqb_spec i 0) as [->|]; [injection H as <-; cbn; tauto|]. destruct (N.eqb_spec i 1) as [->|]; [injection H as <-; cbn; tauto|].
    destruct (N.eqb_spec i 2) as [->|]; [injection H as <-; cbn; tauto|]. destruct (N.eqb_spec i 3) as [->|]; [injection H as <-; cbn; tauto|discriminate].
  - intros (v & -> & [(n & I & ->)|(n & I & ->)]); (repeat (destruct I as [I|I]; [injection I as <- <-; vm_compute; reflexivity|])); destruct I.
Qed.
Lemma extract_chars_iff l cs : extract_chars l = Some cs <-> Forall2 (fun x c => x = CChar c \/ x = CStr [c]) l cs.
Proof.
  revert cs. induction l as [|v l IH]; intros cs; cbn [extract_chars].
  - split; [intros H; injection H as <-; constructor|intros H; inversion H; reflexivity].
  - split.
    + destruct (extract_char v) as [c|] eqn:E; [|discriminate]. destruct (extract_chars l) as [r|] eqn:R; [|discriminate]. intros H. injection H as <-.
      constructor; [|now apply IH]. destruct v as [[|x [|]]|x| | | |]; try discriminate; injection E as <-; auto.
    + intros H. inversion H as [|x c l' cs' Hx Hl]; subst. apply IH in Hl. rewrite Hl. destruct Hx as [-> | ->]; reflexivity.
Qed.
Lemma extract_masking_iff o cs : extract_masking o = Some cs <-> exists v, o = Some v /\ masking_value v cs.
Proof.
  unfold masking_value. split.
  - destruct o as [[| | |l| |]|]; try discriminate. cbn. intros H. exists (CArr l). split; [reflexivity|]. exists l. split; [reflexivity|]. now apply extract_chars_iff.
  - intros (v & -> & l & -> & H). cbn. now apply extract_chars_iff.
Qed.
Lemma extract_bool_iff o b : extract_bool o = Some b <-> exists v, o = Some v /\ sort_value v b.
Proof.
  unfold sort_value. split.
  - destruct o as [[| |x| | |]|]; try discriminate. cbn. intros H. injection H as <-. eauto.
  - intros (v & -> & ->). reflexivity.
Qed.
Lemma terminal_choice_eq tty c : colour_choice_to_term (change_based_on_tty tty c) = terminal_choice tty c.
Proof. destruct c, tty; reflexivity. Qed.

Lemma load_iff e m f ls ds st : apply_cli_arguments (e_cli_profile e) (config_figment e) m = Ok f -> fg_merged f = Some (List.concat ds) ->
  (forall k, Forall2 (fun l d => is_dict l d k) ls ds) -> (load_settings e m = Ok st <-> in_force ls (e_tty e) st).
Proof.
  intros A M F. unfold load_settings. rewrite A. cbn [bind]. rewrite M. cbn [unwrap bind].
  pose proof (fun k => decided_dicts ls ds k (F k)) as D. unfold in_force. split.
  - destruct (extract_colour _) as [c|] eqn:E1; [|discriminate]. cbn [unwrap bind].
    destruct (extract_masking _) as [k|] eqn:E2; [|discriminate]. cbn [unwrap bind].
    destruct (extract_bool _) as [b|] eqn:E3; [|discriminate]. cbn [unwrap bind]. intros H. injection H as <-. cbn [set_colour set_masking set_sort].
    apply extract_colour_iff in E1. apply extract_masking_iff in E2. apply extract_bool_iff in E3.
    destruct E1 as (v1 & G1 & V1), E2 as (v2 & G2 & V2), E3 as (v3 & G3 & V3). exists v1, v2, v3, c. rewrite !D. rewrite terminal_choice_eq. auto 8.
  - intros (v1 & v2 & v3 & c & G1 & V1 & Sc & G2 & V2 & G3 & V3). apply D in G1, G2, G3.
    rewrite (proj2 (extract_colour_iff _ c)) by eauto. cbn [unwrap bind]. rewrite (proj2 (extract_masking_iff _ (set_masking st))) by eauto. cbn [unwrap bind].
    rewrite (proj2 (extract_bool_iff _ (set_sort st))) by eauto. cbn [unwrap bind]. rewrite terminal_choice_eq. destruct st as [a b d]. cbn in *. now subst.
Qed.
Lemma load_bad e m : (forall st, load_settings e m <> Ok st) -> load_settings e m = Panic.
Proof.
  intros H. assert (X : (exists st, load_settings e m = Ok st) \/ load_settings e m = Panic).
  { unfold load_settings. assert (A : (exists f, apply_cli_arguments (e_cli_profile e) (config_figment e) m = Ok f) \/ apply_cli_arguments (e_cli_profile e) (config_figment e) m = Panic).
    { unfold apply_cli_arguments, apply_colour. destruct (m_colour m) as [[s src]|]; [|left; eexists; reflexivity]. destruct (is_default_source src); [left; eexists; reflexivity|].
      destruct (colour_try_total s) as [[c ->]| ->]; [left; eexists; reflexivity|now right]. }
    destruct A as [[f ->]| ->]; [|now right]. cbn [bind]. destruct (fg_merged f); [|now right]. cbn [unwrap bind].
    destruct (extract_colour _); [|now right]. cbn [unwrap bind]. destruct (extract_masking _); [|now right]. cbn [unwrap bind].
    destruct (extract_bool _); [|now right]. left. eexists. reflexivity. }
  destruct X as [[st X]|X]; [exfalso; now apply (H st)|assumption].
Qed.
Lemma built_in_eq : built_in = config_defaults.
Proof. reflexivity. Qed.
Lemma layers_dicts e file m k : Forall2 (fun l d => is_dict l d k) (layers e file m)
  (cli_dict m :: e_vars e :: file ProfGlobal :: selected_dicts e file ++ [file ProfDefault; config_defaults]).
Proof.
  unfold layers, selected_layers, selected_dicts. constructor; [apply asks_is|].
  destruct (e_profile e); cbn [app]; repeat (apply Forall2_cons; [apply says_is|]); apply Forall2_nil.
Qed.
Lemma layers_default_dicts e file m k : Forall2 (fun l d => is_dict l d k) (layers_default e file m)
  (e_vars e :: file ProfGlobal :: selected_dicts e file ++ [cli_dict m; file ProfDefault; config_defaults]).
Proof.
  unfold layers_default, selected_layers, selected_dicts. constructor; [apply says_is|]. constructor; [apply says_is|].
  destruct (e_profile e); cbn [app]; repeat (apply Forall2_cons; [first [apply says_is|apply asks_is]|]); apply Forall2_nil.
Qed.

(** ** Error messages *)

Lemma digits_comma a b x y : Forall is_dec_digit a -> Forall is_dec_digit b -> a ++ 44 :: x = b ++ 44 :: y -> a = b /\ x = y.
Proof.
  revert b. induction a as [|d a IH]; intros [|d' b] Ha Hb E.
  - cbn in E. injection E as <-. auto.
  - cbn in E. injection E as <- _. inversion Hb as [|? ? K]; subst. unfold is_dec_digit in K. lia.
  - cbn in E. injection E as -> _. inversion Ha as [|? ? K]; subst. unfold is_dec_digit in K. lia.
  - cbn [app] in E. injection E as <- E. inversion Ha; subst. inversion Hb; subst. destruct (IH b H2 H4 E) as [-> ->]. auto.
Qed.
Lemma byte_count_inj ty n k ty' n' k' : error_text (ByteCountIncorrect ty n k) = error_text (ByteCountIncorrect ty' n' k') -> ty = ty' /\ n = n' /\ k = k'.
Proof.
  cbn [error_text]. intros H. apply app_inv_head in H.
  assert (T : ty = ty').
  { destruct ty, ty'; try reflexivity; exfalso; apply (f_equal (firstn 1)) in H; discriminate H. }
  subst ty'. apply app_inv_head in H. cbn [lit app String.append] in H. injection H as H.
  apply digits_comma in H; [|apply dec_spec|apply dec_spec]. destruct H as [H1 H2].
  split; [reflexivity|]. split; [now apply dec_inj|]. apply dec_inj. injection H2 as H2. exact H2.
Qed.

(** ** Depth *)

Lemma list_max_cons x l : list_max (x :: l) = Nat.max x (list_max l).
Proof. reflexivity. Qed.
Lemma max_of_nat {A} (f : A -> N) (g : A -> nat) l : (forall x, In x l -> f x = N.of_nat (g x)) ->
  fold_right N.max 0 (map f l) = N.of_nat (list_max (map g l)).
Proof.
  induction l as [|x l IH]; intros H; [reflexivity|]. cbn [map fold_right]. rewrite list_max_cons, (H x (or_introl eq_refl)), IH by (intros; apply H; now right). lia.
Qed.
Lemma nesting_strip (n : pnode) : nesting n = N.of_nat (node_depth (strip n)).
Proof.
  induction n as [t c IH] using pnode_tree_ind. cbn [nesting strip node_depth]. rewrite map_map.
  rewrite (max_of_nat nesting (fun x => node_depth (strip x))); [lia|]. now apply Forall_forall.
Qed.
Lemma block_nesting_depth ns r : process_block ns = Ok r -> block_nesting r = N.of_nat (forest_depth ns).
Proof.
  intros H. apply process_block_strip in H. subst ns. unfold block_nesting, forest_depth. rewrite map_map. apply max_of_nat. intros x _. apply nesting_strip.
Qed.
Lemma ing_nodes_depth masks s es ns : ascii_text s -> ing_text masks s es -> ing_nodes masks es ns -> (2 * forest_depth ns <= List.length s + 2)%nat.
Proof.
  intros Ha Ht. revert ns. assert (D : forall e, In e es -> match ie_data e with Normal v => bytes_ok v /\ (List.length v <= List.length s)%nat | Masked => True end).
  { induction Ht as [|f e F|f e sep rest es F Ht IH]; intros x Hx; [destruct Hx| |].
    - destruct Hx as [<-|[]]. destruct (ie_data e) as [v|] eqn:E; [|exact I]. assert (N1 : inext masks f = Ok (e, [])) by (apply inext_iff; exists f; rewrite app_nil_r; auto).
      destruct (inext_bytes masks f e [] v Ha N1 E) as [B L]. split; [assumption|]. unfold len in L. lia.
    - apply ascii_app in Ha. destruct Ha as [Hf Hr]. apply ascii_cons in Hr. destruct Hr as [_ Hr]. rewrite app_length. cbn [List.length].
      destruct Hx as [<-|Hx].
      + destruct (ie_data e) as [v|] eqn:E; [|exact I]. assert (N1 : inext masks f = Ok (e, [])) by (apply inext_iff; exists f; rewrite app_nil_r; auto).
        destruct (inext_bytes masks f e [] v Hf N1 E) as [B L]. split; [assumption|]. unfold len in L. lia.
      + specialize (IH Hr x Hx). destruct (ie_data x); [|exact I]. destruct IH. split; [assumption|lia]. }
  clear Ht Ha. intros ns Hn. unfold forest_depth. induction Hn as [|e es ns Hty Hn IH|e es n ns Hty Hnd Hn IH].
  - cbn. lia.
  - apply IH. intros x Hx. apply D. now right.
  - assert (IH' : (2 * list_max (map node_depth ns) <= List.length s + 2)%nat) by (apply IH; intros x Hx; apply D; now right).
    specialize (D e (or_introl eq_refl)). cbn [map].
    rewrite list_max_cons.
    assert (Dn : (2 * node_depth n <= List.length s + 2)%nat); [|lia].
    inversion Hnd as [d K|v objs ch K1 K2 K3]; subst; cbn [node_depth].
    + cbn. lia.
    + rewrite <- H in D. destruct D as [B L]. assert (P : parse_bytes masks v = Ok ch) by (apply parse_bytes_grammar; eauto).
      apply parse_bytes_size in P; [|assumption]. unfold forest_depth in P. lia.
Qed.
