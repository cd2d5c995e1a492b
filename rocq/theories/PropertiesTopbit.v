(** The properties of 32-bit builds without overflow checks: which text they read instead of the given one. *)

From Coq Require Import NArith String List Bool PeanoNat Lia ZifyN ZifyBool ZifyNat Relations.
From Verif Require Import Base ModelUtil ModelEnums ModelTlv ModelValues ModelProcess ModelDisplay ModelCli ModelWords ModelEnv ModelTerminal ModelFiles SpecUtil SpecTlv SpecIngenico SpecDisplay SpecCli SpecWords
  ProofsUtil ProofsGrammar ProofsBer ProofsIngenico PropertiesBer
  ModelMain SpecMain ProofsMain PropertiesMain ProofsCli PropertiesCli ProofsWords PropertiesWords SpecPictures PropertiesPictures SpecBuilds ProofsBuilds PropertiesBuilds SpecWidth ProofsWidth PropertiesWidth
  SpecOverrun ProofsOverrun PropertiesOverrun SpecTopbit ProofsTopbit.
Import ListNotations.
Local Open Scope N_scope.

(** C102: a 32-bit build without overflow checks ignores the highest bit of lengths of fields in hex digits. *)
Theorem C102_digit : forall p masks s s', wrapping p -> fits32 s -> one_less masks s s' -> ingenico_parse p masks s = ingenico_parse p masks s'.
Proof. exact parse_one_less. Qed.

(* What is read instead: for every text there is exactly one. *)
Lemma low_digit d d1 d2 : is_hex_digit d -> is_hex_digit d1 -> is_hex_digit d2 -> hex_value d = 8 + hex_value d1 -> hex_value d = 8 + hex_value d2 -> d1 = d2.
Proof.
  intros H H1 H2 E1 E2. unfold is_hex_digit in *. unfold hex_value in *.
  destruct (N.leb_spec d 57), (N.leb_spec d 70), (N.leb_spec d1 57), (N.leb_spec d1 70), (N.leb_spec d2 57), (N.leb_spec d2 70); lia.
Qed.
Lemma one_less_once masks s a : one_less masks s a -> forall b, fits32 s -> one_less masks s b -> a = b.
Proof.
  intros H. induction H as [ty td t d d' ld rest T Hh L E|f e sep rest rest' Hf Hr IH]; intros b F Hb.
  - pose proof (here_high ty td t d d' ld rest T Hh L E) as [K _]. set (s := ty :: td ++ colon :: (d :: ld) ++ colon :: letter_h :: rest) in *.
    assert (Es : s = ty :: td ++ colon :: (d :: ld) ++ colon :: letter_h :: rest) by reflexivity. clearbody s.
    destruct Hb as [ty2 td2 t2 d2 d2' ld2 rest2 T2 Hh2 L2 E2|f e sep r r' Hf Hr].
    + injection Es as E0 Es. subst ty2. cbn [app] in Es.
      assert (Q : forall td r td2 r2, Forall is_hex_digit td -> Forall is_hex_digit td2 -> td2 ++ colon :: r2 = td ++ colon :: r -> td2 = td /\ r2 = r).
      { intros x y x2 y2 A B Z. pose proof (split_colon_no x2 y2 (hex_no_colon _ B)) as P. rewrite Z, (split_colon_no x y (hex_no_colon _ A)) in P. injection P as -> ->. auto. }
      assert (A : Forall is_hex_digit (d :: ld) /\ is_hex_digit d /\ is_hex_digit d') by (inversion Hh as [|? ? Hd H']; subst; inversion H' as [|? ? Hd' Hl]; subst; repeat split; try assumption; now constructor).
      assert (A2 : Forall is_hex_digit (d2 :: ld2) /\ is_hex_digit d2 /\ is_hex_digit d2') by (inversion Hh2 as [|? ? Hd H']; subst; inversion H' as [|? ? Hd' Hl]; subst; repeat split; try assumption; now constructor).
      destruct A as (A & Hd & Hd'). destruct A2 as (A2 & Hd2 & Hd2').
      destruct (Q td _ td2 _ (proj1 T) (proj1 T2) Es) as [-> Es2]. destruct (Q (d :: ld) _ (d2 :: ld2) _ A A2 Es2) as [Z W]. injection Z as Z1 Z2. injection W as W. subst d2 ld2 rest2.
      rewrite (low_digit d d' d2' Hd Hd' Hd2' E E2). reflexivity.
    + exfalso. assert (I : inext masks (f ++ sep :: r) = Ok (e, sep :: r)) by (apply inext_iff; exists f; auto). rewrite (field_low masks _ _ F I) in K. discriminate.
  - destruct (one_less_field masks f e sep rest b F Hf Hb) as (r' & -> & Hr'). f_equal. f_equal. apply IH; [|assumption]. unfold fits32 in *. rewrite len_app, len_cons in F. lia.
Qed.
Theorem C102_text : forall masks s, fits32 s -> exists s', taken_as masks s s' /\ len s' = len s /\ forall s'', taken_as masks s s'' -> s'' = s'.
Proof.
  intros masks s F. destruct (settle masks (S (List.length s)) s (Nat.lt_succ_diag_r _) F) as (s' & St & Nm). exists s'. split; [now split|]. split.
  - clear - St. induction St as [|a b c O St IH]; [reflexivity|]. rewrite IH. symmetry. apply (one_less_ascii masks a b O).
  - intros s'' [St' Nm']. revert s'' St' Nm'. induction St as [a|a b c O St IH]; intros s'' St' Nm'.
    + inversion St' as [|y z O' S']; subst; [reflexivity|]. exfalso. apply Nm. now exists y.
    + inversion St' as [|y z O' St'']; subst; [exfalso; apply Nm'; now exists b|]. rewrite (one_less_once masks a b O y F O') in *. apply IH; try assumption. now apply (one_less_fits masks a y O').
Qed.

Lemma taken_same p masks s s' : wrapping p -> fits32 s -> taken_as masks s s' -> ingenico_parse p masks s = ingenico_parse p masks s' /\ fits32 s'.
Proof.
  intros W F [St _]. induction St as [a|a b c O St IH]; [auto|]. destruct (IH (one_less_fits masks a b O F)) as [I1 I2]. split; [|assumption]. now rewrite (parse_one_less p masks a b W F O).
Qed.
Theorem C102_read : forall p masks s s', wrapping p -> fits32 s -> taken_as masks s s' ->
  (ingenico_parse p masks s = Panic <-> ascii_text s' /\ text_overruns (2 ^ 32) masks 0 s')
  /\ (~ (ascii_text s' /\ text_overruns (2 ^ 32) masks 0 s') -> ingenico_parse p masks s = ingenico_parse release64 masks s').
Proof.
  intros p masks s s' W F T. destruct (taken_same p masks s s' W F T) as [E F']. rewrite E.
  assert (E' : ingenico_parse p masks s' = ingenico_parse (checking p) masks s').
  { unfold ingenico_parse. destruct (is_ascii s') eqn:A; cbn [negb]; [|reflexivity]. apply is_ascii_iff in A.
    apply (loop_checked p (checking p) masks W (proj1 W) eq_refl (S (List.length s')) [] s' [] A F' (proj2 T)). }
  rewrite E'. assert (B : build (checking p)) by exact (wrapping_build p W). assert (L : usize_limit (checking p) = 2 ^ 32) by exact (wrapping_limit p W).
  rewrite <- L. apply C100_ingenico; [assumption|now left|assumption].
Qed.
Theorem C102_auto : forall p masks s s', wrapping p -> fits32 s -> taken_as masks s s' -> s <> [] ->
  (ascii_text s' -> text_overruns (2 ^ 32) masks 0 s' -> auto_parse p masks s = Panic)
  /\ (~ (ascii_text s' /\ text_overruns (2 ^ 32) masks 0 s') ->
      (forall ns, ingenico_block masks s' ns -> auto_parse p masks s = Ok (Ingenico, ns))
      /\ ((forall ns, ~ ingenico_block masks s' ns) ->
          (overruns (2 ^ 32) masks 0 (hex_bytes s) -> auto_parse p masks s = Panic)
          /\ (~ overruns (2 ^ 32) masks 0 (hex_bytes s) ->
              (forall ns, ber_block masks s ns -> auto_parse p masks s = Ok (BerTlv, ns))
              /\ ((forall ns, ~ ber_block masks s ns) -> auto_parse p masks s = Err Unrecognised)))).
Proof.
  intros p masks s s' W F T Ne. destruct (C102_read p masks s s' W F T) as [C1 C2]. destruct (taken_same p masks s s' W F T) as [_ F'].
  pose proof (wrapping_build p W) as B. destruct (hex_fits s F) as [Oh Fh]. destruct (C100_ber p masks _ B Oh Fh) as [D1 D2]. rewrite parse_hex_str_spec in *. fold (hex_bytes s) in *.
  assert (L : usize_limit p = 2 ^ 32) by exact (wrapping_limit p W). rewrite L in *.
  assert (U : auto_parse p masks s = match ingenico_parse p masks s with Ok b => Ok (Ingenico, b) | Panic => Panic | NoFuel => NoFuel
    | Err _ => match ber_parse p masks (hex_bytes s) with Ok b => Ok (BerTlv, b) | Panic => Panic | NoFuel => NoFuel | Err _ => Err Unrecognised end end).
  { unfold auto_parse. rewrite parse_hex_str_spec. fold (hex_bytes s). destruct s; [congruence|reflexivity]. }
  rewrite U. clear U. split; [intros A O; rewrite (proj2 C1 (conj A O)); reflexivity|]. intros N. rewrite (C2 N). split.
  - intros ns Bl. rewrite (proj2 (ingenico_block_iff release64 masks s' ns (text_release s' F')) Bl). reflexivity.
  - intros Nb. destruct (ingenico_r64 masks s' F') as [P NF]. destruct (ingenico_parse release64 masks s') as [ns|er| |] eqn:R; [|clear R|congruence|congruence].
    { exfalso. apply (Nb ns). now apply (ingenico_block_iff release64 masks s' ns (text_release s' F')). }
    split; [intros O; rewrite (proj2 D1 O); reflexivity|]. intros O. rewrite (D2 O).
    assert (Bi : forall ns, ber_block masks s ns <-> ber_parse release64 masks (hex_bytes s) = Ok ns) by (intros ns; rewrite <- (ber_block_iff release64 masks s ns (text_release s F)), parse_hex_str_spec; reflexivity).
    split; [intros ns Bl; rewrite (proj1 (Bi ns) Bl); reflexivity|]. intros Nn.
    destruct (tlv_settles release64 masks OpBer s _ (text_release s F) eq_refl) as (_ & _ & _ & Pb & NFb & _). rewrite parse_hex_str_spec in Pb, NFb. fold (hex_bytes s) in Pb, NFb.
    destruct (ber_parse release64 masks (hex_bytes s)) as [ns| | |] eqn:R; [exfalso; now apply (Nn ns), Bi|reflexivity|exfalso; now apply Pb|exfalso; now apply NFb].
Qed.

(* The program started with --ingenico: it shows and refuses what a 64-bit build
   shows and refuses for the other text. *)
Lemma run_taken p st s s' : wrapping p -> fits32 s -> taken_as (set_masking st) s s' ->
  (ascii_text s' /\ text_overruns (2 ^ 32) (set_masking st) 0 s' -> o_panic (run_one p st OpIngenico s) = true)
  /\ (~ (ascii_text s' /\ text_overruns (2 ^ 32) (set_masking st) 0 s') -> run_one p st OpIngenico s = run_one (widened p) st OpIngenico s').
Proof.
  intros W F T. destruct (C102_read p _ s s' W F T) as [C1 C2]. destruct (taken_same p _ s s' W F T) as [_ F'].
  unfold run_one. cbn [value_result]. split; intros K.
  - assert (R : tlv_result p (set_masking st) OpIngenico s = Some Panic) by (cbn [tlv_result]; rewrite (proj2 C1 K); reflexivity). rewrite R. reflexivity.
  - assert (R : tlv_result p (set_masking st) OpIngenico s = tlv_result (widened p) (set_masking st) OpIngenico s').
    { rewrite result_widened by assumption. cbn [tlv_result]. now rewrite (C2 K). }
    rewrite R. destruct (tlv_result (widened p) (set_masking st) OpIngenico s'); [|reflexivity].
    apply run_op_eq; [reflexivity|]. intros fb. apply deq_then; [reflexivity|]. now apply display_block_eq.
Qed.
Theorem C102_shown : forall p e m st s s' ls, wrapping p -> fits32 s -> load_settings e m = Ok st -> chosen m OpIngenico s -> taken_as (set_masking st) s s' ->
  ~ (ascii_text s' /\ text_overruns (2 ^ 32) (set_masking st) 0 s') ->
  sheet (set_masking st) (set_sort st) OpIngenico s' ls -> displays (run_main p e m) ls.
Proof.
  intros p e m st s s' ls W F L C T N H. rewrite (main_chosen p e m st OpIngenico s L C), (proj2 (run_taken p st s s' W F T) N). destruct (taken_same p _ s s' W F T) as [_ F'].
  pose proof (widened_text p s' F') as T'. assert (H' : breakdown (set_masking st) (set_sort st) OpIngenico s' ls (deepest ls)) by (apply (C73_sheet (widened p)); auto). clear H. rename H' into H.
  destruct (run_one_exact (widened p) st OpIngenico s' T') as [(ls' & k' & B' & S & _)|(er & R & _)].
  - destruct (breakdown_det (widened p) _ _ OpIngenico s' ls _ ls' k' T' H B') as [El _]. rewrite El. apply S. intros K. cbn [widened overflow_checks] in K. destruct W as [_ W]. congruence.
  - exfalso. exact (breakdown_not_refused (widened p) _ _ OpIngenico s' ls _ er T' H R).
Qed.
Theorem C102_refused : forall p e m st s s' er, wrapping p -> fits32 s -> load_settings e m = Ok st -> chosen m OpIngenico s -> taken_as (set_masking st) s s' ->
  ~ (ascii_text s' /\ text_overruns (2 ^ 32) (set_masking st) 0 s') ->
  refused (set_masking st) OpIngenico s' er -> complains (run_main p e m) er.
Proof.
  intros p e m st s s' er W F L C T N H. rewrite (main_chosen p e m st OpIngenico s L C), (proj2 (run_taken p st s s' W F T) N). destruct (taken_same p _ s s' W F T) as [_ F'].
  pose proof (widened_text p s' F') as T'. destruct (run_one_exact (widened p) st OpIngenico s' T') as [(ls & k & B & _)|(er' & R' & K)].
  - exfalso. exact (breakdown_not_refused (widened p) _ _ OpIngenico s' ls k er T' B H).
  - now rewrite (refused_det (widened p) _ OpIngenico s' er er' T' H R').
Qed.
Theorem C102_crash : forall p e m st s s', wrapping p -> fits32 s -> load_settings e m = Ok st -> chosen m OpIngenico s -> taken_as (set_masking st) s s' ->
  (o_panic (run_main p e m) = true <-> ascii_text s' /\ text_overruns (2 ^ 32) (set_masking st) 0 s').
Proof.
  intros p e m st s s' W F L C T. destruct (run_taken p st s s' W F T) as [R1 _]. split.
  - intros P. destruct (C97_settled (set_masking st) (set_sort st) OpIngenico s' (proj2 (taken_same p _ s s' W F T))) as [(ls & Q & _)|(er & Q & _)].
    + destruct (C102_read p _ s s' W F T) as [C1 C2]. destruct (ingenico_parse p (set_masking st) s) as [x|x| |] eqn:E.
      3:{ now apply C1. }
      all: exfalso; assert (N : ~ (ascii_text s' /\ text_overruns (2 ^ 32) (set_masking st) 0 s')) by (intros K; apply C1 in K; discriminate).
      all: destruct (C102_shown p e m st s s' ls W F L C T N Q) as [Z _]; congruence.
    + destruct (C102_read p _ s s' W F T) as [C1 C2]. destruct (ingenico_parse p (set_masking st) s) as [x|x| |] eqn:E.
      3:{ now apply C1. }
      all: exfalso; assert (N : ~ (ascii_text s' /\ text_overruns (2 ^ 32) (set_masking st) 0 s')) by (intros K; apply C1 in K; discriminate).
      all: destruct (C102_refused p e m st s s' er W F L C T N Q) as [Z _]; congruence.
  - intros K. rewrite (main_chosen p e m st OpIngenico s L C). now apply R1.
Qed.

(* A length with its highest bit set, in the second field: such a build shows both fields, a 64-bit build refuses the text. *)
Lemma no_more masks s : high s = false -> (forall e sep rest, inext masks s = Ok (e, sep :: rest) -> ~ exists s'', one_less masks rest s'') -> ~ exists s'', one_less masks s s''.
Proof.
  intros H N (s'' & O). destruct (one_less_high masks _ _ O) as [K|(f & e & sep & r & r' & -> & _ & Hf & Hr)]; [congruence|].
  apply (N e sep r); [apply inext_iff; exists f; auto|now exists r'].
Qed.
Definition high_text : str := lit "T95:05:h8000000000,T9B:80000002:hE800".
Definition low_text : str := lit "T95:05:h8000000000,T9B:00000002:hE800".
Definition with_ingenico (s : str) : matches :=
  mkMatches None None None None None None None None None (Some s) None (Some (lit "auto", SrcDefault))
            (Some ([42], SrcDefault)) (Some (true, SrcDefault)) (Some (false, SrcDefault)).
Example C102_example : wrapping release32 /\ fits32 high_text /\ load_settings plain_env (with_ingenico high_text) = Ok (mkSettings TAuto [42] true)
  /\ chosen (with_ingenico high_text) OpIngenico high_text /\ taken_as [42] high_text low_text
  /\ ~ (ascii_text low_text /\ text_overruns (2 ^ 32) [42] 0 low_text)
  /\ (exists ls, sheet [42] true OpIngenico low_text ls)
  /\ ingenico_parse release64 [42] high_text = Err NonCompliant.
Proof.
  assert (T : taken_as [42] high_text low_text).
  { split.
    - apply Relation_Operators.rt1n_trans with low_text; [|apply rt1n_refl].
      apply (one_less_after [42] (lit "T95:05:h8000000000") (mkEntry letter_T [0x95] (Normal [0x80; 0; 0; 0; 0])) 44 (lit "T9B:80000002:hE800") (lit "T9B:00000002:hE800")).
      + assert (I : inext [42] (lit "T95:05:h8000000000") = Ok (mkEntry letter_T [0x95] (Normal [0x80; 0; 0; 0; 0]), [])) by (vm_compute; reflexivity).
        destruct (proj1 (inext_iff _ _ _ _) I) as (f & E & Hf). rewrite app_nil_r in E. rewrite E. exact Hf.
      + apply (one_less_here [42] 84 (lit "9B") [0x9B] 56 48 (lit "0000002") (lit "E800")).
        * apply tag_digits_iff; [reflexivity|]. split; [vm_compute; reflexivity|discriminate].
        * apply all_hex_iff. vm_compute. reflexivity.
        * left. reflexivity.
        * reflexivity.
    - apply no_more; [vm_compute; reflexivity|]. intros e sep rest I. vm_compute in I. injection I as _ _ <-.
      apply no_more; [vm_compute; reflexivity|]. intros e' sep' rest' I. vm_compute in I. discriminate I. }
  assert (R : ingenico_parse release32 [42] high_text <> Panic) by (vm_compute; intros K; discriminate K).
  split; [split; reflexivity|]. split; [reflexivity|]. split; [apply plain_settings; reflexivity|]. split; [split; [reflexivity|]|split; [assumption|]].
  1:{ exists [OpTvr; OpIad; OpCvr; OpTsi; OpCvmResults; OpCvmList; OpIdentify; OpAuto; OpBer], [OpServiceCode]. vm_compute. split; [reflexivity|]. repeat constructor. }
  split; [intros K; apply R; apply (C102_read release32 [42] high_text low_text); [split; reflexivity|reflexivity|assumption|assumption]|]. split.
  - destruct (C97_settled [42] true OpIngenico low_text eq_refl) as [(ls & Q & _)|(er & Q & _)]; [now exists ls|]. exfalso.
    assert (C' : chosen (with_ingenico low_text) OpIngenico low_text).
    { split; [reflexivity|]. exists [OpTvr; OpIad; OpCvr; OpTsi; OpCvmResults; OpCvmList; OpIdentify; OpAuto; OpBer], [OpServiceCode]. vm_compute. split; [reflexivity|]. repeat constructor. }
    destruct (C61_refused release64 plain_env (with_ingenico low_text) _ OpIngenico low_text er (plain_settings (with_ingenico low_text) eq_refl eq_refl eq_refl eq_refl) C' (text_release low_text eq_refl) Q) as (_ & _ & K & _).
    revert K. vm_compute. intros K. discriminate K.
  - vm_compute. reflexivity.
Qed.
