(** The properties of announced lengths that a build cannot count: exactly when a build crashes. *)

From Coq Require Import NArith String List Bool PeanoNat Lia ZifyN ZifyBool ZifyNat.
From Verif Require Import Base ModelUtil ModelEnums ModelTlv ModelValues ModelProcess ModelDisplay ModelCli ModelWords ModelEnv ModelTerminal ModelFiles SpecUtil SpecTlv SpecIngenico SpecDisplay SpecCli SpecWords
  ProofsUtil ProofsGrammar ProofsBer ProofsIngenico PropertiesBer
  ModelMain SpecMain ProofsMain PropertiesMain ProofsCli PropertiesCli ProofsWords PropertiesWords SpecPictures PropertiesPictures SpecBuilds ProofsBuilds PropertiesBuilds SpecWidth ProofsWidth PropertiesWidth
  SpecOverrun ProofsOverrun.
Import ListNotations.
Local Open Scope N_scope.

(** C100: exactly when an announced length crashes a build. *)
Theorem C100_ber : forall p masks bytes, build p -> bytes_ok bytes -> fits32 bytes ->
  (ber_parse p masks bytes = Panic <-> overruns (usize_limit p) masks 0 bytes)
  /\ (~ overruns (usize_limit p) masks 0 bytes -> ber_parse p masks bytes = ber_parse release64 masks bytes).
Proof.
  intros p masks bytes B O F. pose proof (ber_parse_crash p masks bytes B O F) as C. split; [exact C|].
  intros N. destruct (ber_parse_same p masks bytes B O F) as [E|E]; [exfalso; apply N, C, E|exact E].
Qed.
Theorem C100_ingenico : forall p masks s, build p -> doubling_safe p -> fits32 s ->
  (ingenico_parse p masks s = Panic <-> ascii_text s /\ text_overruns (usize_limit p) masks 0 s)
  /\ (~ (ascii_text s /\ text_overruns (usize_limit p) masks 0 s) -> ingenico_parse p masks s = ingenico_parse release64 masks s).
Proof.
  intros p masks s B Sf F. pose proof (ingenico_parse_crash p masks s B Sf F) as C. split; [exact C|].
  intros N. destruct (ingenico_parse_same p masks s B Sf F) as [E|E]; [exfalso; apply N, C, E|exact E].
Qed.
Lemma text_release s : fits32 s -> text64 release64 s.
Proof. intros F. split; [reflexivity|]. unfold fits32 in F. change (2 ^ 31) with 2147483648 in F. change (2 ^ 63) with 9223372036854775808. lia. Qed.
Lemma ingenico_r64 masks s : fits32 s -> ingenico_parse release64 masks s <> Panic /\ ingenico_parse release64 masks s <> NoFuel.
Proof.
  intros F. destruct (tlv_settles release64 masks OpIngenico s _ (text_release s F) eq_refl) as (_ & _ & _ & P & N & _).
  split; intros E; rewrite E in *; [apply P|apply N]; reflexivity.
Qed.
Theorem C100_auto : forall p masks s, build p -> doubling_safe p -> fits32 s ->
  (auto_parse p masks s = Panic <-> argument_overruns (usize_limit p) masks OpAuto s)
  /\ (~ argument_overruns (usize_limit p) masks OpAuto s -> auto_parse p masks s = auto_parse release64 masks s).
Proof.
  intros p masks s B Sf F.
  assert (C : auto_parse p masks s = Panic <-> argument_overruns (usize_limit p) masks OpAuto s).
  { pose proof (ingenico_parse_crash p masks s B Sf F) as Ci. destruct (hex_fits s F) as [Oh Fh]. pose proof (ber_parse_crash p masks _ B Oh Fh) as Cb.
    pose proof (ber_parse_fuel p masks _ B Oh Fh) as Nb. rewrite parse_hex_str_spec in Oh, Fh, Cb, Nb. unfold auto_parse. rewrite parse_hex_str_spec. fold (hex_bytes s) in *.
    destruct s as [|c s].
    { split; [discriminate|]. intros H. inversion H as [| |? _ T|? Ne]; subst; [now apply text_overruns_nil in T|congruence]. }
    set (x := c :: s) in *. assert (Nx : x <> []) by discriminate. clearbody x. clear c s.
    destruct (ingenico_parse_same p masks x B Sf F) as [E|E].
    { rewrite E. split; [|reflexivity]. intros _. apply Ci in E. destruct E. now apply overruns_auto_ingenico. }
    assert (Ni : ~ (ascii_text x /\ text_overruns (usize_limit p) masks 0 x)) by (intros K; apply Ci in K; destruct (ingenico_r64 masks x F); congruence).
    destruct (ingenico_r64 masks x F) as [P N]. rewrite E. destruct (ingenico_parse release64 masks x) as [ns|er| |] eqn:R; [| |congruence|congruence].
    - split; [discriminate|]. intros H. inversion H as [| |? A T|? Ne Nb' Ob]; subst; [now contradiction Ni|]. exfalso. apply (Nb' ns). now apply (ingenico_block_iff release64 masks x ns (text_release x F)).
    - assert (Nn : forall ns, ~ ingenico_block masks x ns) by (intros ns K; apply (ingenico_block_iff release64 masks x ns (text_release x F)) in K; congruence).
      assert (Q : overruns (usize_limit p) masks 0 (hex_bytes x) <-> argument_overruns (usize_limit p) masks OpAuto x).
      { split; [intros K; now apply overruns_auto_ber|]. intros K. inversion K; subst; [now contradiction Ni|assumption]. }
      rewrite <- Q, <- Cb. destruct (ber_parse p masks (hex_bytes x)); split; congruence. }
  split; [exact C|]. intros N. destruct (auto_parse_same p masks s B Sf F) as [E|E]; [exfalso; apply N, C, E|exact E].
Qed.

(* The operations whose argument can be Ingenico text need builds in which doubling a length cannot wrap around unnoticed. *)
Definition counts (p : platform) (op : operation) : Prop := op = OpAuto \/ op = OpIngenico -> doubling_safe p.
Lemma result_build p masks op s : build p -> counts p op -> fits32 s ->
  (argument_overruns (usize_limit p) masks op s -> tlv_result p masks op s = Some Panic)
  /\ (~ argument_overruns (usize_limit p) masks op s -> tlv_result p masks op s = tlv_result release64 masks op s).
Proof.
  intros B Sf F. destruct op; cbn [tlv_result].
  8:{ destruct (C100_auto p masks s B (Sf (or_introl eq_refl)) F) as [C1 C2]. split; intros K; [rewrite (proj2 C1 K); reflexivity|rewrite (C2 K); reflexivity]. }
  8:{ destruct (hex_fits s F) as [O F']. destruct (C100_ber p masks _ B O F') as [C1 C2]. rewrite parse_hex_str_spec in *. fold (hex_bytes s) in *. split; intros K.
    - inversion K; subst. rewrite (proj2 C1) by assumption. reflexivity.
    - rewrite C2; [reflexivity|]. intros Q. apply K. now constructor. }
  8:{ destruct (C100_ingenico p masks s B (Sf (or_intror eq_refl)) F) as [C1 C2]. split; intros K.
    - inversion K; subst. rewrite (proj2 C1) by auto. reflexivity.
    - rewrite C2; [reflexivity|]. intros [Q1 Q2]. apply K. now constructor. }
  all: split; [intros K; inversion K|reflexivity].
Qed.
Lemma result_widened p masks op s : fits32 s -> tlv_result (widened p) masks op s = tlv_result release64 masks op s.
Proof.
  intros F. assert (R : forall q n, usize_bits q = 64 -> n < 2 ^ 31 -> roomy q n) by (intros q n W L; apply roomy_64; [assumption|change (2 ^ 31) with 2147483648 in L; change (2 ^ 63) with 9223372036854775808; lia]).
  destruct (hex_fits s F) as [O F'].
  assert (Eb : ber_parse (widened p) masks (parse_hex_str s) = ber_parse release64 masks (parse_hex_str s)) by (rewrite !ber_parse_eq by (try assumption; now apply R); reflexivity).
  assert (Ei : ingenico_parse (widened p) masks s = ingenico_parse release64 masks s) by (rewrite !ingenico_parse_eq by (now apply R); reflexivity).
  destruct op; cbn [tlv_result].
  8:{ unfold auto_parse. rewrite Eb, Ei. reflexivity. } 8:{ rewrite Eb. reflexivity. } 8:{ rewrite Ei. reflexivity. } all: reflexivity.
Qed.
Lemma run_build p st op s : build p -> counts p op -> fits32 s ->
  (argument_overruns (usize_limit p) (set_masking st) op s -> o_panic (run_one p st op s) = true)
  /\ (~ argument_overruns (usize_limit p) (set_masking st) op s -> run_one p st op s = run_one (widened p) st op s).
Proof.
  intros B Sf F. destruct (result_build p (set_masking st) op s B Sf F) as [R1 R2]. unfold run_one. split; intros K.
  - assert (V : value_result op s = None) by (inversion K; reflexivity). rewrite V, (R1 K). reflexivity.
  - destruct (value_result op s) as [r|].
    + apply run_op_eq; [reflexivity|]. intros v. now apply display_value_eq.
    + rewrite (R2 K), result_widened by assumption. destruct (tlv_result release64 (set_masking st) op s); [|reflexivity].
      apply run_op_eq; [reflexivity|]. intros fb. apply deq_then; [reflexivity|]. now apply display_block_eq.
Qed.
Lemma overruns_dec p masks op s : build p -> counts p op -> fits32 s -> argument_overruns (usize_limit p) masks op s \/ ~ argument_overruns (usize_limit p) masks op s.
Proof.
  intros B Sf F. destruct op; try (right; intros K; now inversion K).
  - destruct (C100_auto p masks s B (Sf (or_introl eq_refl)) F) as [C1 _]. rewrite <- C1. destruct (auto_parse p masks s); try (right; discriminate). now left.
  - destruct (hex_fits s F) as [O F']. destruct (C100_ber p masks _ B O F') as [C1 _]. rewrite parse_hex_str_spec in *. fold (hex_bytes s) in *.
    assert (X : argument_overruns (usize_limit p) masks OpBer s <-> overruns (usize_limit p) masks 0 (hex_bytes s)) by (split; [intros K; now inversion K|now constructor]).
    rewrite X, <- C1. destruct (ber_parse p masks (hex_bytes s)); try (right; discriminate). now left.
  - destruct (C100_ingenico p masks s B (Sf (or_intror eq_refl)) F) as [C1 _].
    assert (X : argument_overruns (usize_limit p) masks OpIngenico s <-> ascii_text s /\ text_overruns (usize_limit p) masks 0 s) by (split; [intros K; now inversion K|intros [? ?]; now constructor]).
    rewrite X, <- C1. destruct (ingenico_parse p masks s); try (right; discriminate). now left.
Qed.
(* The program: what any build shows and complains about, and when it crashes. *)
Theorem C100_shown : forall p e m st op s ls, build p -> counts p op -> fits32 s -> load_settings e m = Ok st -> chosen m op s ->
  ~ argument_overruns (usize_limit p) (set_masking st) op s ->
  sheet (set_masking st) (set_sort st) op s ls -> fits p (deepest ls) -> displays (run_main p e m) ls.
Proof.
  intros p e m st op s ls B Sf F L C N H G. rewrite (main_chosen p e m st op s L C). destruct (run_build p st op s B Sf F) as [_ R]. rewrite (R N), <- (main_chosen (widened p) e m st op s L C).
  apply (C73_shown (widened p) e m st op s ls L C); try assumption. now apply widened_text.
Qed.
Theorem C100_refused : forall p e m st op s er, build p -> counts p op -> fits32 s -> load_settings e m = Ok st -> chosen m op s ->
  ~ argument_overruns (usize_limit p) (set_masking st) op s ->
  refused (set_masking st) op s er -> complains (run_main p e m) er.
Proof.
  intros p e m st op s er B Sf F L C N H. rewrite (main_chosen p e m st op s L C). destruct (run_build p st op s B Sf F) as [_ R]. rewrite (R N), <- (main_chosen (widened p) e m st op s L C).
  apply (C61_refused (widened p) e m st op s er L C); try assumption. now apply widened_text.
Qed.
Theorem C100_crash : forall p e m st op s, build p -> counts p op -> fits32 s -> load_settings e m = Ok st -> chosen m op s ->
  (o_panic (run_main p e m) = true <->
   argument_overruns (usize_limit p) (set_masking st) op s
   \/ exists ls, sheet (set_masking st) (set_sort st) op s ls /\ overflow_checks p = true /\ 256 <= deepest ls).
Proof.
  intros p e m st op s B Sf F L C. destruct (run_build p st op s B Sf F) as [R1 R2]. rewrite <- (main_chosen p e m st op s L C) in R1, R2.
  assert (T : text64 (widened p) s) by now apply widened_text.
  assert (X : ~ argument_overruns (usize_limit p) (set_masking st) op s ->
    (o_panic (run_main p e m) = true <-> exists ls, sheet (set_masking st) (set_sort st) op s ls /\ overflow_checks p = true /\ 256 <= deepest ls)).
  { intros N. rewrite (R2 N), <- (main_chosen (widened p) e m st op s L C). split.
    - intros H. destruct (C97_settled (set_masking st) (set_sort st) op s F) as [(ls & Q & _)|(er & Q & _)].
      + exists ls. split; [assumption|].
        assert (NF : ~ fits (widened p) (deepest ls)) by (intros G; destruct (C73_shown (widened p) e m st op s ls L C T Q G) as (S1 & _); congruence).
        unfold fits in NF. cbn [widened overflow_checks] in NF. destruct (overflow_checks p); [|exfalso; apply NF; discriminate].
        split; [reflexivity|]. destruct (N.lt_ge_cases (deepest ls) 256) as [G|G]; [exfalso; now apply NF|exact G].
      + destruct (C61_refused (widened p) e m st op s er L C T Q) as (S1 & _). congruence.
    - intros (ls & Q & Ck & K). apply (C73_overflow (widened p) e m st op s ls L C T Q); now split. }
  destruct (overruns_dec p (set_masking st) op s B Sf F) as [Q|Q].
  - split; [now left|intros _; now apply R1].
  - rewrite (X Q). split; [now right|]. now intros [K|K].
Qed.
(* Wider pointers crash no more often. *)
Lemma overruns_wider limit limit' masks off bytes : limit <= limit' -> overruns limit' masks off bytes -> overruns limit masks off bytes.
Proof.
  intros L H. induction H as [off t l n rest Ht Hl Hf Hn|off bytes t v rest O T M H IH|off bytes t v rest O H IH].
  - eapply overruns_here; try eassumption. lia.
  - eapply overruns_inside; eassumption.
  - eapply overruns_after; eassumption.
Qed.
Lemma text_overruns_wider limit limit' masks off s : limit <= limit' -> text_overruns limit' masks off s -> text_overruns limit masks off s.
Proof.
  intros L H. induction H as [off ty td t ld n fmt k rest Ht Hl Hk Hn|off f t v rest F T H|off f e sep rest F H IH].
  - eapply text_overruns_here; try eassumption. lia.
  - eapply text_overruns_inside; try eassumption. eapply overruns_wider; eassumption.
  - eapply text_overruns_after; eassumption.
Qed.
Lemma argument_overruns_wider limit limit' masks op s : limit <= limit' -> argument_overruns limit' masks op s -> argument_overruns limit masks op s.
Proof.
  intros L H. inversion H; subst.
  - apply overruns_ber. eapply overruns_wider; eassumption.
  - apply overruns_ingenico; [assumption|]. eapply text_overruns_wider; eassumption.
  - apply overruns_auto_ingenico; [assumption|]. eapply text_overruns_wider; eassumption.
  - apply overruns_auto_ber; try assumption. eapply overruns_wider; eassumption.
Qed.
Lemma counts_wider p q op : usize_bits p <= usize_bits q -> overflow_checks p = overflow_checks q -> counts p op -> counts q op.
Proof. intros W E C K. destruct (C K) as [D|D]; [left; congruence|right; lia]. Qed.
Theorem C100_wider : forall p q e m, build p -> usize_bits p <= usize_bits q -> overflow_checks p = overflow_checks q ->
  arguments32 m -> (forall op s, given m op = Some s -> counts p op) -> o_panic (run_main p e m) = false -> run_main q e m = run_main p e m.
Proof.
  intros p q e m B W E A Sf P. assert (Bq : build q) by (unfold build in *; lia).
  destruct (load_settings e m) as [st|er| |] eqn:L; [|unfold run_main; rewrite L; reflexivity|unfold run_main; rewrite L; reflexivity|unfold run_main; rewrite L; reflexivity].
  destruct (chosen_or_none m) as [(op & s & C)|N]; [|now rewrite !(main_none _ e m st L N)].
  pose proof (A op s (proj1 C)) as F. pose proof (Sf op s (proj1 C)) as Sp. rewrite (main_chosen p e m st op s L C) in *. rewrite (main_chosen q e m st op s L C).
  destruct (run_build p st op s B Sp F) as [R1 R2]. destruct (run_build q st op s Bq (counts_wider p q op W E Sp) F) as [_ Q2].
  assert (N : ~ argument_overruns (usize_limit p) (set_masking st) op s) by (intros K; rewrite (R1 K) in P; discriminate P).
  rewrite (R2 N), Q2; [unfold widened; now rewrite E|]. intros K. apply N. eapply argument_overruns_wider; [|exact K]. unfold usize_limit. apply N.pow_le_mono_r; lia.
Qed.
(* With pointers of 34 bits or more no data overruns, and small lengths overrun no build. *)
Lemma release_settles masks op s r : fits32 s -> tlv_result release64 masks op s = Some r -> r <> Panic.
Proof. intros F E. destruct (tlv_settles release64 masks op s r (text_release s F) E) as (_ & _ & _ & P & _). intros ->. now apply P. Qed.
Definition checking (p : platform) : platform := {| usize_bits := usize_bits p; overflow_checks := true |}.
Lemma no_overrun p masks op s : build p -> fits32 s -> tlv_result (checking p) masks op s = tlv_result release64 masks op s -> ~ argument_overruns (usize_limit p) masks op s.
Proof.
  intros B F E K. destruct (result_build (checking p) masks op s B ltac:(now left) F) as [R _]. change (usize_limit (checking p)) with (usize_limit p) in R.
  rewrite (R K) in E. symmetry in E. now apply (release_settles _ _ _ _ F E).
Qed.
Theorem C100_wide : forall p masks op s, 34 <= usize_bits p -> fits32 s -> ~ argument_overruns (usize_limit p) masks op s.
Proof.
  intros p masks op s W F. apply no_overrun; [unfold build; lia|assumption|].
  assert (R : forall n, n < 2 ^ 31 -> roomy (checking p) n).
  { intros n L. unfold roomy, usize_limit. cbn [checking usize_bits]. assert (2 ^ 34 <= 2 ^ usize_bits p) by (apply N.pow_le_mono_r; lia).
    change (2 ^ 34) with 17179869184 in *. change (2 ^ 31) with 2147483648 in *. change (2 ^ 33) with 8589934592. lia. }
  assert (R' : forall n, n < 2 ^ 31 -> roomy release64 n) by (intros n L; apply roomy_64; [reflexivity|change (2 ^ 31) with 2147483648 in L; change (2 ^ 63) with 9223372036854775808; lia]).
  destruct (hex_fits s F) as [O F'].
  assert (Eb : ber_parse (checking p) masks (parse_hex_str s) = ber_parse release64 masks (parse_hex_str s)) by (rewrite !ber_parse_eq by (try assumption; first [now apply R|now apply R']); reflexivity).
  assert (Ei : ingenico_parse (checking p) masks s = ingenico_parse release64 masks s) by (rewrite !ingenico_parse_eq by (first [now apply R|now apply R']); reflexivity).
  destruct op; cbn [tlv_result].
  8:{ unfold auto_parse. rewrite Eb, Ei. reflexivity. } 8:{ rewrite Eb. reflexivity. } 8:{ rewrite Ei. reflexivity. } all: reflexivity.
Qed.
Theorem C100_small : forall p masks op s, build p -> fits32 s -> small op s -> ~ argument_overruns (usize_limit p) masks op s.
Proof.
  intros p masks op s B F S. apply no_overrun; [assumption|assumption|]. assert (B' : build (checking p)) by exact B. destruct (hex_fits s F) as [O F']. destruct op; cbn [tlv_result small] in *.
  8:{ rewrite (auto_parse_small (checking p) masks s B' F (proj1 S) (proj2 S)). reflexivity. }
  8:{ rewrite (ber_parse_small (checking p) masks _ B' O F' (hex_small _ S)). reflexivity. }
  8:{ rewrite (ingenico_parse_small (checking p) masks s B' F (proj1 S) (proj2 S)). reflexivity. } all: reflexivity.
Qed.
(* That the lengths are large is not enough for a crash. *)
Theorem C100_large_refuted : exists s, fits32 s /\ ~ small_ber s /\ ~ argument_overruns (usize_limit release32) [] OpBer s.
Proof.
  exists (lit "91 84 FF FF FF F9 00"). split; [reflexivity|]. split.
  - intros H. specialize (H [57; 49] 70 (lit "FFFFFF900") eq_refl). vm_compute in H. discriminate H.
  - apply no_overrun; [unfold build; cbn; lia|reflexivity|vm_compute; reflexivity].
Qed.
Example C100_example : build release32 /\ counts release32 OpBer /\ counts debug32 OpIngenico
  /\ chosen (with_ber (lit "E1 07 91 84 FF FF FF FF 00")) OpBer (lit "E1 07 91 84 FF FF FF FF 00")
  /\ argument_overruns (usize_limit release32) [] OpBer (lit "E1 07 91 84 FF FF FF FF 00")
  /\ argument_overruns (usize_limit debug32) [] OpIngenico (lit "T9C:80000001:h21").
Proof.
  split; [unfold build; cbn; lia|]. split; [intros [K|K]; discriminate K|]. split; [intros _; now left|].
  assert (E : hex_bytes (lit "E1 07 91 84 FF FF FF FF 00") = [0xE1; 7; 0x91; 0x84; 0xFF; 0xFF; 0xFF; 0xFF; 0]) by (vm_compute; reflexivity).
  split; [split; [reflexivity|]|]. 1:{ exists [OpTvr; OpIad; OpCvr; OpTsi; OpCvmResults; OpCvmList; OpIdentify; OpAuto], [OpIngenico; OpServiceCode]. vm_compute. split; [reflexivity|]. repeat constructor. } split.
  - constructor. rewrite E. eapply overruns_inside with (t := [0xE1]) (v := [0x91; 0x84; 0xFF; 0xFF; 0xFF; 0xFF; 0]) (rest := []).
    + change [0xE1; 7; 0x91; 0x84; 0xFF; 0xFF; 0xFF; 0xFF; 0] with ([0xE1] ++ [7] ++ [0x91; 0x84; 0xFF; 0xFF; 0xFF; 0xFF; 0] ++ []).
      apply ber_object_intro; [constructor; vm_compute; discriminate|now apply (ber_len_short 7)|intros _; discriminate].
    + reflexivity.
    + intros (_ & m & I & _). destruct I.
    + change [0x91; 0x84; 0xFF; 0xFF; 0xFF; 0xFF; 0] with ([0x91] ++ [0x84; 0xFF; 0xFF; 0xFF; 0xFF] ++ [0]). eapply overruns_here.
      * constructor. vm_compute. discriminate.
      * apply (ber_len_long [0xFF; 0xFF; 0xFF; 0xFF]). cbn. lia.
      * discriminate.
      * vm_compute. discriminate.
  - assert (C : ingenico_parse debug32 [] (lit "T9C:80000001:h21") = Panic) by (vm_compute; reflexivity).
    apply (C100_ingenico debug32 [] (lit "T9C:80000001:h21")) in C; [|unfold build; cbn; lia|now left|reflexivity]. destruct C. now constructor.
Qed.
