(** The properties of masked values on the screen. *)

From Coq Require Import ZArith NArith String List Bool Lia ZifyN ZifyBool ZifyNat Permutation Sorting.
From Verif Require Import Base ModelUtil ModelEnums ModelBitflag ModelSchemas ModelTags ModelTlv ModelValues ModelProcess ModelDisplay
  SpecUtil SpecCodes SpecValues SpecTlv SpecIngenico SpecTags SpecProcess SpecDisplay
  ProofsUtil ProofsGrammar ProofsBer ProofsIngenico ProofsValues PropertiesValues
  PropertiesBer PropertiesIngenico ProofsProcess PropertiesProcess ProofsDisplay ProofsDiagram ProofsScreens ProofsLayout PropertiesDisplay
  SpecPictures ProofsPictures ModelMain SpecMain ProofsMain PropertiesMain ModelCli SpecCli ProofsCli PropertiesCli PropertiesPictures
  SpecReading PropertiesReading ModelTerminal SpecTerminal ProofsTerminal PropertiesTerminal SpecJoin PropertiesJoin SpecMasking PropertiesMasking SpecHidden.
Import ListNotations.
Local Open Scope N_scope.

Lemma text64_tail p a b : text64 p (a ++ b) -> text64 p b.
Proof. intros [T1 T2]. split; [assumption|]. rewrite len_app in T2. lia. Qed.
Lemma masked_long masks v : masked masks v -> v <> [].
Proof. intros [L _] ->. cbn in L. lia. Qed.
Lemma hex_digits_all l : forallb is_hex_digitb l = true -> Forall is_hex_digit l.
Proof. rewrite forallb_forall, Forall_forall. intros H x I. now apply is_hex_digitb_spec, H. Qed.
Lemma hidden_result p masks op ty t x x' b : hidden masks op ty t x -> hidden masks op ty t x' ->
  text64 p (x ++ b) -> text64 p (x' ++ b) -> tlv_result p masks op (x ++ b) = tlv_result p masks op (x' ++ b).
Proof.
  intros H H' T T'. inversion H as [? ? ? l v Ev Ex Ht Hl Hm|? td ? ld n fmt v As Htd Hld Hf Hm]; subst; inversion H' as [? ? ? l' v' Ev' Ex' Ht' Hl' Hm'|? td' ? ld' n' fmt' v' As' Htd' Hld' Hf' Hm']; subst.
  - set (n := RawNode (mkRawTag t (class_of (first_byte t)) (type_of (first_byte t)) Masked) []).
    assert (P : forall y l v, Nat.even (List.length (filter is_hex_digitb y)) = true -> hex_bytes y = t ++ l ++ v -> ber_len l (len v) -> masked masks v -> part masks OpBer y [n]).
    { clear -Ht. intros y l v Ev Ey Hl Hm. apply part_ber; [assumption|]. exists [(t, v)]. split.
      - rewrite Ey. rewrite <- (app_nil_r v) at 1. eapply ber_objects_cons; [|apply ber_objects_nil]. apply ber_object_intro; [assumption..|].
        intros _. rewrite app_nil_r. now apply (masked_long masks).
      - constructor; [|constructor]. apply ber_tree_leaf; [now left|auto]. }
    destruct (part_result p masks OpBer x [n] b T (P _ _ _ Ev Ex Hl Hm)) as (r1 & r2 & E1 & E2 & ->).
    destruct (part_result p masks OpBer x' [n] b T' (P _ _ _ Ev' Ex' Hl' Hm')) as (r3 & r4 & E3 & E4 & ->). congruence.
  - set (f := ty :: td ++ colon :: ld ++ colon :: fmt :: v) in *. set (f' := ty :: td' ++ colon :: ld' ++ colon :: fmt' :: v') in *. clear H H'.
    assert (F : ing_field masks f (mkEntry ty t Masked)).
    { unfold f. econstructor; [eassumption..|]. destruct Hf as [[-> L]|[-> L]]; [apply ing_data_ascii|apply ing_data_masked]; auto. now left. }
    assert (F' : ing_field masks f' (mkEntry ty t Masked)).
    { unfold f'. econstructor; [eassumption..|]. destruct Hf' as [[-> L]|[-> L]]; [apply ing_data_ascii|apply ing_data_masked]; auto. now left. }
    cbn [tlv_result]. rewrite !(ingenico_parse_eq p masks) by (apply text64_roomy; assumption).
    assert (A : is_ascii f = true) by now apply is_ascii_iff. assert (A' : is_ascii f' = true) by now apply is_ascii_iff.
    assert (X : forall y, is_ascii y = true -> is_ascii (y ++ b) = is_ascii b) by (intros y Y; apply eq_true_iff_eq; apply is_ascii_iff in Y; rewrite !is_ascii_iff; unfold ascii_text in *; rewrite Forall_app; tauto).
    rewrite !X by assumption. destruct (is_ascii b) eqn:B; [|reflexivity].
    assert (K : ascii_text (f ++ b)) by (apply is_ascii_iff; exact (X f A)). assert (K' : ascii_text (f' ++ b)) by (apply is_ascii_iff; exact (X f' A')).
    rewrite (parse_text_field masks f _ b K F), (parse_text_field masks f' _ b K' F'). reflexivity.
Qed.

Lemma differ_chosen op s s' m m' : differ op s s' m m' -> forall o x, chosen m o x -> o = op /\ x = s /\ chosen m' op s' \/ o <> op /\ chosen m' o x.
Proof.
  intros (G & G' & O & _) o x (Gx & before & after & E & F).
  assert (D : {o = op} + {o <> op}) by decide equality. destruct D as [->|D]; [left|right; split; [assumption|]].
  - split; [reflexivity|]. split; [congruence|]. split; [assumption|]. exists before, after. split; [assumption|].
    rewrite Forall_forall in *. intros q I. rewrite <- O; [now apply F|]. intros ->. rewrite (F op I) in G. discriminate.
  - split; [now rewrite <- O|]. exists before, after. split; [assumption|]. rewrite Forall_forall in *. intros q I. rewrite <- O; [now apply F|].
    intros ->. rewrite (F op I) in G. discriminate.
Qed.

(** ** C92: a masked value leaves no trace *)

(* Whatever precedes and follows a masked object at the top level, and whether or not all of it
   can be read, the program's output depends neither on the length of the masked value nor on
   its characters or the way its length is written. *)
Theorem C92_traceless : forall p e m m' st op ty t a na x x' b, load_settings e m = Ok st -> part (set_masking st) op a na ->
  hidden (set_masking st) op ty t x -> hidden (set_masking st) op ty t x' -> differ op (a ++ x ++ b) (a ++ x' ++ b) m m' ->
  text64 p (a ++ x ++ b) -> text64 p (a ++ x' ++ b) -> load_settings e m' = Ok st /\ run_main p e m = run_main p e m'.
Proof.
  intros p e m m' st op ty t a na x x' b L P H H' D T T'. pose proof L as L'. rewrite (settings_differ _ _ _ e m m' D) in L'. split; [assumption|].
  destruct (chosen_or_none m) as [(o & y & C)|N]; [|destruct D as (G & _); rewrite (N op) in G; discriminate].
  destruct (differ_chosen _ _ _ _ _ D _ _ C) as [(-> & -> & C')|[_ C']]; rewrite (main_chosen p e m st _ _ L C), (main_chosen p e m' st _ _ L' C'); [|reflexivity].
  unfold run_one. assert (V : forall s, value_result op s = None) by (intros s; inversion P; reflexivity). rewrite !V.
  destruct (part_result p _ op a na _ T P) as (r1 & r2 & E1 & E2 & ->), (part_result p _ op a na _ T' P) as (r3 & r4 & E3 & E4 & ->).
  rewrite E1, E3. rewrite (hidden_result p _ op ty t x x' b H H' (text64_tail p a _ T) (text64_tail p a _ T')) in E2. assert (r2 = r4) as -> by congruence. reflexivity.
Qed.
(* Inside a template the value does leave a trace: the template's bytes are printed as well. *)
Theorem C92_template_refuted : exists ty t x x', hidden [42] OpBer ty t x /\ hidden [42] OpBer ty t x'
  /\ exists y y', hex_bytes y = std_object [0x70] (hex_bytes x) /\ hex_bytes y' = std_object [0x70] (hex_bytes x')
  /\ o_stdout (run_main p64 plain_env (with_ber y)) <> o_stdout (run_main p64 plain_env (with_ber y')).
Proof.
  exists 0, [0x5A], (lit "5A022A2A"), (lit "5A032A2A2A").
  assert (M : forall k, masked [42] (42 :: 42 :: repeat 42 k)) by (intros k; split; [cbn; lia|]; exists 42; split; [cbn; tauto|]; repeat constructor; induction k; constructor; auto).
  split; [apply (hidden_ber _ _ _ _ [2] [42; 42]); [reflexivity|vm_compute; reflexivity|now constructor|now constructor|exact (M 0%nat)]|].
  split; [apply (hidden_ber _ _ _ _ [3] [42; 42; 42]); [reflexivity|vm_compute; reflexivity|now constructor|now constructor|exact (M 1%nat)]|].
  exists (lit "70045A022A2A"), (lit "70055A032A2A2A"). split; [vm_compute; reflexivity|]. split; [vm_compute; reflexivity|].
  vm_compute. intros K. discriminate K.
Qed.
(* Nor is it so when the format is guessed: an Ingenico text that cannot be read is read again
   as hex digits, and the written length of the masked value counts as one of them. *)
Theorem C92_auto_refuted : exists ty t x x' b, hidden [42] OpIngenico ty t x /\ hidden [42] OpIngenico ty t x'
  /\ (exists ls, sheet [42] true OpAuto (x ++ b) ls) /\ (exists er, refused [42] OpAuto (x' ++ b) er).
Proof.
  exists letter_T, [0x5A], (lit "T5A:03:h******"), (lit "T5A:02:h****"), (lit ";T: 313233").
  assert (F : forall ld n v, Forall is_hex_digit ld -> (List.length ld <= 9)%nat -> n = be_value (bytes_of_digits ld) -> len v = 2 * n -> masked [42] v -> ascii_text (ld ++ v) ->
    hidden [42] OpIngenico letter_T [0x5A] (letter_T :: lit "5A" ++ colon :: ld ++ colon :: letter_h :: v)).
  { intros ld n v H1 H2 H3 H4 H5 H6. apply (hidden_field _ _ _ _ _ n); [|split; [now apply hex_digits_all|exists 0%nat; repeat split; discriminate]|repeat split; assumption|right; split; [reflexivity|assumption]|assumption].
    apply Forall_app in H6. destruct H6 as [A B]. cbn [lit]. repeat (constructor; [reflexivity|]). cbn. repeat (constructor; [reflexivity|]). apply Forall_app. split; [assumption|]. repeat (constructor; [reflexivity|]). assumption. }
  assert (M : forall k, masked [42] (42 :: 42 :: repeat 42 k)) by (intros k; split; [cbn; lia|]; exists 42; split; [cbn; tauto|]; repeat constructor; induction k; constructor; auto).
  split; [apply (F (lit "03") 3 (lit "******")); [now apply hex_digits_all|cbn; lia|vm_compute; reflexivity|reflexivity|exact (M 4%nat)|repeat constructor]|].
  split; [apply (F (lit "02") 2 (lit "****")); [now apply hex_digits_all|cbn; lia|vm_compute; reflexivity|reflexivity|exact (M 2%nat)|repeat constructor]|].
  set (s := lit "T5A:03:h******" ++ lit ";T: 313233"). set (s' := lit "T5A:02:h****" ++ lit ";T: 313233").
  assert (T : text64 p64 s) by (split; vm_compute; reflexivity). assert (T' : text64 p64 s') by (split; vm_compute; reflexivity).
  split.
  - destruct (C73_total p64 [42] true OpAuto s T) as [(ls & S & _)|(er & R & _)]; [eauto|exfalso].
    destruct (tlv_settles p64 [42] OpAuto s _ T eq_refl) as (_ & _ & Z & _). destruct (Z er R) as [Z'|(f & ns & Z' & K)]; [vm_compute in Z'; discriminate Z'|].
    vm_compute in Z'. injection Z' as <- <-. destruct K as (bf & tg & af & E & _ & d & D & Rj). cbn in E. destruct bf as [|? bf]; cbn in E; [|destruct bf; discriminate].
    injection E as <- <-. cbn in D. injection D as <-. cbn [rt_tag] in Rj. inversion Rj as [? ? ? In0 Ln| | | | | | |]; subst. cbn in In0. repeat (destruct In0 as [In0|In0]; [discriminate|]). destruct In0.
  - eexists. apply (proj1 (proj2 (tlv_settles p64 [42] OpAuto s' _ T' eq_refl))). vm_compute. reflexivity.
Qed.
Example C92_example : hidden [42] OpIngenico letter_T [0x5A] (lit "T5A:03:h******") /\ hidden [42] OpIngenico letter_T [0x5A] (lit "T5A:0008:a********")
  /\ hidden [42] OpBer 0 [0x5A] (lit "5A 02 2A2A") /\ hidden [42] OpBer 0 [0x5A] (lit "5A8103 2A2A2A")
  /\ (exists na, part [42] OpBer (lit "9B02E800") na)
  /\ let out x := o_stdout (run_main p64 plain_env (with_ber (lit "9B02E800" ++ x ++ lit "9A03"))) in
     let err x := o_stderr (run_main p64 plain_env (with_ber (lit "9B02E800" ++ x ++ lit "9A03"))) in
     out (lit "5A 02 2A2A") = [] /\ err (lit "5A 02 2A2A") <> []
  /\ let out x := o_stdout (run_main p64 plain_env (with_ber (lit "9B02E800" ++ x))) in
     out (lit "5A 02 2A2A") <> [] /\ out (lit "5A 02 2A2A") <> out (lit "5A 02 2A2B").
Proof.
  assert (M : forall k, masked [42] (42 :: 42 :: repeat 42 k)) by (intros k; split; [cbn; lia|]; exists 42; split; [cbn; tauto|]; repeat constructor; induction k; constructor; auto).
  assert (F : forall ld n fmt v, fmt = letter_a /\ len v = n \/ fmt = letter_h /\ len v = 2 * n -> Forall is_hex_digit ld -> (List.length ld <= 9)%nat -> n = be_value (bytes_of_digits ld) -> masked [42] v -> ascii_text (ld ++ fmt :: v) ->
    hidden [42] OpIngenico letter_T [0x5A] (letter_T :: lit "5A" ++ colon :: ld ++ colon :: fmt :: v)).
  { intros ld n fmt v H4 H1 H2 H3 H5 H6. apply (hidden_field _ _ _ _ _ n); [|split; [now apply hex_digits_all|exists 0%nat; repeat split; discriminate]|repeat split; assumption|assumption|assumption].
    apply Forall_app in H6. destruct H6 as [A B]. repeat (constructor; [reflexivity|]). cbn. repeat (constructor; [reflexivity|]). apply Forall_app. split; [assumption|]. repeat (constructor; [reflexivity|]). assumption. }
  split; [apply (F (lit "03") 3 letter_h (lit "******")); [right; split; reflexivity|now apply hex_digits_all|cbn; lia|vm_compute; reflexivity|exact (M 4%nat)|repeat constructor]|].
  split; [apply (F (lit "0008") 8 letter_a (lit "********")); [left; split; reflexivity|now apply hex_digits_all|cbn; lia|vm_compute; reflexivity|exact (M 6%nat)|repeat constructor]|].
  split; [apply (hidden_ber _ _ _ _ [2] [42; 42]); [reflexivity|vm_compute; reflexivity|now constructor|now constructor|exact (M 0%nat)]|].
  split; [apply (hidden_ber _ _ _ _ [0x81; 3] [42; 42; 42]); [reflexivity|vm_compute; reflexivity|now constructor|apply (ber_len_long [3]); cbn; lia|exact (M 1%nat)]|].
  split. { eexists. apply part_ber; [reflexivity|]. apply (ber_block_iff p64); [split; reflexivity|]. vm_compute. reflexivity. }
  cbv zeta. split; [vm_compute; reflexivity|]. split; [vm_compute; intros K; discriminate K|]. split; vm_compute; intros K; discriminate K.
Qed.
