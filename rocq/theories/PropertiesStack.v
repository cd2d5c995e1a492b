(** The property of runs on a limited stack. *)

From Coq Require Import ZArith NArith List String Ascii Bool Lia ZifyN ZifyBool ZifyNat.
From Verif Require Import Base ModelUtil ModelEnums ModelTlv ModelValues ModelProcess ModelDisplay ModelMain ModelCost ModelStack SpecUtil SpecTlv SpecIngenico SpecMain SpecStack
  ProofsUtil ProofsGrammar ProofsBer ProofsIngenico PropertiesBer PropertiesUtil PropertiesIngenico SpecCost ProofsCost PropertiesCost PropertiesSize ProofsMain PropertiesMain ProofsStack.
Import ListNotations.
Local Open Scope N_scope.

(** C104: the stack. *)
Definition ending_agrees (x : ending) (o : outcome) : Prop :=
  match x with Ended o' => o' = o | Killed l => exists rest, o_stdout o = l ++ rest end.
Lemma op_agrees {A} (x : option (res A)) r (show : A -> kdisp) (display : A -> disp) :
  (forall v, x = Some v -> v = r) -> (forall v, agrees (show v) (display v)) -> ending_agrees (op_within x show) (run_op r display).
Proof.
  intros X S. destruct x as [v|]; cbn [op_within]; [|now exists (o_stdout (run_op r display))]. rewrite <- (X v eq_refl). destruct v as [v|e| |]; cbn [run_op ending_agrees]; try reflexivity.
  specialize (S v). unfold agrees in S. unfold shown. destruct (snd (show v)); cbn [ending_agrees o_stdout]; [apply S|now rewrite S].
Qed.
Lemma lbind_same {A B} (x : option (res A)) r (f : A -> option (res B)) g : (forall v, x = Some v -> v = r) -> (forall a v, f a = Some v -> v = g a) ->
  forall v, lbind x f = Some v -> v = (a <- r;; g a).
Proof. intros X F v H. destruct x as [w|]; [|discriminate]. rewrite <- (X w eq_refl). destruct w; cbn [lbind bind] in *; [now apply F|now injection H as <-..]. Qed.
Lemma ber_same r p masks bytes v : ber_within r p masks bytes = Some v -> v = ber_parse p masks bytes.
Proof. unfold ber_within. rewrite <- ber_parse_run_fst. destruct (_ <=? _); [|discriminate]. intros H. now injection H as <-. Qed.
Lemma ingenico_same r p masks s v : ingenico_within r p masks s = Some v -> v = ingenico_parse p masks s.
Proof.
  unfold ingenico_within. assert (E : fst (ingenico_parse_run p masks s) = ingenico_parse p masks s).
  { unfold ingenico_parse_run, ingenico_parse. destruct (negb (is_ascii s)); [reflexivity|apply ingenico_run_fst]. }
  rewrite <- E. destruct (_ <=? _); [|discriminate]. intros H. now injection H as <-.
Qed.
Lemma auto_same r p masks s v : auto_within r p masks s = Some v -> v = auto_parse p masks s.
Proof.
  unfold auto_within, auto_parse. destruct s as [|c s]; [intros H; now injection H as <-|]. destruct (ingenico_within r p masks (c :: s)) as [i|] eqn:Ei; [|discriminate]. apply ingenico_same in Ei. rewrite <- Ei.
  destruct i as [b|e| |]; [intros H; now injection H as <-| |intros H; now injection H as <-..].
  destruct (ber_within r p masks (parse_hex_str (c :: s))) as [j|] eqn:Ej; [|discriminate]. apply ber_same in Ej. rewrite <- Ej. destruct j as [b|e'| |]; intros H; now injection H as <-.
Qed.
Lemma show_agrees r p sort b : agrees (show_within r p sort b) (show_block p sort b).
Proof.
  unfold show_within, show_block. destruct sort; [|apply display_agrees]. destruct (sort_within (r_sort r) b) as [x|] eqn:E; [|apply agrees_killed]. apply sort_within_same in E. rewrite <- E. apply display_agrees.
Qed.
Lemma within_agrees r p e m : ending_agrees (run_within r p e m) (run_main p e m).
Proof.
  unfold run_within. destruct (load_settings e m) as [st| | |] eqn:L; [|reflexivity..].
  destruct (m_tvr m) eqn:E1; [reflexivity|]. destruct (m_ccd_iad m) eqn:E2; [reflexivity|]. destruct (m_ccd_cvr m) eqn:E3; [reflexivity|]. destruct (m_tsi m) eqn:E4; [reflexivity|].
  destruct (m_cvm_results m) eqn:E5; [reflexivity|]. destruct (m_cvm_list m) eqn:E6; [reflexivity|]. destruct (m_identify m) eqn:E7; [reflexivity|].
  unfold run_main. rewrite L, E1, E2, E3, E4, E5, E6, E7. destruct (m_auto_tlv m) as [s|] eqn:E8.
  { apply op_agrees; [|intros fb; apply agrees_then, show_agrees]. apply lbind_same; [apply auto_same|]. intros fb. apply lbind_same; [intros v; apply process_within_same|]. intros b v H. now injection H as <-. }
  destruct (m_ber_tlv m) as [s|] eqn:E9; [apply op_agrees; [apply lbind_same; [apply ber_same|intros a v; apply process_within_same]|intros b; apply show_agrees]|].
  destruct (m_ingenico_tlv m) as [s|] eqn:E10; [apply op_agrees; [apply lbind_same; [apply ingenico_same|intros a v; apply process_within_same]|intros b; apply show_agrees]|].
  reflexivity.
Qed.

(* A run that is not killed does what a run without limit does. *)
Theorem C104_ends : forall r p e m o, run_within r p e m = Ended o -> o = run_main p e m.
Proof. intros r p e m o H. pose proof (within_agrees r p e m) as A. now rewrite H in A. Qed.
(* A run that is killed has printed a beginning of that. *)
Theorem C104_beginning : forall r p e m l, run_within r p e m = Killed l -> exists rest, o_stdout (run_main p e m) = l ++ rest.
Proof. intros r p e m l H. pose proof (within_agrees r p e m) as A. now rewrite H in A. Qed.

Lemma within_chosen r p e m st op s : load_settings e m = Ok st -> chosen m op s ->
  run_within r p e m = match op with
  | OpAuto => op_within (lbind (auto_within r p (set_masking st) s) (fun fb => lbind (process_within (r_process r) (snd fb)) (fun b => Some (Ok (fst fb, b)))))
                        (fun fb => kthen (auto_header (fst fb)) (show_within r p (set_sort st) (snd fb)))
  | OpBer => op_within (lbind (ber_within r p (set_masking st) (hex_bytes s)) (process_within (r_process r))) (show_within r p (set_sort st))
  | OpIngenico => op_within (lbind (ingenico_within r p (set_masking st) s) (process_within (r_process r))) (show_within r p (set_sort st))
  | _ => Ended (run_main p e m)
  end.
Proof.
  intros L (G & before & after & E & F). rewrite hex_bytes_eq.
  assert (N : forall o, In o before -> given m o = None) by (now apply Forall_forall).
  assert (B : before = firstn (List.length before) all_operations) by (rewrite E, firstn_app, Nat.sub_diag, firstn_all; cbn; now rewrite app_nil_r).
  assert (O : nth_error all_operations (List.length before) = Some op) by (rewrite E, nth_error_app2, Nat.sub_diag by lia; reflexivity).
  unfold run_within. rewrite L. clear E F. revert B O N. generalize (List.length before). intros k B O N. subst before.
  assert (X : forall o, In o (firstn k all_operations) -> match o with OpTvr => m_tvr m | OpIad => m_ccd_iad m | OpCvr => m_ccd_cvr m | OpTsi => m_tsi m | OpCvmResults => m_cvm_results m
     | OpCvmList => m_cvm_list m | OpIdentify => m_identify m | OpAuto => m_auto_tlv m | OpBer => m_ber_tlv m | OpIngenico => m_ingenico_tlv m | OpServiceCode => m_service_code m end = None) by (intros o Ho; specialize (N o Ho); now destruct o).
  clear N. do 11 (destruct k as [|k]; [cbn in O; injection O as <-; cbn [given] in G; rewrite ?G;
    try rewrite (X OpTvr ltac:(cbn; tauto)); try rewrite (X OpIad ltac:(cbn; tauto)); try rewrite (X OpCvr ltac:(cbn; tauto)); try rewrite (X OpTsi ltac:(cbn; tauto));
    try rewrite (X OpCvmResults ltac:(cbn; tauto)); try rewrite (X OpCvmList ltac:(cbn; tauto)); try rewrite (X OpIdentify ltac:(cbn; tauto)); try rewrite (X OpAuto ltac:(cbn; tauto));
    try rewrite (X OpBer ltac:(cbn; tauto)); try rewrite (X OpIngenico ltac:(cbn; tauto)); reflexivity|]).
  cbn in O. destruct k; discriminate.
Qed.

Lemma ber_within_none r p masks bytes k : input64 p bytes -> r_parse r = N.of_nat (S k) -> (ber_within r p masks bytes = None <-> nest masks (S k) bytes).
Proof.
  intros (Hp & Hb & Hl) R. rewrite <- (ber_depth p masks bytes Hb (roomy_64 p _ Hp Hl)), <- R. unfold ber_within. destruct (N.leb_spec (snd (snd (ber_parse_run p masks bytes))) (r_parse r)); split; try discriminate; try reflexivity; lia.
Qed.
Lemma ingenico_within_none r p masks s k : text64 p s -> r_parse r = N.of_nat (S k) -> (ingenico_within r p masks s = None <-> ascii_text s /\ text_nest masks (S k) s).
Proof.
  intros T R. rewrite <- (ingenico_depth p masks s (text64_roomy p s T)), <- R. unfold ingenico_within. destruct (N.leb_spec (snd (snd (ingenico_parse_run p masks s))) (r_parse r)); split; try discriminate; try reflexivity; lia.
Qed.
Lemma text_nest_nil masks k : ~ text_nest masks (S k) [].
Proof. intros H. apply text_nest_cases in H. destruct H as (e & rest & H & _). discriminate. Qed.
Lemma auto_within_none r p masks s k : text64 p s -> r_parse r = N.of_nat (S k) -> (auto_within r p masks s = None <-> argument_nest masks (S k) OpAuto s).
Proof.
  intros T R. pose proof (ingenico_within_none r p masks s k T R) as Ni. pose proof (hex_input64 p s T) as I. pose proof (ber_within_none r p masks _ k I R) as Nb. rewrite <- hex_bytes_eq in Nb.
  pose proof (fun ns => ingenico_block_iff p masks s ns T) as Bi. pose proof (ingenico_same r p masks s) as Si. unfold auto_within. rewrite <- hex_bytes_eq. destruct s as [|c s].
  { split; [discriminate|]. intros H. inversion H as [| |? _ N0|? Ne]; subst; [now apply text_nest_nil in N0|congruence]. }
  assert (Ne : c :: s <> []) by discriminate. set (x := c :: s) in *. clearbody x. clear c s. destruct (ingenico_within r p masks x) as [i|] eqn:Ei.
  2:{ split; [intros _|reflexivity]. destruct (proj1 Ni eq_refl). now apply nest_auto_ingenico. }
  rewrite (Si i eq_refl). assert (Ni' : ~ (ascii_text x /\ text_nest masks (S k) x)) by (intros K; apply Ni in K; discriminate).
  destruct (C23_ingenico_settles p masks x T) as [[ns E]|[er E]]; rewrite E.
  - split; [discriminate|]. intros H. inversion H as [| |? A N0|? _ Nn]; subst; [now contradiction Ni'|]. exfalso. apply (Nn ns). now apply Bi.
  - assert (Nn : forall ns, ~ ingenico_block masks x ns) by (intros ns K; apply Bi in K; congruence).
    assert (Q : nest masks (S k) (hex_bytes x) <-> argument_nest masks (S k) OpAuto x) by (split; [intros K; now apply nest_auto_ber|intros K; inversion K; subst; [now contradiction Ni'|assumption]]).
    rewrite <- Q, <- Nb. destruct (ber_within r p masks (hex_bytes x)) as [[b|e'| |]|]; split; congruence.
Qed.

(* Data with as many templates inside one another as calls fit the stack kill the process before it has printed anything. *)
Theorem C104_killed : forall r p e m st op s, load_settings e m = Ok st -> chosen m op s -> text64 p s -> 1 <= r_parse r ->
  argument_nest (set_masking st) (N.to_nat (r_parse r)) op s -> run_within r p e m = Killed [].
Proof.
  intros r p e m st op s L C T R H. rewrite (within_chosen r p e m st op s L C). destruct (N.to_nat (r_parse r)) as [|k] eqn:K; [lia|]. assert (R' : r_parse r = N.of_nat (S k)) by lia.
  pose proof H as H0. destruct H as [s H|s A H|s A H|s Ne Nn H].
  - pose proof (hex_input64 p s T) as I. rewrite <- hex_bytes_eq in I. now rewrite (proj2 (ber_within_none r p _ _ k I R') H).
  - now rewrite (proj2 (ingenico_within_none r p _ _ k T R') (conj A H)).
  - now rewrite (proj2 (auto_within_none r p _ _ k T R') H0).
  - now rewrite (proj2 (auto_within_none r p _ _ k T R') H0).
Qed.

(* Room for data with at most [n] templates inside one another. *)
Definition ample (r : room) (n : nat) : Prop :=
  N.of_nat n < r_parse r /\ (S n < r_process r)%nat /\ (S n < r_sort r)%nat /\ (n < r_display r)%nat.
Lemma show_room r p sort b n : ample r n -> (block_depth b <= S n)%nat -> snd (show_within r p sort b) = false.
Proof.
  intros (_ & _ & Rs & Rd) D. unfold show_within. destruct sort; [|apply display_room; lia].
  destruct (sort_within (r_sort r) b) as [x|] eqn:E; [|exfalso; apply (sort_within_room (r_sort r) b); [lia|assumption]]. apply sort_depth in E. apply display_room; lia.
Qed.
Definition not_killed (x : ending) : Prop := match x with Ended _ => True | Killed _ => False end.
Lemma op_room {A} (x : option (res A)) show : x <> None -> (forall v, x = Some (Ok v) -> snd (show v) = false) -> not_killed (op_within x show).
Proof. intros N S. destruct x as [[v|e| |]|]; cbn [op_within]; try exact I; [|congruence]. unfold shown. rewrite (S v eq_refl). exact I. Qed.
Lemma processed_room r ns n : ample r n -> (forest_depth ns <= S n)%nat -> process_within (r_process r) ns <> None /\ forall b, process_within (r_process r) ns = Some (Ok b) -> (block_depth b <= S n)%nat.
Proof. intros (_ & Rp & _) D. split; [apply process_within_room; lia|]. intros b H. apply process_depth in H. lia. Qed.
Lemma read_room r x n show (p : platform) sort : ample r n -> x <> None -> (forall ns, x = Some (Ok ns) -> (forest_depth ns <= S n)%nat) -> (forall b, show b = show_within r p sort b) ->
  not_killed (op_within (lbind x (process_within (r_process r))) show).
Proof.
  intros A N D S. destruct x as [[ns|e| |]|]; cbn [lbind]; try exact I; [|congruence]. destruct (processed_room r ns n A (D ns eq_refl)) as [P1 P2].
  apply op_room; [assumption|]. intros b Hb. rewrite S. apply (show_room r p sort b n A). now apply P2.
Qed.
Lemma ber_tree_depth p masks bytes ns k : input64 p bytes -> ~ nest masks (S k) bytes -> ber_parse p masks bytes = Ok ns -> (forest_depth ns <= S k)%nat.
Proof.
  intros I N E. pose proof (PropertiesCost.C84_ber_least p masks bytes ns I E) as Q. destruct I as (Hp & Hb & Hl). rewrite <- (ber_depth p masks bytes Hb (roomy_64 p _ Hp Hl)) in N.
  destruct (snd (ber_parse_run p masks bytes)) as [w d]. cbn [snd] in N. destruct Q as [_ Q]. lia.
Qed.
Lemma ingenico_tree_depth p masks s ns k : text64 p s -> ~ (ascii_text s /\ text_nest masks (S k) s) -> ingenico_parse p masks s = Ok ns -> (forest_depth ns <= S k)%nat.
Proof.
  intros T N E. pose proof (PropertiesCost.C84_ingenico_least p masks s ns T E) as Q. rewrite <- (ingenico_depth p masks s (text64_roomy p s T)) in N.
  destruct (snd (ingenico_parse_run p masks s)) as [w d]. cbn [snd] in N. destruct Q as [_ Q]. lia.
Qed.
(* More room kills less. *)
Lemma ber_within_more r r' p masks bytes : r_parse r <= r_parse r' -> ber_within r p masks bytes <> None -> ber_within r' p masks bytes <> None.
Proof. unfold ber_within. intros L. destruct (N.leb_spec (snd (snd (ber_parse_run p masks bytes))) (r_parse r)); [|congruence]. intros _. rewrite (proj2 (N.leb_le _ _)) by lia. discriminate. Qed.
Lemma ingenico_within_more r r' p masks s : r_parse r <= r_parse r' -> ingenico_within r p masks s <> None -> ingenico_within r' p masks s <> None.
Proof. unfold ingenico_within. intros L. destruct (N.leb_spec (snd (snd (ingenico_parse_run p masks s))) (r_parse r)); [|congruence]. intros _. rewrite (proj2 (N.leb_le _ _)) by lia. discriminate. Qed.

(* Data with fewer than that are shown or refused as ever, if the rest of the program has the room for it. *)
Theorem C104_survives : forall r p e m st op s n, load_settings e m = Ok st -> chosen m op s -> text64 p s -> ample r n ->
  ~ argument_nest (set_masking st) (S n) op s -> run_within r p e m = Ended (run_main p e m).
Proof.
  intros r p e m st op s n L C T A H. assert (X : not_killed (run_within r p e m)).
  { rewrite (within_chosen r p e m st op s L C). pose proof A as (Rp & _).
    set (r0 := mkRoom (N.of_nat (S n)) 0 0 0). assert (R0 : r_parse r0 = N.of_nat (S n)) by reflexivity. assert (Rl : r_parse r0 <= r_parse r) by (rewrite R0; lia).
    pose proof (hex_input64 p s T) as I. rewrite <- hex_bytes_eq in I. destruct op; try exact Logic.I.
    - assert (Ni : ~ (ascii_text s /\ text_nest (set_masking st) (S n) s)) by (intros [K1 K2]; apply H; now apply nest_auto_ingenico).
      assert (Wi : ingenico_within r p (set_masking st) s <> None) by (apply (ingenico_within_more r0 r); [assumption|]; intros K; apply (ingenico_within_none r0 p _ s n T R0) in K; contradiction).
      pose proof (ingenico_same r p (set_masking st) s) as Si. pose proof (ber_same r p (set_masking st) (hex_bytes s)) as Sb.
      assert (W : auto_within r p (set_masking st) s <> None /\ forall f ns, auto_within r p (set_masking st) s = Some (Ok (f, ns)) -> (forest_depth ns <= S n)%nat).
      { unfold auto_within. rewrite <- hex_bytes_eq. destruct s as [|c s]; [split; [discriminate|intros f ns K; discriminate K]|]. assert (Ne : c :: s <> []) by discriminate. set (x := c :: s) in *. clearbody x. clear c s.
        destruct (ingenico_within r p (set_masking st) x) as [i|]; [|congruence]. specialize (Si i eq_refl). destruct i as [b|er| |].
        - split; [discriminate|]. intros f ns K. injection K as <- <-. now apply (ingenico_tree_depth p (set_masking st) x).
        - assert (Nb : ~ nest (set_masking st) (S n) (hex_bytes x)).
          { intros K. apply H. apply nest_auto_ber; [assumption| |assumption]. intros ns Q. apply (ingenico_block_iff p _ x ns T) in Q. congruence. }
          assert (Wb : ber_within r p (set_masking st) (hex_bytes x) <> None) by (apply (ber_within_more r0 r); [assumption|]; intros K; apply (ber_within_none r0 p _ _ n I R0) in K; contradiction).
          destruct (ber_within r p (set_masking st) (hex_bytes x)) as [j|]; [|congruence]. specialize (Sb j eq_refl). destruct j as [b|er'| |]; (split; [discriminate|]; intros f ns K; try discriminate K). injection K as <- <-.
          now apply (ber_tree_depth p (set_masking st) (hex_bytes x)).
        - split; [discriminate|]. intros f ns K. discriminate K.
        - split; [discriminate|]. intros f ns K. discriminate K. }
      destruct W as [W1 W2]. destruct (auto_within r p (set_masking st) s) as [[[f ns]|er| |]|]; cbn [lbind]; try exact Logic.I; [|congruence]. cbn [fst snd]. destruct (processed_room r ns n A (W2 f ns eq_refl)) as [P1 P2].
      apply op_room; [destruct (process_within (r_process r) ns) as [[b|er| |]|]; cbn [lbind]; congruence|]. intros fb K. destruct (process_within (r_process r) ns) as [[b|er| |]|]; cbn [lbind] in K; try discriminate K. injection K as <-. cbn [fst snd].
      destruct (snd (kthen (auto_header f) (show_within r p (set_sort st) b))) eqn:Q; [|reflexivity]. apply kthen_killed in Q. rewrite (show_room r p (set_sort st) b n A (P2 b eq_refl)) in Q. discriminate Q.
    - assert (Nb : ~ nest (set_masking st) (S n) (hex_bytes s)) by (intros K; apply H; now apply nest_ber).
      apply (read_room r _ n _ p (set_sort st) A); [|intros ns K; apply ber_same in K; now apply (ber_tree_depth p (set_masking st) (hex_bytes s))|reflexivity].
      apply (ber_within_more r0 r); [assumption|]. intros K. apply (ber_within_none r0 p _ _ n I R0) in K. contradiction.
    - assert (Ni : ~ (ascii_text s /\ text_nest (set_masking st) (S n) s)) by (intros [K1 K2]; apply H; now apply nest_ingenico).
      apply (read_room r _ n _ p (set_sort st) A); [|intros ns K; apply ingenico_same in K; now apply (ingenico_tree_depth p (set_masking st) s)|reflexivity].
      apply (ingenico_within_more r0 r); [assumption|]. intros K. apply (ingenico_within_none r0 p _ s n T R0) in K. contradiction. }
  destruct (run_within r p e m) as [o|] eqn:E; [|contradiction]. apply C104_ends in E. now subst o.
Qed.
(* Where reading needs the most room, exactly the data with too many templates inside one another kill the process. *)
Theorem C104_exact : forall r p e m st op s, load_settings e m = Ok st -> chosen m op s -> text64 p s -> 1 <= r_parse r ->
  r_parse r < N.of_nat (r_process r) -> r_parse r < N.of_nat (r_sort r) -> r_parse r <= N.of_nat (r_display r) ->
  (argument_nest (set_masking st) (N.to_nat (r_parse r)) op s -> run_within r p e m = Killed [])
  /\ (~ argument_nest (set_masking st) (N.to_nat (r_parse r)) op s -> run_within r p e m = Ended (run_main p e m)).
Proof.
  intros r p e m st op s L C T R1 R2 R3 R4. split; [now apply (C104_killed r p e m st op s)|]. intros H. destruct (N.to_nat (r_parse r)) as [|n] eqn:K; [lia|].
  apply (C104_survives r p e m st op s n L C T); [repeat split; lia|assumption].
Qed.

Lemma object_size bytes t v rest : ber_object bytes t v rest -> len v + len rest + 2 <= len bytes.
Proof. intros H. inversion H as [t' l v' rest' Bt Bl _]; subst. rewrite !len_app. assert (1 <= len t) by (destruct Bt; rewrite len_cons; lia). assert (1 <= len l) by (destruct Bl; rewrite len_cons; lia). lia. Qed.
Lemma nest_size masks k bytes : nest masks k bytes -> 2 * N.of_nat k <= len bytes.
Proof. induction 1; [lia|apply object_size in H; lia|apply object_size in H; lia]. Qed.
Lemma field_size masks f ty t v : ing_field masks f (mkEntry ty t (Normal v)) -> len v + 4 <= len f.
Proof.
  intros H. inversion H as [ty' td tag ld n fmt txt d _ _ D]; subst. rewrite len_cons, !len_app, !len_cons, !len_app, !len_cons.
  inversion D as [txt' d' _ R|txt' _ _|txt' _ _ _]; subst; [destruct R as [[_ R]|[_ R]]; [discriminate|injection R as <-; lia]|].
  unfold len. rewrite bytes_of_digits_length. pose proof (Nat.div2_decr (List.length txt) (List.length txt)). lia.
Qed.
Lemma text_nest_size masks k s : text_nest masks k s -> 2 * N.of_nat k <= len s.
Proof. induction 1 as [| |]; [lia| |]; rewrite ?len_app, ?len_cons; [apply field_size in H; apply nest_size in H1; lia|lia]. Qed.
(* Two bytes, or in hexadecimal four characters, are the least a template takes. *)
Theorem C104_size : forall masks k op s, argument_nest masks k op s -> 2 * N.of_nat k <= len s /\ (op = OpBer -> 4 * N.of_nat k <= len s).
Proof.
  intros masks k op s [x H|x A H|x A H|x _ _ H].
  - apply nest_size in H. pose proof (hex_bytes_len x). split; [lia|]. intros _. lia.
  - apply text_nest_size in H. split; [lia|discriminate].
  - apply text_nest_size in H. split; [lia|discriminate].
  - apply nest_size in H. pose proof (hex_bytes_len x). split; [lia|discriminate].
Qed.
Lemma chain_zero d : In 0 (std_forest (chain (S d))).
Proof.
  induction d as [|d IH]; [right; now left|]. cbn [chain] in *. unfold std_forest at 1. cbn [flat_map std_encode]. rewrite app_nil_r. unfold std_object. apply in_app_iff. right. apply in_app_iff. right. exact IH.
Qed.
Lemma chain_nest masks d : 6 * N.of_nat d < 2 ^ 32 -> nest masks d (std_forest (chain d)).
Proof.
  induction d as [|d IH]; intros Hd; [constructor|]. specialize (IH ltac:(lia)). pose proof (chain_size d) as Z. cbn [chain]. unfold std_forest at 1. cbn [flat_map std_encode]. rewrite app_nil_r. fold (std_forest (chain d)).
  destruct (std_object_encodes [0x6F] (std_forest (chain d)) [] ltac:(lia) ltac:(constructor; discriminate)) as (L & F & E). rewrite app_nil_r in E. rewrite E.
  apply (nest_inside masks d _ [0x6F] (std_forest (chain d)) []); [constructor; [constructor; discriminate|assumption|assumption]|reflexivity| |assumption].
  intros (Two & c & _ & Q). rewrite Forall_forall in Q. destruct d as [|d]; [cbn in Two; lia|]. pose proof (Q 0 (chain_zero d)) as Q0.
  assert (Q1 : 0x6F = c) by (apply Q; left; reflexivity). congruence.
Qed.
Lemma hex_text_len l : len (hex_text l) = 2 * len l.
Proof. induction l as [|b l IH]; [reflexivity|]. unfold hex_text in *. cbn [flat_map app]. rewrite !len_cons, IH. lia. Qed.
(* However much room there is for the calls, twelve characters for each of them are enough to kill the process, whatever is masked. *)
Theorem C104_every : forall r, 1 <= r_parse r -> 6 * r_parse r < 2 ^ 32 -> exists s, len s <= 12 * r_parse r
  /\ (forall masks, argument_nest masks (N.to_nat (r_parse r)) OpBer s)
  /\ forall p e m st, usize_bits p = 64 -> load_settings e m = Ok st -> chosen m OpBer s -> run_within r p e m = Killed [].
Proof.
  intros r R1 R2. set (d := N.to_nat (r_parse r)). assert (Rd : N.of_nat d = r_parse r) by (unfold d; lia). exists (hex_text (std_forest (chain d))). pose proof (chain_size d) as Z. rewrite Rd in Z.
  assert (B : bytes_ok (std_forest (chain d))).
  { pose proof (chain_ok d ltac:(lia)) as K. unfold std_forest. clear -K. induction (chain d) as [|x l IH]; [constructor|]. cbn [flat_map]. apply bytes_ok_app. split; [apply std_bytes, K; now left|]. apply IH. intros y Hy. apply K. now right. }
  assert (Hb : hex_bytes (hex_text (std_forest (chain d))) = std_forest (chain d)).
  { unfold hex_bytes. rewrite filter_all by (now apply hex_text_digits). now apply bytes_of_hex_text. }
  assert (N : forall masks, argument_nest masks d OpBer (hex_text (std_forest (chain d)))) by (intros masks; apply nest_ber; rewrite Hb; apply chain_nest; lia).
  split; [rewrite hex_text_len; lia|]. split; [exact N|]. intros p e m st P L C. apply (C104_killed r p e m st OpBer _ L C); [split; [assumption|rewrite hex_text_len; lia]|assumption|apply N].
Qed.
(* So no amount of room is enough for every text. *)
Theorem C104_always_ends_refuted : forall r, 1 <= r_parse r -> 6 * r_parse r < 2 ^ 32 -> exists e m, run_within r p64 e m = Killed [].
Proof.
  intros r R1 R2. destruct (C104_every r R1 R2) as (s & _ & _ & H). exists plain_env, (with_ber s). apply (H p64 _ _ (mkSettings TAuto [42] true)); [reflexivity|apply (plain_settings (with_ber s)); reflexivity|].
  split; [reflexivity|]. exists [OpTvr; OpIad; OpCvr; OpTsi; OpCvmResults; OpCvmList; OpIdentify; OpAuto], [OpIngenico; OpServiceCode]. split; [reflexivity|]. repeat constructor.
Qed.
(* Two templates inside one another, with room for two calls and for three; and calls for printing only once some is printed. *)
Example C104_example : let m := with_ber (lit "6F026F00") in
  chosen m OpBer (lit "6F026F00") /\ argument_nest [42] 2 OpBer (lit "6F026F00") /\ ~ argument_nest [42] 3 OpBer (lit "6F026F00")
  /\ run_within (mkRoom 2 9 9 9) p64 plain_env m = Killed [] /\ run_within (mkRoom 3 9 9 9) p64 plain_env m = Ended (run_main p64 plain_env m)
  /\ exists l rest, run_within (mkRoom 3 9 9 1) p64 plain_env m = Killed l /\ l <> [] /\ o_stdout (run_main p64 plain_env m) = l ++ rest /\ rest <> [].
Proof.
  intros m. assert (L : load_settings plain_env m = Ok (mkSettings TAuto [42] true)) by (apply (plain_settings m); reflexivity).
  assert (C : chosen m OpBer (lit "6F026F00")).
  { split; [reflexivity|]. exists [OpTvr; OpIad; OpCvr; OpTsi; OpCvmResults; OpCvmList; OpIdentify; OpAuto], [OpIngenico; OpServiceCode]. split; [reflexivity|]. repeat constructor. }
  assert (T : text64 p64 (lit "6F026F00")) by (split; vm_compute; reflexivity).
  assert (N2 : argument_nest [42] 2 OpBer (lit "6F026F00")) by (apply nest_ber; apply (chain_nest [42] 2); vm_compute; reflexivity).
  assert (N3 : ~ argument_nest [42] 3 OpBer (lit "6F026F00")) by (intros H; apply C104_size in H; destruct H as [_ H]; specialize (H eq_refl); vm_compute in H; now apply H).
  split; [assumption|]. split; [assumption|]. split; [assumption|].
  split; [apply (C104_killed (mkRoom 2 9 9 9) p64 plain_env m _ OpBer _ L C T); [discriminate|exact N2]|].
  split; [apply (C104_survives (mkRoom 3 9 9 9) p64 plain_env m _ OpBer _ 2 L C T); [repeat split; cbn; lia|exact N3]|].
  destruct (run_within (mkRoom 3 9 9 1) p64 plain_env m) as [o|l] eqn:E; [vm_compute in E; discriminate E|]. exists l. destruct (C104_beginning _ _ _ _ _ E) as [rest Er]. exists rest.
  split; [reflexivity|]. split; [intros ->; vm_compute in E; discriminate E|]. split; [exact Er|]. intros ->. rewrite app_nil_r in Er. rewrite <- Er in E. vm_compute in E. discriminate E.
Qed.
