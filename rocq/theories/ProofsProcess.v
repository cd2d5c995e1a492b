(** Facts about tag processing, sorting and block equality. *)

From Coq Require Import ZArith NArith List String Ascii Bool Lia ZifyN ZifyBool ZifyNat Permutation Sorting.
From Verif Require Import Base ModelUtil ModelEnums ModelBitflag ModelSchemas ModelTags ModelTlv ModelValues ModelProcess
  SpecUtil SpecCodes SpecValues SpecTags SpecTlv ProofsUtil ProofsBer ProofsValues PropertiesValues SpecProcess.
Import ListNotations.
Local Open Scope N_scope.

(** ** Induction over trees *)

Section TreeInd.
  Variable P : pnode -> Prop.
  Hypothesis H : forall t c, Forall P c -> P (PNode t c).
  Fixpoint pnode_tree_ind (n : pnode) : P n :=
    match n with
    | PNode t c => H t c ((fix go (l : list pnode) : Forall P l :=
                             match l with [] => Forall_nil P | x :: l' => Forall_cons x (pnode_tree_ind x) (go l') end) c)
    end.
End TreeInd.
Section RawTreeInd.
  Variable P : raw_node -> Prop.
  Hypothesis H : forall t c, Forall P c -> P (RawNode t c).
  Fixpoint raw_tree_ind (n : raw_node) : P n :=
    match n with
    | RawNode t c => H t c ((fix go (l : list raw_node) : Forall P l :=
                             match l with [] => Forall_nil P | x :: l' => Forall_cons x (raw_tree_ind x) (go l') end) c)
    end.
End RawTreeInd.

(** ** Names *)

Definition tag_rows : list (list N * string) := map (fun r => (number_tag (fst r), snd r)) emv_tag_names.
Lemma tag_rows_eq : tag_rows = tag_table.
Proof. vm_compute. reflexivity. Qed.
Lemma lookup_in t tbl s : lookup_tag t tbl = Some s -> In (t, s) tbl.
Proof.
  induction tbl as [|[k n] tbl IH]; cbn [lookup_tag]; [discriminate|]. destruct (leqb t k) eqn:E.
  - intros H. injection H as <-. apply leqb_eq in E. subst. now left.
  - intros H. right. auto.
Qed.
Definition distinct_tags (l : list (list N)) : bool :=
  (fix go (l : list (list N)) : bool := match l with [] => true | c :: l' => negb (existsb (leqb c) l') && go l' end) l.
Lemma lookup_complete t s tbl : distinct_tags (map fst tbl) = true -> In (t, s) tbl -> lookup_tag t tbl = Some s.
Proof.
  induction tbl as [|[k n] tbl IH]; [intros _ []|]. cbn [map fst]. cbn. rewrite andb_true_iff. intros [D1 D2] [E|Hin].
  - injection E as -> ->. now rewrite (proj2 (leqb_eq _ _) eq_refl).
  - destruct (leqb t k) eqn:E; [|now apply IH]. exfalso. apply leqb_eq in E. subst k.
    apply negb_true_iff in D1. rewrite <- not_true_iff_false in D1. apply D1, existsb_exists. exists t. split.
    + apply in_map_iff. now exists (t, s).
    + now apply leqb_eq.
Qed.
Lemma identify_iff t s : identify_tag t = Some s <-> known_name t s.
Proof.
  unfold identify_tag, known_name. split.
  - destruct (lookup_tag t tag_table) as [x|] eqn:L; [|discriminate]. intros H. injection H as <-.
    apply lookup_in in L. rewrite <- tag_rows_eq in L. unfold tag_rows in L. apply in_map_iff in L.
    destruct L as ([n y] & E & Hin). cbn in E. injection E as <- <-. eauto.
  - intros (n & x & Hin & -> & ->). rewrite (lookup_complete (number_tag n) x tag_table); [reflexivity|vm_compute; reflexivity|].
    rewrite <- tag_rows_eq. unfold tag_rows. apply in_map_iff. now exists (n, x).
Qed.
Lemma identify_none t : identify_tag t = None <-> unknown_tag t.
Proof.
  unfold unknown_tag. split.
  - intros H s K. apply identify_iff in K. congruence.
  - intros H. destruct (identify_tag t) as [s|] eqn:E; [|reflexivity]. exfalso. apply (H s). now apply identify_iff.
Qed.

(** ** The parsers of single tags *)

(* [f] decodes the data of tag [t] as specified; other errors are those of [rejected]
   and [soft]. *)
Definition exact (t : list N) (f : list N -> res value) (soft : parse_error -> bool) : Prop :=
  forall d, bytes_ok d ->
    (forall v, f d = Ok v <-> value_of t d v)
    /\ (forall e, soft e = false -> (f d = Err e <-> rejected t d e))
    /\ f d <> Panic /\ f d <> NoFuel
    /\ ((exists e, soft e = true /\ f d = Err e) <-> exists s, tolerated t d s).

Lemma rmap_ok {A B} (g : A -> B) r b : rmap g r = Ok b <-> exists a, r = Ok a /\ b = g a.
Proof.
  destruct r as [x|x| |]; cbn.
  - split; [intros H; injection H as <-; eauto|intros (a & E & ->); now injection E as ->].
  - split; [discriminate|intros (a & E & _); discriminate].
  - split; [discriminate|intros (a & E & _); discriminate].
  - split; [discriminate|intros (a & E & _); discriminate].
Qed.
Lemma rmap_err {A B} (g : A -> B) r e : rmap g r = Err e <-> r = Err e.
Proof. destruct r; cbn; split; intros H; try discriminate; now injection H as ->. Qed.
Lemma rmap_panic {A B} (g : A -> B) r : (rmap g r = Panic <-> r = Panic) /\ (rmap g r = NoFuel <-> r = NoFuel).
Proof. destruct r; cbn; split; split; intros H; try discriminate; reflexivity. Qed.

Lemma in_fixed t n m : In (t, n) fixed_lengths -> In (t, m) fixed_lengths -> n = m.
Proof.
  intros H1 H2. cbn in H1.
  repeat (destruct H1 as [H1|H1]; [injection H1 as <- <-; cbn in H2;
    repeat (destruct H2 as [H2|H2]; [try discriminate H2; now injection H2|]); destruct H2|]). destruct H1.
Qed.

(* Tags whose values are bit fields accepting every value of the right length. *)
Lemma exact_bits t f n tbl (mk : list fval -> value) sch :
  In (t, n) fixed_lengths ->
  (forall d v, value_of t d v <-> exists w, v = mk w /\ bits_value n tbl d w) ->
  (forall d e, rejected t d e -> e = ByteCountIncorrect Eq n (len d) /\ len d <> n) ->
  (forall d s, ~ tolerated t d s) ->
  (exists m, In (f, sch, n, tbl, m) bit_values) -> sch <> cci_schema ->
  exact t (fun d => rmap mk (f d)) (fun _ => false).
Proof.
  intros Hf Hv Hr Ht [m Hm] Hc d Hb. pose proof (bit_values_all _ Hm) as Ha.
  destruct (all_bit_values_ok _ _ _ _ _ Ha) as (E & En & M).
  assert (Ok' : forall w, f d = Ok w <-> bits_value n tbl d w).
  { intros w. rewrite E. rewrite (bf_parse_ok sch tbl m M). unfold bits_value. now rewrite En. }
  pose proof (C40_wrong_length f sch n tbl m d Ha) as Wl.
  pose proof (C40_right_length_accepted f sch n tbl m d Ha Hc) as Rl.
  split; [|split; [|split; [|split]]].
  - intros v. rewrite rmap_ok, Hv. split.
    + intros (w & H1 & ->). exists w. split; [reflexivity|]. now apply Ok'.
    + intros (w & -> & H). exists w. split; [now apply Ok'|reflexivity].
  - intros e _. rewrite rmap_err. split.
    + intros H. destruct (N.eq_dec (len d) n) as [L|L]; [destruct (Rl L) as [v V]; congruence|].
      apply Wl in L as L'. rewrite H in L'. injection L' as ->. now apply rejected_length.
    + intros H. destruct (Hr d e H) as [-> L]. now apply Wl.
  - rewrite (proj1 (rmap_panic _ _)). intros H. destruct (N.eq_dec (len d) n) as [L|L].
    + destruct (Rl L) as [v V]. congruence.
    + apply Wl in L. congruence.
  - rewrite (proj2 (rmap_panic _ _)). intros H. destruct (N.eq_dec (len d) n) as [L|L].
    + destruct (Rl L) as [v V]. congruence.
    + apply Wl in L. congruence.
  - split; [intros (e & H & _); discriminate|intros [s H]; exfalso; now apply (Ht d s)].
Qed.

Ltac fixed_in := cbn; repeat (first [left; reflexivity|right]).
Ltac only_length := intros d e H; inversion H as [t n d' Hin L| | | | | | |]; subst;
  cbn in Hin; repeat (destruct Hin as [Hin|Hin]; [try discriminate Hin; injection Hin as <-; auto|]); destruct Hin.
Ltac bits_tag := apply exact_bits with (sch := _); first [fixed_in; fail|idtac].

Lemma exact_95 : exact [0x95] (fun d => rmap ValTvr (tvr_try_from d)) (fun _ => false).
Proof.
  apply (exact_bits _ _ 5 tvr_bits _ tvr_schema); [fixed_in| |only_length| | |discriminate].
  - intros d v. split; [intros H; inversion H; subst; eauto|intros (w & -> & H); now constructor].
  - intros d s H. inversion H.
  - eexists. fixed_in.
Qed.
Lemma exact_9B : exact [0x9B] (fun d => rmap ValTsi (tsi_try_from d)) (fun _ => false).
Proof.
  apply (exact_bits _ _ 2 tsi_bits _ tsi_schema); [fixed_in| |only_length| | |discriminate].
  - intros d v. split; [intros H; inversion H; subst; eauto|intros (w & -> & H); now constructor].
  - intros d s H. inversion H.
  - eexists. fixed_in.
Qed.
Lemma exact_9F0D : exact [0x9F; 0x0D] (fun d => rmap ValIacDefault (iac_default_try_from d)) (fun _ => false).
Proof.
  apply (exact_bits _ _ 5 tvr_bits _ tvr_schema); [fixed_in| |only_length| | |discriminate].
  - intros d v. split; [intros H; inversion H; subst; eauto|intros (w & -> & H); now constructor].
  - intros d s H. inversion H.
  - eexists. fixed_in.
Qed.
Lemma exact_9F0E : exact [0x9F; 0x0E] (fun d => rmap ValIacDenial (iac_denial_try_from d)) (fun _ => false).
Proof.
  apply (exact_bits _ _ 5 tvr_bits _ tvr_schema); [fixed_in| |only_length| | |discriminate].
  - intros d v. split; [intros H; inversion H; subst; eauto|intros (w & -> & H); now constructor].
  - intros d s H. inversion H.
  - eexists. fixed_in.
Qed.
Lemma exact_9F0F : exact [0x9F; 0x0F] (fun d => rmap ValIacOnline (iac_online_try_from d)) (fun _ => false).
Proof.
  apply (exact_bits _ _ 5 tvr_bits _ tvr_schema); [fixed_in| |only_length| | |discriminate].
  - intros d v. split; [intros H; inversion H; subst; eauto|intros (w & -> & H); now constructor].
  - intros d s H. inversion H.
  - eexists. fixed_in.
Qed.
Lemma exact_9F33 : exact [0x9F; 0x33] (fun d => rmap ValTermCap (termcap_try_from d)) (fun _ => false).
Proof.
  apply (exact_bits _ _ 3 termcap_bits _ termcap_schema); [fixed_in| |only_length| | |discriminate].
  - intros d v. split; [intros H; inversion H; subst; eauto|intros (w & -> & H); now constructor].
  - intros d s H. inversion H.
  - eexists. fixed_in.
Qed.
Lemma exact_9F40 : exact [0x9F; 0x40] (fun d => rmap ValAddTermCap (addtermcap_try_from d)) (fun _ => false).
Proof.
  apply (exact_bits _ _ 5 addtermcap_bits _ addtermcap_schema); [fixed_in| |only_length| | |discriminate].
  - intros d v. split; [intros H; inversion H; subst; eauto|intros (w & -> & H); now constructor].
  - intros d s H. inversion H.
  - eexists. fixed_in.
Qed.

(* One-byte enumerations. *)
Lemma listed_dec {A} (table : list (N * A * string)) err f c : decodes table err f ->
  (exists x, f c = Ok x /\ listed table c x) \/ (f c = Err err /\ forall x, ~ listed table c x).
Proof.
  intros D. destruct (D c) as [D1 D2]. destruct (f c) as [x|e| |] eqn:E.
  - left. exists x. split; [reflexivity|]. now apply D1.
  - right. assert (Nl : forall x, ~ listed table c x) by (intros x L; apply D1 in L; discriminate).
    split; [|assumption]. rewrite <- E. rewrite E. apply D2. intros x s Hin. apply (Nl x). now exists s.
  - exfalso. assert (X : Panic = Err err) by (apply D2; intros x s Hin; assert (L : listed table c x) by (now exists s); apply D1 in L; discriminate). discriminate.
  - exfalso. assert (X : @NoFuel A = Err err) by (apply D2; intros x s Hin; assert (L : listed table c x) by (now exists s); apply D1 in L; discriminate). discriminate.
Qed.
Lemma listed_ok {A} (table : list (N * A * string)) err f c x : decodes table err f -> (f c = Ok x <-> listed table c x).
Proof. intros D. apply D. Qed.

Lemma exact_enum {A} t (f : N -> res A) (table : list (N * A * string)) (mk : A -> value) :
  (forall a b, mk a = mk b -> a = b) ->
  In (t, 1) fixed_lengths -> decodes table Unrecognised f ->
  (forall d v, value_of t d v <-> exists b x, d = [b] /\ v = mk x /\ listed table b x) ->
  (forall d e, rejected t d e -> (e = ByteCountIncorrect Eq 1 (len d) /\ len d <> 1)
     \/ (e = Unrecognised /\ exists b, d = [b] /\ forall x, ~ listed table b x)) ->
  (forall b, (forall x, ~ listed table b x) -> rejected t [b] Unrecognised) ->
  (forall d s, ~ tolerated t d s) ->
  exact t (fun d => rmap mk (enum_from_slice f d)) (fun _ => false).
Proof.
  intros Hinj Hf D Hv Hr Hu Ht d Hb.
  assert (Cases : (len d <> 1 /\ enum_from_slice f d = Err (ByteCountIncorrect Eq 1 (len d)))
                  \/ exists b, d = [b] /\ enum_from_slice f d = f b).
  { destruct (N.eq_dec (len d) 1) as [L|L].
    - right. destruct d as [|b [|c d]]; try discriminate L; [|unfold len in L; cbn in L; lia]. exists b. split; reflexivity.
    - left. split; [assumption|]. unfold enum_from_slice. now rewrite (proj2 (N.eqb_neq _ _) L). }
  split; [|split; [|split; [|split]]].
  - intros v. rewrite rmap_ok, Hv. split.
    + intros (x & Hx & ->). destruct Cases as [[_ E]|(b & -> & E)]; [congruence|]. rewrite E in Hx. exists b, x. repeat split.
      now apply (listed_ok table Unrecognised f).
    + intros (b & x & -> & -> & L). exists x. split; [|reflexivity]. destruct Cases as [[L1 _]|(b' & E & ->)]; [now contradict L1|].
      injection E as <-. now apply (listed_ok table Unrecognised f).
  - intros e _. rewrite rmap_err. split.
    + intros H. destruct Cases as [[L E]|(b & -> & E)].
      * rewrite E in H. injection H as <-. now apply rejected_length.
      * rewrite E in H. destruct (listed_dec table Unrecognised f b D) as [(x & X & _)|[X Nl]]; [congruence|].
        rewrite X in H. injection H as <-. now apply Hu.
    + intros H. apply Hr in H. destruct H as [[-> L]|[-> (b & -> & Nl)]].
      * destruct Cases as [[_ E]|(b & -> & E)]; [assumption|]. now contradict L.
      * destruct Cases as [[L _]|(b' & E & ->)]; [now contradict L|]. injection E as <-.
        destruct (listed_dec table Unrecognised f b D) as [(x & _ & X)|[X _]]; [now elim (Nl x)|assumption].
  - rewrite (proj1 (rmap_panic _ _)). intros H. destruct Cases as [[L E]|(b & -> & E)]; [congruence|]. rewrite E in H.
    destruct (listed_dec table Unrecognised f b D) as [(x & X & _)|[X _]]; congruence.
  - rewrite (proj2 (rmap_panic _ _)). intros H. destruct Cases as [[L E]|(b & -> & E)]; [congruence|]. rewrite E in H.
    destruct (listed_dec table Unrecognised f b D) as [(x & X & _)|[X _]]; congruence.
  - split; [intros (e & H & _); discriminate|intros [s H]; exfalso; now apply (Ht d s)].
Qed.
Lemma exact_9F35 : exact [0x9F; 0x35] (fun d => rmap ValTerminalType (terminal_type_from_slice d)) (fun _ => false).
Proof.
  apply (exact_enum _ terminal_type_try_from terminal_type_codes).
  - intros a b H. now injection H.
  - fixed_in.
  - apply C52_terminal_type.
  - intros d v. split; [intros H; inversion H; subst; eauto|intros (b & x & -> & -> & H); now constructor].
  - intros d e H. inversion H as [t n d' Hin L| | | | | | |]; subst; [left|right; eauto].
    cbn in Hin; repeat (destruct Hin as [Hin|Hin]; [try discriminate Hin; injection Hin as <-; auto|]); destruct Hin.
  - intros b H. now constructor.
  - intros d s H. inversion H.
Qed.
Lemma exact_9F39 : exact [0x9F; 0x39] (fun d => rmap ValPosEntryMode (pos_entry_mode_from_slice d)) (fun _ => false).
Proof.
  apply (exact_enum _ pos_entry_mode_try_from pos_entry_mode_codes).
  - intros a b H. now injection H.
  - fixed_in.
  - apply C52_pos_entry_mode.
  - intros d v. split; [intros H; inversion H; subst; eauto|intros (b & x & -> & -> & H); now constructor].
  - intros d e H. inversion H as [t n d' Hin L| | | | | | |]; subst; [left|right; eauto].
    cbn in Hin; repeat (destruct Hin as [Hin|Hin]; [try discriminate Hin; injection Hin as <-; auto|]); destruct Hin.
  - intros b H. now constructor.
  - intros d s H. inversion H.
Qed.
Lemma exact_9C : exact [0x9C] (fun d => rmap ValTransactionType (transaction_type_from_slice d)) is_unrecognised_error.
Proof.
  intros d Hb. pose proof (proj1 C52_transaction_type) as D.
  assert (Cases : (len d <> 1 /\ transaction_type_from_slice d = Err (ByteCountIncorrect Eq 1 (len d)))
                  \/ exists b, d = [b] /\ transaction_type_from_slice d = transaction_type_try_from b).
  { unfold transaction_type_from_slice. destruct (N.eq_dec (len d) 1) as [L|L].
    - right. destruct d as [|b [|c d]]; try discriminate L; [|unfold len in L; cbn in L; lia]. exists b. split; reflexivity.
    - left. split; [assumption|]. unfold enum_from_slice. now rewrite (proj2 (N.eqb_neq _ _) L). }
  split; [|split; [|split; [|split]]].
  - intros v. rewrite rmap_ok. split.
    + intros (x & Hx & ->). destruct Cases as [[_ E]|(b & -> & E)]; [congruence|]. rewrite E in Hx. constructor.
      now apply (listed_ok _ Unrecognised transaction_type_try_from).
    + intros H. inversion H; subst. eexists. split; [|reflexivity]. destruct Cases as [[L1 _]|(b' & E & ->)]; [now contradict L1|].
      injection E as <-. now apply (listed_ok transaction_type_codes Unrecognised).
  - intros e Hs. rewrite rmap_err. split.
    + intros H. destruct Cases as [[L E]|(b & -> & E)].
      * rewrite E in H. injection H as <-. apply rejected_length; [fixed_in|assumption].
      * rewrite E in H. destruct (listed_dec _ Unrecognised _ b D) as [(x & X & _)|[X Nl]]; [congruence|].
        rewrite X in H. injection H as <-. discriminate.
    + intros H. inversion H as [t n d' Hin L| | | | | | |]; subst.
      cbn in Hin; repeat (destruct Hin as [Hin|Hin]; [try discriminate Hin; injection Hin as <-|]); [|destruct Hin].
      destruct Cases as [[_ E]|(b & -> & E)]; [assumption|]. now contradict L.
  - rewrite (proj1 (rmap_panic _ _)). intros H. destruct Cases as [[L E]|(b & -> & E)]; [congruence|]. rewrite E in H.
    destruct (listed_dec _ Unrecognised _ b D) as [(x & X & _)|[X _]]; congruence.
  - rewrite (proj2 (rmap_panic _ _)). intros H. destruct Cases as [[L E]|(b & -> & E)]; [congruence|]. rewrite E in H.
    destruct (listed_dec _ Unrecognised _ b D) as [(x & X & _)|[X _]]; congruence.
  - split.
    + intros (e & Hs & H). rewrite rmap_err in H. destruct Cases as [[L E]|(b & -> & E)]; rewrite E in H.
      * injection H as <-. discriminate.
      * destruct (listed_dec _ Unrecognised _ b D) as [(x & X & _)|[X Nl]]; [congruence|]. eexists. now constructor.
    + intros [s H]. inversion H; subst. exists Unrecognised. split; [reflexivity|]. rewrite rmap_err.
      destruct Cases as [[L1 _]|(b' & E & ->)]; [now contradict L1|]. injection E as <-.
      destruct (listed_dec _ Unrecognised _ b D) as [(x & _ & X)|[X _]]; [exfalso; eapply H0; eassumption|assumption].
Qed.

Lemma service_code_of_iff n d1 d2 d3 sc : n = 100 * d1 + 10 * d2 + d3 -> d1 < 10 -> d2 < 10 -> d3 < 10 ->
  (service_code_try_from_u16 n = Ok sc <-> service_code_of n d1 d2 d3 sc).
Proof.
  intros E H1 H2 H3. rewrite C51_service_code. unfold service_code_of.
  assert (E1 : n / 100 = d1) by lia. assert (E2 : n / 10 mod 10 = d2) by lia. assert (E3 : n mod 10 = d3) by lia.
  rewrite E1, E2, E3. assert (n <= 999) by lia. tauto.
Qed.
Lemma exact_5F30 : exact [0x5F; 0x30] (fun d => rmap ValServiceCode (service_code_try_from_bytes d)) (fun _ => false).
Proof.
  intros d Hb. destruct (C51_service_code_bytes_errors d Hb) as [Er1 Er2].
  assert (Digits : (exists sc, service_code_try_from_bytes d = Ok sc) <-> exists d1 d2 d3, three_digits d d1 d2 d3).
  { split.
    - intros [sc H]. apply C51_service_code_bytes in H; [|assumption]. destruct H as (d1 & d2 & d3 & E & H1 & H2 & H3 & _).
      exists d1, d2, d3. repeat split; assumption.
    - intros (d1 & d2 & d3 & E & H1 & H2 & H3).
      assert (S : exists sc, service_code_try_from_u16 (100 * d1 + 10 * d2 + d3) = Ok sc).
      { unfold service_code_try_from_u16. rewrite (proj2 (N.ltb_ge _ _)) by lia. eauto. }
      destruct S as [sc S]. exists sc. apply C51_service_code_bytes; [assumption|]. exists d1, d2, d3. auto. }
  split; [|split; [|split; [|split]]].
  - intros v. rewrite rmap_ok. split.
    + intros (sc & H & ->). apply C51_service_code_bytes in H; [|assumption]. destruct H as (d1 & d2 & d3 & E & H1 & H2 & H3 & H).
      apply value_5F30 with d1 d2 d3; [repeat split; assumption|]. now apply service_code_of_iff.
    + intros H. inversion H as [d' d1 d2 d3 sc Hd Hs| | | | | | | | | | | | | |]; subst. exists sc. split; [|reflexivity].
      destruct Hd as (-> & H1 & H2 & H3). apply C51_service_code_bytes; [assumption|]. exists d1, d2, d3. split; [reflexivity|].
      split; [assumption|]. split; [assumption|]. split; [assumption|]. now apply service_code_of_iff with d1 d2 d3.
  - intros e _. rewrite rmap_err. split.
    + intros H. destruct (N.eq_dec (len d) 2) as [L|L].
      * assert (X : e = InvalidNumber). { destruct (Er2 L) as [[sc S]|S]; congruence. } subst e. constructor; [assumption|].
        intros d1 d2 d3 T. destruct (proj2 Digits) as [sc S]; [eauto|congruence].
      * rewrite (Er1 L) in H. injection H as <-. apply rejected_length; [fixed_in|assumption].
    + intros H. inversion H as [t n d' Hin L|d' L Nd| | | | | |]; subst.
      * cbn in Hin; repeat (destruct Hin as [Hin|Hin]; [try discriminate Hin; injection Hin as <-|]); [|destruct Hin]. now apply Er1.
      * destruct (Er2 L) as [S|S]; [|assumption]. apply Digits in S. destruct S as (d1 & d2 & d3 & S). now elim (Nd d1 d2 d3).
  - rewrite (proj1 (rmap_panic _ _)). intros H. destruct (N.eq_dec (len d) 2) as [L|L]; [destruct (Er2 L) as [[sc S]|S]; congruence|].
    rewrite (Er1 L) in H. discriminate.
  - rewrite (proj2 (rmap_panic _ _)). intros H. destruct (N.eq_dec (len d) 2) as [L|L]; [destruct (Er2 L) as [[sc S]|S]; congruence|].
    rewrite (Er1 L) in H. discriminate.
  - split; [intros (e & H & _); discriminate|intros [s H]; inversion H].
Qed.

Lemma arc_total d : bytes_ok d -> arc_from_slice d <> Panic /\ arc_from_slice d <> NoFuel
  /\ (forall e, arc_from_slice d = Err e -> e = ByteCountIncorrect Eq 2 (len d) /\ len d <> 2 \/ e = InvalidNumber \/ e = Unrecognised).
Proof.
  intros Hb. unfold arc_from_slice. destruct (N.eqb_spec (len d) 2) as [L|L]; cbn [negb].
  2:{ split; [discriminate|]. split; [discriminate|]. intros e H. injection H as <-. auto. }
  destruct (utf8_decode d); [|split; [discriminate|]; split; [discriminate|]; intros e H; injection H as <-; auto].
  rewrite arc_find. destruct (find_arc arc_codes s); (split; [discriminate|]; split; [discriminate|]; intros e H; try discriminate).
  injection H as <-. auto.
Qed.
Lemma exact_8A : exact [0x8A] (fun d => rmap ValArc (arc_from_slice d)) is_unrecognised_error.
Proof.
  intros d Hb. destruct (arc_total d Hb) as (Np & Nf & Es). destruct (C53_arc_errors d Hb) as (E1 & E2 & E3).
  assert (Two : forall x, arc_text_code d x -> len d = 2).
  { intros x (c & l & Hin & ->). destruct (arc_codes_two c x l Hin) as (a & b & ->). reflexivity. }
  assert (Pair : len d = 2 -> exists a b, d = [a; b]).
  { intros L. destruct d as [|a [|b [|c d]]]; try discriminate L; [eauto|unfold len in L; cbn in L; lia]. }
  split; [|split; [|split; [|split]]].
  - intros v. rewrite rmap_ok. split.
    + intros (x & H & ->). constructor. now apply C53_arc_bytes in H.
    + intros H. inversion H; subst. eexists. split; [|reflexivity]. apply C53_arc_bytes; [assumption|]. split; [eauto|assumption].
  - intros e Hs. rewrite rmap_err. split.
    + intros H. destruct (Es e H) as [[-> L]|[->| ->]]; [apply rejected_length; [fixed_in|assumption]| |discriminate].
      destruct (N.eq_dec (len d) 2) as [L|L]; [|rewrite (E1 L) in H; discriminate].
      destruct (Pair L) as (a & b & ->). constructor. now apply (E2 a b eq_refl).
    + intros H. inversion H as [t n d' Hin L| |a b U| | | | |]; subst.
      * cbn in Hin; repeat (destruct Hin as [Hin|Hin]; [try discriminate Hin; injection Hin as <-|]); [|destruct Hin]. now apply E1.
      * now apply (E2 a b eq_refl).
  - now rewrite (proj1 (rmap_panic _ _)).
  - now rewrite (proj2 (rmap_panic _ _)).
  - split.
    + intros (e & Hs & H). rewrite rmap_err in H. destruct e; try discriminate Hs.
      destruct (N.eq_dec (len d) 2) as [L|L]; [|rewrite (E1 L) in H; discriminate]. destruct (Pair L) as (a & b & ->).
      apply (E3 a b eq_refl) in H. destruct H as [U Nl]. eexists. now constructor.
    + intros [s H]. inversion H; subst. exists Unrecognised. split; [reflexivity|]. rewrite rmap_err. now apply (E3 a b eq_refl).
Qed.

Lemma exact_8E : exact [0x8E] (fun d => rmap ValCvmList (cvm_list_try_from d)) (fun _ => false).
Proof.
  intros d Hb.
  assert (Cases : (len d < 8 /\ cvm_list_try_from d = Err (ByteCountIncorrect Gt 8 (len d)))
                  \/ (8 <= len d /\ len d mod 2 = 1 /\ cvm_list_try_from d = Err ByteCountNotDivisibleIntoComponents)
                  \/ (8 <= len d /\ len d mod 2 = 0 /\ exists l, cvm_list_try_from d = Ok l)).
  { destruct (N.lt_ge_cases (len d) 8) as [L|L]; [left; split; [assumption|now apply C48_too_short]|right].
    assert (X : len d mod 2 = 1 \/ len d mod 2 = 0) by lia. destruct X as [X|X]; [left|right].
    - auto using C48_odd.
    - split; [assumption|]. split; [assumption|]. apply C48_accepted_iff. exists ((len d - 8) / 2). lia. }
  split; [|split; [|split; [|split]]].
  - intros v. rewrite rmap_ok. split.
    + intros (l & H & ->). apply C48_cvm_list in H. destruct H as (x & y & r & -> & Lx & Ly & Ex & Ey & R).
      destruct l as [lx ly lr]. cbn in Ex, Ey, R. subst lx ly. now constructor.
    + intros H. inversion H; subst. eexists. split; [|reflexivity]. apply C48_cvm_list. exists x, y, rules. cbn. auto 10.
  - intros e _. rewrite rmap_err. split.
    + intros H. destruct Cases as [[L E]|[(L & O & E)|(_ & _ & l & E)]]; rewrite E in H; try discriminate; injection H as <-; now constructor.
    + intros H. inversion H as [t n d' Hin L| | |d' L|d' L O| | |]; subst.
      * cbn in Hin; repeat (destruct Hin as [Hin|Hin]; [discriminate Hin|]); destruct Hin.
      * now apply C48_too_short.
      * now apply C48_odd.
  - rewrite (proj1 (rmap_panic _ _)). destruct Cases as [[L E]|[(L & O & E)|(_ & _ & l & E)]]; rewrite E; discriminate.
  - rewrite (proj2 (rmap_panic _ _)). destruct Cases as [[L E]|[(L & O & E)|(_ & _ & l & E)]]; rewrite E; discriminate.
  - split; [intros (e & H & _); discriminate|intros [s H]; inversion H].
Qed.

Lemma cv_rule_bits_value a b w : cv_rule_try_from [a; b] = Ok w <-> bits_value 2 cv_rule_bits [a; b] w.
Proof. apply (bf_parse_ok cv_rule_schema cv_rule_bits cv_rule_used cv_rule_matches). Qed.
Lemma exact_9F34 : exact [0x9F; 0x34] (fun d => rmap ValCvmResults (cvm_results_try_from d)) (fun _ => false).
Proof.
  intros d Hb.
  assert (Cases : (len d <> 3 /\ cvm_results_try_from d = Err (ByteCountIncorrect Eq 3 (len d)))
     \/ (exists a b c, d = [a; b; c] /\ 2 < c /\ cvm_results_try_from d = Err NonCompliant)
     \/ (exists a b c r, d = [a; b; c] /\ c <= 2 /\ cvm_results_try_from d = Ok r)).
  { destruct (N.eq_dec (len d) 3) as [L|L]; [right|left; split; [assumption|now apply C40_cvm_results_wrong_length]].
    destruct d as [|a [|b [|c [|x d]]]]; try discriminate L; [|unfold len in L; cbn in L; lia].
    destruct (C47_accepted_iff a b c Hb) as [A B]. destruct (N.le_gt_cases c 2) as [G|G].
    - right. apply A in G as G'. destruct G' as [r R]. eauto 10.
    - left. eauto 10. }
  split; [|split; [|split; [|split]]].
  - intros v. rewrite rmap_ok. split.
    + intros (r & H & ->). apply C47_cvm_results in H; [|assumption]. destruct H as (a & b & c & -> & R & X).
      destruct r as [ru x]. cbn in R, X. constructor; [now apply cv_rule_bits_value|exact X].
    + intros H. inversion H; subst. eexists. split; [|reflexivity]. apply C47_cvm_results; [assumption|].
      exists a, b, c. split; [reflexivity|]. cbn. split; [now apply cv_rule_bits_value|assumption].
  - intros e _. rewrite rmap_err. split.
    + intros H. destruct Cases as [[L E]|[(a & b & c & -> & G & E)|(a & b & c & r & -> & _ & E)]]; rewrite E in H; try discriminate; injection H as <-.
      * apply rejected_length; [fixed_in|assumption].
      * now constructor.
    + intros H. inversion H as [t n d' Hin L| | | | |a b c G| |]; subst.
      * cbn in Hin; repeat (destruct Hin as [Hin|Hin]; [try discriminate Hin; injection Hin as <-|]); [|destruct Hin].
        now apply C40_cvm_results_wrong_length.
      * now apply C47_accepted_iff.
  - rewrite (proj1 (rmap_panic _ _)). destruct Cases as [[L E]|[(a & b & c & -> & G & E)|(a & b & c & r & -> & _ & E)]]; rewrite E; discriminate.
  - rewrite (proj2 (rmap_panic _ _)). destruct Cases as [[L E]|[(a & b & c & -> & G & E)|(a & b & c & r & -> & _ & E)]]; rewrite E; discriminate.
  - split; [intros (e & H & _); discriminate|intros [s H]; inversion H].
Qed.

Lemma exact_9F10 : exact [0x9F; 0x10] (fun d => rmap ValIad (iad_try_from d)) is_non_ccd_error.
Proof.
  intros d Hb. pose proof (C49_iad_otherwise_non_ccd d Hb) as Cases.
  assert (Cv : forall c w, cci_try_from [c] = Ok w <-> bits_value 1 cci_bits [c] w)
    by (intros; apply (bf_parse_ok cci_schema cci_bits cci_used cci_matches)).
  assert (Vv : forall c w, cvr_try_from c = Ok w <-> bits_value 5 cvr_bits c w)
    by (intros; apply (bf_parse_ok cvr_schema cvr_bits cvr_used cvr_matches)).
  split; [|split; [|split; [|split]]].
  - intros v. rewrite rmap_ok. split.
    + intros (r & H & ->). apply C49_iad_accepts in H; [|assumption]. destruct H as (cci & cvr & L & _ & C & V).
      destruct r as [rc rd rv rn rr]. cbn in *. apply value_9F10 with cci cvr; [assumption|now apply Cv|now apply Vv].
    + intros H. inversion H as [ | | | | | | | | |d' cci dki cvr ctr rest vc vv L C V| | | | |]; subst. eexists. split; [|reflexivity].
      apply C49_iad_accepts; [assumption|]. exists cci, cvr. cbn. split; [assumption|]. apply Cv in C. apply Vv in V.
      split; [|auto]. apply C40_cci; [|eauto]. destruct L as (-> & _). apply bytes_ok_cons in Hb. destruct Hb as [_ Hb]. now apply bytes_ok_cons in Hb.
  - intros e Hs. rewrite rmap_err. split.
    + intros H. destruct Cases as [[v V]|V]; [congruence|]. rewrite V in H. injection H as <-. discriminate.
    + intros H. inversion H as [t n d' Hin L| | | | | | |]; subst.
      cbn in Hin; repeat (destruct Hin as [Hin|Hin]; [discriminate Hin|]); destruct Hin.
  - rewrite (proj1 (rmap_panic _ _)). destruct Cases as [[v V]|V]; rewrite V; discriminate.
  - rewrite (proj2 (rmap_panic _ _)). destruct Cases as [[v V]|V]; rewrite V; discriminate.
  - pose proof (C49_iad_accepted_iff d Hb) as A. split.
    + intros (e & Hs & H). rewrite rmap_err in H. eexists. constructor. intros X. apply A in X. destruct X as [v V]. congruence.
    + intros [s H]. inversion H as [| |d' X]; subst. exists NonCcdCompliant. split; [reflexivity|]. rewrite rmap_err.
      destruct Cases as [V|V]; [apply A in V; contradiction|assumption].
Qed.

(** ** process_emv_tag *)

Definition tag_facts (raw : raw_tag) (r : res ptag) : Prop :=
  (forall pt, r = Ok pt <-> processed raw pt)
  /\ (forall e, r = Err e <-> exists d, rt_data raw = Normal d /\ rejected (rt_tag raw) d e)
  /\ r <> Panic /\ r <> NoFuel.

Lemma known_name_unique t s s' : known_name t s -> known_name t s' -> s = s'.
Proof. rewrite <- !identify_iff. congruence. Qed.

Lemma unrecognised_facts name other raw f soft : data_ok raw -> known_name (rt_tag raw) name ->
  In (rt_tag raw) interpreted_tags -> exact (rt_tag raw) f soft ->
  (forall d s, bytes_ok d -> tolerated (rt_tag raw) d s -> lit s = other) ->
  (forall d e, rejected (rt_tag raw) d e -> soft e = false) ->
  tag_facts raw (parse_raw_unrecognised name other raw f soft).
Proof.
  intros Hd Hn Hi Hx Ho Hr. unfold data_ok in Hd. unfold tag_facts, parse_raw_unrecognised.
  assert (Unk : ~ unknown_tag (rt_tag raw)) by (intros U; now apply (U name)).
  destruct (rt_data raw) as [d|] eqn:Ed.
  - destruct (Hx d Hd) as (Fok & Ferr & Np & Nf & Ftol).
    destruct (f d) as [v|e| |] eqn:Ef; [| |congruence|congruence].
    + split; [|split; [|split; discriminate]].
      * intros pt. split.
        -- intros H. injection H as <-. apply processed_parsed with d; [assumption|assumption|]. now apply Fok.
        -- intros P. inversion P as [U|s Hs [Hm|Hm]|s d' v' Hs Hd' Hv|s d' Hd' Ht]; subst; try contradiction; try congruence.
           ++ rewrite Ed in Hd'. injection Hd' as <-. apply Fok in Hv. injection Hv as <-.
              now rewrite (known_name_unique _ _ _ Hn Hs).
           ++ rewrite Ed in Hd'. injection Hd' as <-. destruct (proj2 Ftol) as (e & _ & X); [eauto|discriminate].
      * intros e. split; [discriminate|]. intros (d' & Hd' & R). injection Hd' as <-.
        apply Ferr in R; [discriminate|now apply (Hr d)].
    + destruct (soft e) eqn:Es.
      * split; [|split; [|split; discriminate]].
        -- destruct (proj1 Ftol) as [s Hs]; [eauto|]. intros pt. split.
           ++ intros H. injection H as <-. rewrite <- (Ho d s Hd Hs). now apply processed_tolerated with d.
           ++ intros P. inversion P as [U|s' Hs' [Hm|Hm]|s' d' v' Hs' Hd' Hv|s' d' Hd' Ht]; subst; try contradiction; try congruence.
              ** rewrite Ed in Hd'. injection Hd' as <-. apply Fok in Hv. discriminate.
              ** rewrite Ed in Hd'. injection Hd' as <-. now rewrite (Ho d s' Hd Ht).
        -- intros e'. split; [discriminate|]. intros (d' & Hd' & R). injection Hd' as <-.
           pose proof (Hr d e' R) as Hs. apply Ferr in R; [|assumption]. congruence.
      * split; [|split; [|split; discriminate]].
        -- intros pt. split; [discriminate|]. intros P.
           inversion P as [U|s' Hs' [Hm|Hm]|s' d' v' Hs' Hd' Hv|s' d' Hd' Ht]; subst; try contradiction; try congruence.
           ++ rewrite Ed in Hd'. injection Hd' as <-. apply Fok in Hv. discriminate.
           ++ rewrite Ed in Hd'. injection Hd' as <-. destruct (proj2 Ftol) as (e' & E' & X); [eauto|]. congruence.
        -- intros e'. split.
           ++ intros H. injection H as <-. exists d. split; [reflexivity|]. now apply Ferr.
           ++ intros (d' & Hd' & R). injection Hd' as <-.
              pose proof (Hr d e' R) as Hs. apply Ferr in R; [|assumption]. congruence.
  - split; [|split; [|split; discriminate]].
    + intros pt. split.
      * intros H. injection H as <-. apply processed_named; auto.
      * intros P. inversion P as [U|s Hs _|s d' v' Hs Hd' Hv|s d' Hd' Ht]; subst; try contradiction; try congruence.
        now rewrite (known_name_unique _ _ _ Hn Hs).
    + intros e. split; [discriminate|]. intros (d' & Hd' & _). discriminate.
Qed.
Lemma parse_raw_facts name raw f : data_ok raw -> known_name (rt_tag raw) name ->
  In (rt_tag raw) interpreted_tags -> exact (rt_tag raw) f (fun _ => false) -> tag_facts raw (parse_raw name raw f).
Proof.
  intros Hd Hn Hi Hx.
  assert (E : parse_raw name raw f = parse_raw_unrecognised name [] raw f (fun _ => false)).
  { unfold parse_raw, parse_raw_unrecognised. destruct (rt_data raw) as [d|]; [|reflexivity]. destruct (f d); reflexivity. }
  rewrite E. apply unrecognised_facts; try assumption; [|reflexivity].
  intros d s Hb Ht. exfalso. destruct (Hx d Hb) as (_ & _ & _ & _ & Ft). destruct (proj2 Ft) as (e & X & _); [eauto|discriminate].
Qed.

Lemma plain_facts name raw : known_name (rt_tag raw) name -> ~ In (rt_tag raw) interpreted_tags ->
  tag_facts raw (Ok (PAnnotated name raw)).
Proof.
  intros Hn Hi. split; [|split; [|split; discriminate]].
  - intros pt. split.
    + intros H. injection H as <-. apply processed_named; auto.
    + intros P. inversion P as [U|s Hs _|s d v Hs Hd Hv|s d Hd Ht]; subst.
      * now elim (U name).
      * now rewrite (known_name_unique _ _ _ Hn Hs).
      * exfalso. apply Hi. inversion Hv; cbn; tauto.
      * exfalso. apply Hi. inversion Ht; cbn; tauto.
  - intros e. split; [discriminate|]. intros (d & Hd & R). exfalso. apply Hi.
    inversion R as [t n d' Hin L| | | | | | |]; subst; try (cbn; tauto).
    cbn in Hin. repeat (destruct Hin as [Hin|Hin]; [injection Hin as <- _; cbn; tauto|]). destruct Hin.
Qed.

Ltac soft_ok := let H := fresh in let Hin := fresh in intros ? ? H; inversion H as [? ? ? Hin ?| | | | | | |]; reflexivity.

Lemma process_facts raw : data_ok raw -> tag_facts raw (process_emv_tag raw).
Proof.
  intros Hd. unfold process_emv_tag. destruct (identify_tag (rt_tag raw)) as [name|] eqn:I.
  2:{ apply identify_none in I. split; [|split; [|split; discriminate]].
      - intros pt. split; [intros H; injection H as <-; now constructor|].
        intros P. inversion P as [U|s Hs _|s d v Hs Hd' Hv|s d Hd' Ht]; subst; try reflexivity; try (now elim (I s)).
        exfalso. inversion Ht as [a b _ _ E|b _ E|d' _ E]; rewrite <- E in I;
          [apply (I (lit "Authorisation Response Code"))|apply (I (lit "Transaction Type"))|apply (I (lit "Issuer Application Data (CCD-Compliant)"))];
          apply identify_iff; vm_compute; reflexivity.
      - intros e. split; [discriminate|]. intros (d & Hd' & R). exfalso.
        assert (K : In (rt_tag raw) interpreted_tags).
        { inversion R as [t n d' Hin L| | | | | | |]; subst; try (cbn; tauto).
          cbn in Hin. repeat (destruct Hin as [Hin|Hin]; [injection Hin as <- _; cbn; tauto|]). destruct Hin. }
        assert (Z : forallb (fun t => match identify_tag t with Some _ => true | None => false end) interpreted_tags = true) by (vm_compute; reflexivity).
        rewrite forallb_forall in Z. specialize (Z _ K). apply identify_none in I. rewrite I in Z. discriminate. }
  cbv zeta. apply identify_iff in I as K.
  repeat match goal with
  | |- tag_facts raw (if leqb (rt_tag raw) ?t then _ else _) =>
      let E := fresh "E" in destruct (leqb (rt_tag raw) t) eqn:E; [apply leqb_eq in E|]
  end.
  - apply parse_raw_facts; try assumption; rewrite E; [cbn; tauto|exact exact_5F30].
  - apply unrecognised_facts; try assumption; rewrite E0; [cbn; tauto|exact exact_8A| |soft_ok].
    intros d s _ Ht. inversion Ht. reflexivity.
  - apply parse_raw_facts; try assumption; rewrite E1; [cbn; tauto|exact exact_8E].
  - apply parse_raw_facts; try assumption; rewrite E2; [cbn; tauto|exact exact_95].
  - apply parse_raw_facts; try assumption; rewrite E3; [cbn; tauto|exact exact_9B].
  - apply unrecognised_facts; try assumption; rewrite E4; [cbn; tauto|exact exact_9C| |soft_ok].
    intros d s _ Ht. inversion Ht. reflexivity.
  - apply parse_raw_facts; try assumption; rewrite E5; [cbn; tauto|exact exact_9F0D].
  - apply parse_raw_facts; try assumption; rewrite E6; [cbn; tauto|exact exact_9F0E].
  - apply parse_raw_facts; try assumption; rewrite E7; [cbn; tauto|exact exact_9F0F].
  - apply unrecognised_facts; try assumption; rewrite E8; [|cbn; tauto|exact exact_9F10| |soft_ok].
    + apply identify_iff. vm_compute. reflexivity.
    + intros d s _ Ht. inversion Ht. reflexivity.
  - apply parse_raw_facts; try assumption; rewrite E9; [cbn; tauto|exact exact_9F33].
  - apply parse_raw_facts; try assumption; rewrite E10; [cbn; tauto|exact exact_9F34].
  - apply parse_raw_facts; try assumption; rewrite E11; [cbn; tauto|exact exact_9F35].
  - apply parse_raw_facts; try assumption; rewrite E12; [cbn; tauto|exact exact_9F39].
  - apply parse_raw_facts; try assumption; rewrite E13; [cbn; tauto|exact exact_9F40].
  - apply plain_facts; [assumption|]. intros Hin.
    assert (Z : forallb (fun t => negb (leqb (rt_tag raw) t)) interpreted_tags = true).
    { cbn [forallb interpreted_tags]. now rewrite E, E0, E1, E2, E3, E4, E5, E6, E7, E8, E9, E10, E11, E12, E13. }
    rewrite forallb_forall in Z. specialize (Z _ Hin). rewrite (proj2 (leqb_eq _ _) eq_refl) in Z. discriminate.
Qed.

(** ** Blocks *)

Lemma process_emv_tag_raw t pt : process_emv_tag t = Ok pt -> raw_of pt = t.
Proof.
  unfold process_emv_tag. destruct (identify_tag (rt_tag t)); [|intros H; now injection H as <-]. cbv zeta.
  assert (A : forall n f, parse_raw n t f = Ok pt -> raw_of pt = t).
  { intros n f. unfold parse_raw. destruct (rt_data t); [|intros H; now injection H as <-].
    destruct (f data); try discriminate. intros H. now injection H as <-. }
  assert (B : forall n o f g, parse_raw_unrecognised n o t f g = Ok pt -> raw_of pt = t).
  { intros n o f g. unfold parse_raw_unrecognised. destruct (rt_data t); [|intros H; now injection H as <-].
    destruct (f data); try discriminate; [intros H; now injection H as <-|]. destruct (g e); [intros H; now injection H as <-|discriminate]. }
  repeat match goal with |- context [if ?b then _ else _] => destruct b; [first [apply A|apply B]|] end.
  intros H. now injection H as <-.
Qed.

Lemma mapM_cons {A B} (f : A -> res B) x l : mapM f (x :: l) = (y <- f x;; ys <- mapM f l;; Ok (y :: ys)).
Proof. reflexivity. Qed.
Lemma process_node_eq t c : process_node (RawNode t c) = (pt <- process_emv_tag t;; cs <- mapM process_node c;; Ok (PNode pt cs)).
Proof. reflexivity. Qed.

Lemma process_node_strip n : forall pn, process_node n = Ok pn -> strip pn = n.
Proof.
  induction n as [t c IH] using raw_tree_ind. intros pn. rewrite process_node_eq.
  destruct (process_emv_tag t) as [pt| | |] eqn:T; try discriminate. cbn [bind].
  destruct (mapM process_node c) as [cs| | |] eqn:C; try discriminate. cbn [bind]. intros H. injection H as <-.
  cbn [strip]. rewrite (process_emv_tag_raw t pt T). f_equal. clear T pt t.
  revert cs C. induction IH as [|x c Hx _ IHc]; intros cs C.
  - injection C as <-. reflexivity.
  - rewrite mapM_cons in C. destruct (process_node x) as [y| | |]; try discriminate. cbn [bind] in C.
    destruct (mapM process_node c) as [ys| | |]; try discriminate. injection C as <-. cbn [map]. now rewrite (Hx y eq_refl), (IHc ys eq_refl).
Qed.
Lemma process_block_strip l r : process_block l = Ok r -> map strip r = l.
Proof.
  unfold process_block. revert r. induction l as [|n l IH]; intros r H.
  - injection H as <-. reflexivity.
  - rewrite mapM_cons in H. destruct (process_node n) as [y| | |] eqn:N; try discriminate. cbn [bind] in H.
    destruct (mapM process_node l) as [ys| | |]; try discriminate. injection H as <-. cbn [map].
    now rewrite (process_node_strip n y N), (IH ys eq_refl).
Qed.

(* Process a list of tags, ignoring the results. *)
Fixpoint all_tags (l : list raw_tag) : res unit :=
  match l with [] => Ok tt | t :: l' => _ <- process_emv_tag t;; all_tags l' end.
Lemma all_tags_app a b : all_tags (a ++ b) = (_ <- all_tags a;; all_tags b).
Proof. induction a as [|t a IH]; [reflexivity|]. cbn [app all_tags]. destruct (process_emv_tag t); try reflexivity. cbn [bind]. exact IH. Qed.
Lemma process_forest_tags (P : raw_node -> Prop) l : Forall (fun n => rmap (fun _ => tt) (process_node n) = all_tags (preorder n)) l ->
  rmap (fun _ => tt) (mapM process_node l) = all_tags (flat_map preorder l).
Proof.
  induction 1 as [|n l Hn _ IH]; [reflexivity|]. rewrite mapM_cons. cbn [flat_map]. rewrite all_tags_app, <- Hn, <- IH.
  destruct (process_node n); try reflexivity. cbn. destruct (mapM process_node l); reflexivity.
Qed.
Lemma process_node_tags n : rmap (fun _ => tt) (process_node n) = all_tags (preorder n).
Proof.
  induction n as [t c IH] using raw_tree_ind. apply (process_forest_tags (fun _ => True)) in IH. rewrite process_node_eq. cbn [preorder all_tags].
  rewrite <- IH. destruct (process_emv_tag t); try reflexivity. cbn. destruct (mapM process_node c); reflexivity.
Qed.
Lemma process_block_tags l : rmap (fun _ => tt) (process_block l) = all_tags (flat_map preorder l).
Proof. apply (process_forest_tags (fun _ => True)). apply Forall_forall. intros n _. apply process_node_tags. Qed.
Lemma all_tags_ok l : all_tags l = Ok tt <-> Forall (fun t => exists pt, process_emv_tag t = Ok pt) l.
Proof.
  induction l as [|t l IH]; cbn [all_tags]; [split; auto|]. split.
  - destruct (process_emv_tag t) eqn:E; try discriminate. cbn [bind]. intros H. constructor; [eauto|now apply IH].
  - intros F. inversion F as [|? ? [pt Hp] F']; subst. rewrite Hp. cbn [bind]. now apply IH.
Qed.
Lemma all_tags_err l e : all_tags l = Err e <->
  exists before t after, l = before ++ t :: after /\ Forall (fun t => exists pt, process_emv_tag t = Ok pt) before /\ process_emv_tag t = Err e.
Proof.
  induction l as [|t l IH]; cbn [all_tags].
  - split; [discriminate|]. intros (b & t & a & E & _). now apply app_cons_not_nil in E.
  - destruct (process_emv_tag t) as [pt|e'| |] eqn:E; cbn [bind].
    + rewrite IH. split.
      * intros (b & x & a & -> & F & X). exists (t :: b), x, a. split; [reflexivity|]. split; [constructor; eauto|assumption].
      * intros (b & x & a & E' & F & X). destruct b as [|y b]; cbn in E'; injection E' as -> ->; [congruence|].
        exists b, x, a. inversion F; subst. auto.
    + split.
      * intros H. injection H as ->. exists [], t, l. auto.
      * intros (b & x & a & E' & F & X). destruct b as [|y b]; cbn in E'; injection E' as -> ->; [congruence|].
        inversion F as [|? ? [pt Hp] _]; subst. congruence.
    + split; [discriminate|]. intros (b & x & a & E' & F & X). destruct b as [|y b]; cbn in E'; injection E' as -> ->; [congruence|].
      inversion F as [|? ? [pt Hp] _]; subst. congruence.
    + split; [discriminate|]. intros (b & x & a & E' & F & X). destruct b as [|y b]; cbn in E'; injection E' as -> ->; [congruence|].
      inversion F as [|? ? [pt Hp] _]; subst. congruence.
Qed.
Lemma all_tags_no_panic l : Forall data_ok l -> all_tags l <> Panic /\ all_tags l <> NoFuel.
Proof.
  induction 1 as [|t l Hd _ IH]; [split; discriminate|]. cbn [all_tags].
  destruct (process_facts t Hd) as (_ & _ & Np & Nf). destruct (process_emv_tag t); try contradiction; [exact IH|split; discriminate].
Qed.

(** ** Sorting *)

Lemma dict_cases a : forall b, match lex_cmp a b with Eq => a = b | Lt => dict_lt a b | Gt => dict_lt b a end.
Proof.
  induction a as [|x a IH]; intros [|y b]; cbn [lex_cmp]; try reflexivity; try constructor.
  specialize (IH b). destruct (N.compare_spec x y) as [->|H|H].
  - destruct (lex_cmp a b); [congruence|now constructor|now constructor].
  - now constructor.
  - now constructor.
Qed.
Lemma dict_irrefl a : ~ dict_lt a a.
Proof. induction a; intros H; inversion H; subst; [lia|auto]. Qed.
Lemma dict_trans a b c : dict_lt a b -> dict_lt b c -> dict_lt a c.
Proof.
  intros H. revert c. induction H; intros c Hc; inversion Hc; subst;
    first [apply dict_tail; now auto|apply dict_head; lia|apply dict_prefix].
Qed.
Lemma dict_antisym a b : dict_lt a b -> ~ dict_lt b a.
Proof. intros H1 H2. apply (dict_irrefl a). eapply dict_trans; eassumption. Qed.

Lemma tag_le_trans a b c : tag_le a b -> tag_le b c -> tag_le a c.
Proof.
  unfold tag_le. intros [H1|H1] [H2|H2].
  - left. eapply dict_trans; eassumption.
  - left. now rewrite <- H2.
  - left. now rewrite H1.
  - right. congruence.
Qed.
Lemma pnode_cmp_le a b : pnode_cmp a b <> Gt -> tag_le a b.
Proof.
  unfold pnode_cmp, raw_tag_cmp, tag_le. destruct a as [ta ca], b as [tb cb]. cbn [pnode_tag tag_bytes].
  change (get_raw_tag ta) with (raw_of ta). change (get_raw_tag tb) with (raw_of tb).
  pose proof (dict_cases (rt_tag (raw_of ta)) (rt_tag (raw_of tb))) as D. destruct (lex_cmp _ _); auto. congruence.
Qed.
Lemma pnode_cmp_gt a b : pnode_cmp a b = Gt -> tag_le b a /\ tag_bytes a <> tag_bytes b.
Proof.
  unfold pnode_cmp, raw_tag_cmp, tag_le. destruct a as [ta ca], b as [tb cb]. cbn [pnode_tag tag_bytes].
  change (get_raw_tag ta) with (raw_of ta). change (get_raw_tag tb) with (raw_of tb).
  pose proof (dict_cases (rt_tag (raw_of ta)) (rt_tag (raw_of tb))) as D. destruct (lex_cmp _ _); try discriminate. intros _.
  split; [auto|]. intros E. rewrite E in D. now apply dict_irrefl in D.
Qed.

Lemma insert_perm n l : Permutation (n :: l) (insert_node n l).
Proof.
  induction l as [|x l IH]; cbn [insert_node]; [reflexivity|]. destruct (pnode_cmp n x); try reflexivity.
  transitivity (x :: n :: l); [constructor|]. now constructor.
Qed.
Lemma stable_sort_perm l : Permutation l (stable_sort l).
Proof.
  induction l as [|n l IH]; cbn; [reflexivity|]. etransitivity; [|apply insert_perm]. now constructor.
Qed.
Lemma insert_sorted n l : StronglySorted tag_le l -> StronglySorted tag_le (insert_node n l).
Proof.
  induction 1 as [|x l S IH F]; cbn [insert_node]; [repeat constructor|].
  destruct (pnode_cmp n x) eqn:C.
  - assert (L : tag_le n x) by (apply pnode_cmp_le; congruence). constructor; [now constructor|]. constructor; [assumption|].
    eapply Forall_impl; [|exact F]. intros y. now apply tag_le_trans.
  - assert (L : tag_le n x) by (apply pnode_cmp_le; congruence). constructor; [now constructor|]. constructor; [assumption|].
    eapply Forall_impl; [|exact F]. intros y. now apply tag_le_trans.
  - apply pnode_cmp_gt in C. constructor; [assumption|]. apply (Permutation_Forall (insert_perm n l)). constructor; [apply C|assumption].
Qed.
Lemma stable_sort_sorted l : StronglySorted tag_le (stable_sort l).
Proof. induction l; cbn; [constructor|now apply insert_sorted]. Qed.
Lemma insert_stable t n l : with_tag t (insert_node n l) = with_tag t (n :: l).
Proof.
  induction l as [|x l IH]; cbn [insert_node]; [reflexivity|]. destruct (pnode_cmp n x) eqn:C; try reflexivity.
  apply pnode_cmp_gt in C. destruct C as [_ C]. unfold with_tag in *. cbn [filter] in *. rewrite IH.
  destruct (list_eq_dec N.eq_dec (tag_bytes n) t) as [E1|]; destruct (list_eq_dec N.eq_dec (tag_bytes x) t) as [E2|]; try reflexivity. congruence.
Qed.
Lemma stable_sort_stable t l : with_tag t (stable_sort l) = with_tag t l.
Proof.
  induction l as [|n l IH]; [reflexivity|]. change (stable_sort (n :: l)) with (insert_node n (stable_sort l)). rewrite insert_stable. unfold with_tag in *. cbn [filter]. now rewrite IH.
Qed.

Lemma with_tag_in t l x : In x (with_tag t l) <-> In x l /\ tag_bytes x = t.
Proof.
  unfold with_tag. rewrite filter_In. destruct (list_eq_dec N.eq_dec (tag_bytes x) t); split; intros [H1 H2]; split; auto; congruence.
Qed.
Lemma sorted_unique m1 : forall m2, StronglySorted tag_le m1 -> StronglySorted tag_le m2 ->
  (forall t, with_tag t m1 = with_tag t m2) -> m1 = m2.
Proof.
  induction m1 as [|a m1 IH]; intros m2 S1 S2 F.
  - destruct m2 as [|b m2]; [reflexivity|]. specialize (F (tag_bytes b)).
    assert (I : In b (with_tag (tag_bytes b) [])) by (rewrite F; apply with_tag_in; split; [now left|reflexivity]). destruct I.
  - assert (Ia : In a m2). { apply (with_tag_in (tag_bytes a)). rewrite <- F. apply with_tag_in. split; [now left|reflexivity]. }
    destruct m2 as [|b m2]; [destruct Ia|].
    assert (Ib : In b (a :: m1)). { apply (with_tag_in (tag_bytes b)). rewrite F. apply with_tag_in. split; [now left|reflexivity]. }
    inversion S1 as [|? ? S1' F1]; subst. inversion S2 as [|? ? S2' F2]; subst.
    assert (Le1 : tag_le b a) by (destruct Ia as [->|Ia]; [right; reflexivity|rewrite Forall_forall in F2; auto]).
    assert (Le2 : tag_le a b) by (destruct Ib as [->|Ib]; [right; reflexivity|rewrite Forall_forall in F1; auto]).
    assert (E : tag_bytes a = tag_bytes b).
    { destruct Le1 as [L1|L1]; [|congruence]. destruct Le2 as [L2|L2]; [|congruence]. now apply dict_antisym in L1. }
    assert (Hd : a = b).
    { pose proof (F (tag_bytes a)) as X. unfold with_tag in X. cbn [filter] in X.
      destruct (list_eq_dec N.eq_dec (tag_bytes a) (tag_bytes a)); [|congruence].
      destruct (list_eq_dec N.eq_dec (tag_bytes b) (tag_bytes a)); [|congruence]. now injection X. }
    subst b. f_equal. apply IH; try assumption. intros t. specialize (F t). unfold with_tag in *. cbn [filter] in F.
    destruct (list_eq_dec N.eq_dec (tag_bytes a) t); [now injection F|assumption].
Qed.

Scheme arranged_ind2 := Induction for arranged Sort Prop
  with each_arranged_ind2 := Induction for each_arranged Sort Prop.

Lemma block_depth_in l n : In n l -> (pnode_depth n <= block_depth l)%nat.
Proof. induction l as [|x l IH]; [intros []|]. cbn [block_depth fold_right]. intros [->|H]; [lia|]. specialize (IH H). unfold block_depth in IH. lia. Qed.
Lemma sort_fuel_arranged f : forall l, (block_depth l <= f)%nat -> arranged l (sort_nodes_fuel f l).
Proof.
  induction f as [|f IH]; intros l H.
  - destruct l as [|[t c] l]; [|cbn [block_depth fold_right pnode_depth] in H; lia]. apply (arranged_intro [] [] []); try constructor.
  - cbn [sort_nodes_fuel]. apply arranged_intro with (stable_sort l).
    + apply stable_sort_perm.
    + apply stable_sort_sorted.
    + intros t. apply stable_sort_stable.
    + assert (D : forall n, In n (stable_sort l) -> (block_depth (pnode_children n) <= f)%nat).
      { intros n Hn. apply (Permutation_in _ (Permutation_sym (stable_sort_perm l))) in Hn. apply block_depth_in in Hn.
        destruct n as [t c]. cbn [pnode_depth] in Hn. cbn [pnode_children]. unfold block_depth. lia. }
      revert D. generalize (stable_sort l). induction l0 as [|[t c] m IHm]; intros D; [constructor|].
      cbn [map pnode_tag pnode_children]. constructor; [apply IH, (D (PNode t c)); now left|]. apply IHm. intros n Hn. apply D. now right.
Qed.
Lemma arranged_unique l l1 : arranged l l1 -> forall l2, arranged l l2 -> l1 = l2.
Proof.
  apply (arranged_ind2 (fun l l1 _ => forall l2, arranged l l2 -> l1 = l2)
                       (fun m l1 _ => forall l2, each_arranged m l2 -> l1 = l2)); clear.
  - intros l m l1 P S F E IH l2 H. inversion H as [? m2 ? P2 S2 F2 E2]; subst.
    assert (m2 = m) by (apply sorted_unique; try assumption; intros t; now rewrite F, F2). subst. now apply IH.
  - intros l2 H. now inversion H.
  - intros t c c' m l1 A IHa E IHe l2 H. inversion H; subst. f_equal; [f_equal; now apply IHa|now apply IHe].
Qed.
Lemma each_arranged_tags m l' : each_arranged m l' -> map tag_bytes l' = map tag_bytes m.
Proof. induction 1; cbn; [reflexivity|]. now f_equal. Qed.
Lemma sorted_tags m : forall l, map tag_bytes l = map tag_bytes m -> StronglySorted tag_le m -> StronglySorted tag_le l.
Proof.
  induction m as [|x m IH]; intros [|y l] E S; try discriminate; [constructor|]. cbn in E. injection E as E1 E2.
  inversion S as [|? ? S' F]; subst. constructor; [now apply IH|]. rewrite Forall_forall in *. intros z Hz.
  apply (in_map tag_bytes) in Hz. rewrite E2 in Hz. apply in_map_iff in Hz. destruct Hz as (w & Ew & Hw). specialize (F w Hw).
  unfold tag_le in *. rewrite E1, <- Ew. exact F.
Qed.
Lemma arranged_idem l l' : arranged l l' -> arranged l' l'.
Proof.
  apply (arranged_ind2 (fun l l' _ => arranged l' l') (fun m l' _ => each_arranged l' l')); clear.
  - intros l m l' P S F E IH. apply arranged_intro with l'; try reflexivity; [|assumption].
    apply sorted_tags with m; [now apply each_arranged_tags|assumption].
  - constructor.
  - intros. now constructor.
Qed.

(** ** Equality *)

Lemma raw_tag_eqb_iff a b : raw_tag_eqb a b = true <-> a = b.
Proof.
  unfold raw_tag_eqb. rewrite !andb_true_iff, leqb_eq. destruct a as [ta ca ya da], b as [tb cb yb db]. cbn.
  assert (C : tag_class_eqb ca cb = true <-> ca = cb) by (destruct ca, cb; cbn; split; intros; try reflexivity; discriminate).
  assert (Y : data_object_type_eqb ya yb = true <-> ya = yb) by (destruct ya, yb; cbn; split; intros; try reflexivity; discriminate).
  assert (D : emv_data_eqb da db = true <-> da = db).
  { destruct da, db; cbn; rewrite ?leqb_eq; split; intros H; try reflexivity; try discriminate; [now subst|now injection H]. }
  rewrite C, Y, D. split; [intros [[[-> ->] ->] ->]; reflexivity|intros H; injection H as -> -> -> ->; auto].
Qed.
Lemma pnode_eqb_eq ta ca tb cb : pnode_eqb (PNode ta ca) (PNode tb cb) = ptag_eqb ta tb && block_eqb ca cb.
Proof. reflexivity. Qed.
Lemma pnode_eqb_iff a : forall b, pnode_eqb a b = true <-> strip a = strip b.
Proof.
  induction a as [ta ca IH] using pnode_tree_ind. intros [tb cb]. rewrite pnode_eqb_eq, andb_true_iff. unfold ptag_eqb.
  change (get_raw_tag ta) with (raw_of ta). change (get_raw_tag tb) with (raw_of tb). rewrite raw_tag_eqb_iff.
  assert (B : block_eqb ca cb = true <-> map strip ca = map strip cb).
  { clear ta tb. revert cb. induction IH as [|x ca Hx _ IHc]; intros [|y cb]; cbn [block_eqb map]; try (split; [reflexivity|reflexivity]); try (split; discriminate).
    rewrite andb_true_iff, Hx, IHc. split; [intros [-> ->]; reflexivity|intros H; injection H as -> ->; auto]. }
  rewrite B. cbn [strip]. split; [intros [-> ->]; reflexivity|intros H; injection H as -> ->; auto].
Qed.
Lemma block_eqb_iff l : forall m, block_eqb l m = true <-> map strip l = map strip m.
Proof.
  induction l as [|x l IH]; intros [|y m]; cbn [block_eqb map]; try (split; [reflexivity|reflexivity]); try (split; discriminate).
  rewrite andb_true_iff, pnode_eqb_iff, IH. split; [intros [-> ->]; reflexivity|intros H; injection H as -> ->; auto].
Qed.
