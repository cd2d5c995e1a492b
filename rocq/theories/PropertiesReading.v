(** The properties of the typed argument texts and of automatic detection. *)

From Coq Require Import ZArith NArith List String Ascii Bool Lia ZifyN ZifyBool ZifyNat Permutation Sorting PeanoNat.
From Verif Require Import Base ModelUtil ModelEnums ModelBitflag ModelSchemas ModelTags ModelTlv ModelValues ModelProcess ModelDisplay
  SpecUtil SpecCodes SpecValues SpecTlv SpecIngenico SpecTags SpecProcess SpecDisplay
  ProofsUtil PropertiesUtil PropertiesBer SpecPictures ProofsPictures
  ModelMain SpecMain ProofsMain PropertiesMain PropertiesPictures ModelCli SpecCli ProofsCli PropertiesCli SpecReading.
Import ListNotations.
Local Open Scope N_scope.

(** C75: what matters in the text of an argument. *)

Lemma upper_hex_value c : is_hex_digitb c = true -> is_hex_digitb (upper_hex c) = true /\ hex_value (upper_hex c) = hex_value c.
Proof. unfold is_hex_digitb, upper_hex, hex_value. intros H. destruct ((97 <=? c) && (c <=? 102)) eqn:E; split; try lia; repeat (destruct (_ <=? _) eqn:? in |- *); lia. Qed.
Lemma bytes_upper ds : Forall (fun c => is_hex_digitb c = true) ds -> bytes_of_digits (map upper_hex ds) = bytes_of_digits ds.
Proof.
  revert ds. fix IH 1. intros [|a [|b t]] F; [reflexivity|reflexivity|]. inversion F as [|? ? Fa F']; subst. inversion F' as [|? ? Fb F'']; subst.
  cbn [map bytes_of_digits]. rewrite (proj2 (upper_hex_value a Fa)), (proj2 (upper_hex_value b Fb)). f_equal. now apply IH.
Qed.
Lemma bytes_whole ds : bytes_of_digits (if Nat.even (List.length ds) then ds else removelast ds) = bytes_of_digits ds.
Proof.
  revert ds. fix IH 1. intros [|a [|b t]]; [reflexivity|reflexivity|]. cbn [List.length Nat.even]. specialize (IH t). destruct (Nat.even (List.length t)) eqn:E; [reflexivity|].
  destruct t as [|c t]; [discriminate E|]. change (removelast (a :: b :: c :: t)) with (a :: b :: removelast (c :: t)). cbn [bytes_of_digits]. f_equal. exact IH.
Qed.
Lemma digits_filtered s : Forall (fun c => is_hex_digitb c = true) (filter is_hex_digitb s).
Proof. apply Forall_forall. intros c H. now apply filter_In in H. Qed.
Lemma hex_bytes_whole s : hex_bytes s = bytes_of_digits (whole_digits s).
Proof. unfold whole_digits. rewrite bytes_whole, bytes_upper by apply digits_filtered. reflexivity. Qed.

Definition upper_digit (c : N) : Prop := 48 <= c <= 57 \/ 65 <= c <= 70.
Lemma upper_upper c : is_hex_digitb c = true -> upper_digit (upper_hex c).
Proof. unfold is_hex_digitb, upper_digit, upper_hex. destruct ((97 <=? c) && (c <=? 102)) eqn:E; lia. Qed.
Lemma upper_value c : upper_digit c -> 48 <= c <= 57 /\ hex_value c = c - 48 \/ 65 <= c <= 70 /\ hex_value c = c - 55.
Proof.
  unfold upper_digit. intros [H|H].
  - assert (K : In c [48;49;50;51;52;53;54;55;56;57]) by (cbn; lia). cbn in K. left. split; [assumption|]. repeat (destruct K as [<-|K]; [reflexivity|]). destruct K.
  - assert (K : In c [65;66;67;68;69;70]) by (cbn; lia). cbn in K. right. split; [assumption|]. repeat (destruct K as [<-|K]; [reflexivity|]). destruct K.
Qed.
Lemma upper_inj a b a' b' : upper_digit a -> upper_digit b -> upper_digit a' -> upper_digit b' ->
  16 * hex_value a + hex_value b = 16 * hex_value a' + hex_value b' -> a = a' /\ b = b'.
Proof.
  intros Ha Hb Ha' Hb' E. pose proof (upper_value a Ha). pose proof (upper_value b Hb). pose proof (upper_value a' Ha'). pose proof (upper_value b' Hb').
  assert (hex_value a < 16) by lia. assert (hex_value b < 16) by lia. assert (hex_value a' < 16) by lia. assert (hex_value b' < 16) by lia.
  assert (Ea : hex_value a = hex_value a') by lia. assert (Eb : hex_value b = hex_value b') by lia. split; lia.
Qed.
Lemma bytes_inj d d' : Nat.even (List.length d) = true -> Nat.even (List.length d') = true -> Forall upper_digit d -> Forall upper_digit d' ->
  bytes_of_digits d = bytes_of_digits d' -> d = d'.
Proof.
  revert d d'. fix IH 1. intros [|a [|b t]] [|a' [|b' t']] E E' F F' H; try discriminate; try reflexivity.
  inversion F as [|? ? Fa G]; subst. inversion G as [|? ? Fb G1]; subst. inversion F' as [|? ? Fa' G']; subst. inversion G' as [|? ? Fb' G1']; subst.
  cbn [bytes_of_digits] in H. injection H as H1 H2. destruct (upper_inj a b a' b') as [-> ->]; try assumption. now rewrite (IH t t').
Qed.
Lemma whole_even s : Nat.even (List.length (whole_digits s)) = true /\ Forall upper_digit (whole_digits s).
Proof.
  unfold whole_digits. set (ds := map upper_hex (filter is_hex_digitb s)).
  assert (F : Forall upper_digit ds).
  { apply Forall_forall. intros c I. apply in_map_iff in I. destruct I as (x & <- & I). apply filter_In in I. now apply upper_upper. }
  destruct (Nat.even (List.length ds)) eqn:E; [auto|]. destruct (exists_last (l := ds)) as (l & x & El); [intros ->; discriminate E|].
  rewrite El in *. rewrite removelast_last. apply Forall_app in F. destruct F as [F _]. split; [|assumption].
  rewrite app_length, Nat.add_1_r, Nat.even_succ in E. now rewrite <- Nat.negb_odd, E.
Qed.
(* The bytes are the same exactly if the digits are, up to case and an unpaired last one. *)
Theorem C75_bytes : forall s s', parse_hex_str s = parse_hex_str s' <-> whole_digits s = whole_digits s'.
Proof.
  intros s s'. rewrite !parse_hex_str_spec. fold (hex_bytes s) (hex_bytes s'). rewrite !hex_bytes_whole. split; [|now intros ->].
  destruct (whole_even s), (whole_even s'). now apply bytes_inj.
Qed.

(* Two results of clap that differ in the text of one operation only. *)
Definition differ (op : operation) (s s' : str) (m m' : matches) : Prop :=
  given m op = Some s /\ given m' op = Some s' /\ (forall o, o <> op -> given m o = given m' o)
  /\ m_colour m = m_colour m' /\ m_masking m = m_masking m' /\ m_sort m = m_sort m' /\ m_no_sort m = m_no_sort m'.
Lemma settings_differ op s s' e m m' : differ op s s' m m' -> load_settings e m = load_settings e m'.
Proof.
  intros (_ & _ & _ & Ec & Em & Es & En). unfold load_settings, apply_cli_arguments, apply_colour, apply_masking, apply_sort, cli_sort_preference. rewrite Ec, Em, Es, En. reflexivity.
Qed.
Lemma denotes_det s v w : denotes_number s v -> denotes_number s w -> v = w.
Proof.
  set (f := fun c => (48 <=? c) && (c <=? 57)).
  assert (K : forall v, denotes_number s v -> v = dec_value (filter f s)).
  { clear v w. intros v (ws & sg & ds & ws' & -> & W & W' & Sg & _ & D & ->). f_equal.
    assert (No : forall l, Forall is_white_space l -> filter f l = []).
    { intros l. induction 1 as [|c l Hc F IH]; [reflexivity|]. cbn [filter]. rewrite IH. unfold is_white_space in Hc. cbn in Hc.
      repeat (destruct Hc as [<-|Hc]; [reflexivity|]). destruct Hc. }
    assert (All : filter f ds = ds).
    { clear - D. induction D as [|c l Hc F IH]; [reflexivity|]. cbn [filter]. rewrite IH. unfold is_dec_digit in Hc. unfold f at 1.
      replace ((48 <=? c) && (c <=? 57)) with true by lia. reflexivity. }
    rewrite !filter_app, (No ws W), (No ws' W'), All, app_nil_r. destruct Sg as [-> | ->]; reflexivity. }
  intros H H'. rewrite (K v H), (K w H'). reflexivity.
Qed.
Lemma u16_same s s' n : denotes_number s n -> denotes_number s' n -> parse_str_to_u16 s = parse_str_to_u16 s'.
Proof.
  assert (K : forall s s', denotes_number s n -> denotes_number s' n -> n < 65536 -> parse_str_to_u16 s = parse_str_to_u16 s').
  { clear s s'. intros s s' H H' L. now rewrite (proj2 (parse_str_to_u16_spec s n) (conj H L)), (proj2 (parse_str_to_u16_spec s' n) (conj H' L)). }
  intros H H'. destruct (N.lt_ge_cases n 65536) as [L|L]; [now apply K|].
  assert (E : forall s, denotes_number s n -> parse_str_to_u16 s = Err InvalidNumber).
  { clear - L. intros s H. apply C06_parse_u16_error. intros (v & Hv & Lv). rewrite (denotes_det s v n Hv H) in Lv. lia. }
  now rewrite (E s H), (E s' H').
Qed.
Lemma main_differ op s s' p e m m' : same_reading op s s' -> differ op s s' m m' -> run_main p e m = run_main p e m'.
Proof.
  intros R D. pose proof (settings_differ op s s' e m m' D) as L. unfold run_main. rewrite <- L. clear L. destruct (load_settings e m) as [st| | |]; try reflexivity.
  destruct D as (G & G' & O & _).
  assert (N : forall o, given m o = given m' o \/ o = op).
  { intros o. assert (Dec : {o = op} + {o <> op}) by decide equality. destruct Dec; auto. }
  destruct R as [[H W]|[-> (n & Hn & Hn')]].
  - apply C75_bytes in W. cbn in H.
    repeat (destruct H as [<-|H]; [
      pose proof (O OpTvr) as O1; pose proof (O OpIad) as O2; pose proof (O OpCvr) as O3; pose proof (O OpTsi) as O4; pose proof (O OpCvmResults) as O5;
      pose proof (O OpCvmList) as O6; pose proof (O OpIdentify) as O7; pose proof (O OpAuto) as O8; pose proof (O OpBer) as O9;
      cbn [given] in *;
      repeat match goal with O : ?a <> ?a -> _ |- _ => clear O end;
      repeat match goal with O : ?a <> ?b -> ?x = ?y |- _ => rewrite (O ltac:(discriminate)); clear O end;
      rewrite G, G', W; reflexivity|]). destruct H.
  - pose proof (u16_same s s' n Hn Hn') as W.
    pose proof (O OpTvr) as O1; pose proof (O OpIad) as O2; pose proof (O OpCvr) as O3; pose proof (O OpTsi) as O4; pose proof (O OpCvmResults) as O5;
    pose proof (O OpCvmList) as O6; pose proof (O OpIdentify) as O7; pose proof (O OpAuto) as O8; pose proof (O OpBer) as O9; pose proof (O OpIngenico) as O10.
    cbn [given] in *. repeat match goal with O : ?a <> ?b -> ?x = ?y |- _ => rewrite (O ltac:(discriminate)); clear O end.
    rewrite G, G', W. reflexivity.
Qed.

(* The explicitly given values differ in one operation only. *)
Definition given_differ (op : operation) (s s' : str) (g g' : given_args) : Prop :=
  given_values g (id_of (OptOperation op)) = Some [s] /\ given_values g' (id_of (OptOperation op)) = Some [s']
  /\ forall n, n <> OptOperation op -> given_values g (id_of n) = given_values g' (id_of n).
Lemma differ_is_given op s s' g g' n : given_differ op s s' g g' -> is_given g (id_of n) = is_given g' (id_of n).
Proof.
  intros (A & B & C). unfold is_given. destruct (name_dec n (OptOperation op)) as [->|N]; [now rewrite A, B|now rewrite (C n N)].
Qed.
Lemma steps_differ op s s' l : forall g g', given_differ op s s' g g' ->
  match cli_steps g l, cli_steps g' l with CliOk h, CliOk h' => given_differ op s s' h h' | CliOk _, _ | _, CliOk _ => False | r, r' => r = r' end.
Proof.
  induction l as [|[sp vs] l IH]; intros g g' D; [exact D|]. cbn [cli_steps].
  assert (K : match cli_step g (sp, vs), cli_step g' (sp, vs) with CliOk h, CliOk h' => given_differ op s s' h h' | CliOk _, _ | _, CliOk _ => False | r, r' => r = r' end).
  { destruct (spells_some_dec sp) as [[n S]|U]; [|rewrite !step_unknown by assumption; reflexivity].
    rewrite !(step_known _ n sp vs S). destruct (fine n vs); [|reflexivity].
    assert (New : forall v, n <> OptOperation op -> given_differ op s s' ((id_of n, v) :: g) ((id_of n, v) :: g')).
    { intros v N. destruct D as (A & B & C). unfold given_differ. rewrite !given_cons.
      destruct (name_dec n (OptOperation op)) as [E|_]; [contradiction|]. split; [assumption|]. split; [assumption|]. intros k K. rewrite !given_cons. destruct (name_dec n k); [reflexivity|now apply C]. }
    assert (Set1 : match (if is_given g (id_of n) then CliError else CliOk ((id_of n, stored n vs) :: g)), (if is_given g' (id_of n) then CliError else CliOk ((id_of n, stored n vs) :: g'))
                   with CliOk h, CliOk h' => given_differ op s s' h h' | CliOk _, _ | _, CliOk _ => False | r, r' => r = r' end).
    { rewrite <- (differ_is_given op s s' g g' n D). destruct (name_dec n (OptOperation op)) as [->|N].
      - unfold is_given. destruct D as (A & _). now rewrite A.
      - destruct (is_given g (id_of n)); [reflexivity|now apply New]. }
    destruct n; try exact Set1; try reflexivity. rewrite (proj2 (proj2 D) OptMasking) by discriminate. apply New. discriminate. }
  destruct (cli_step g (sp, vs)) as [h| | | |], (cli_step g' (sp, vs)) as [h'| | | |]; try contradiction; try discriminate K; try reflexivity. now apply IH.
Qed.
Lemma valid_differ op s s' g g' : given_differ op s s' g g' -> cli_valid g = cli_valid g'.
Proof.
  intros D. unfold cli_valid.
  replace (filter (fun a => is_given g' (a_id a)) cli_args) with (filter (fun a => is_given g (a_id a)) cli_args); [reflexivity|].
  apply filter_ext_in. intros a I. apply in_args in I. destruct I as (n & ->). rewrite arg_id. now apply (differ_is_given op s s').
Qed.
Lemma matches_differ op s s' g g' : given_differ op s s' g g' -> differ op s s' (cli_matches g) (cli_matches g').
Proof.
  intros (A & B & C).
  assert (L : forall n, n <> OptOperation op -> lookup g (id_of n) = lookup g' (id_of n)) by (intros n N; unfold lookup; now rewrite (C n N)).
  assert (T : forall o h, given (cli_matches h) o = get_text h (id_of (OptOperation o))) by (intros [] h; reflexivity).
  unfold differ. rewrite !T. unfold get_text at 1 2, lookup. rewrite A, B. split; [reflexivity|]. split; [reflexivity|].
  split; [intros o N; rewrite !T; unfold get_text; rewrite (L (OptOperation o)); [reflexivity|congruence]|].
  cbn [cli_matches m_colour m_masking m_sort m_no_sort]. unfold get_sourced, get_bool, get_chars.
  pose proof (L OptColour ltac:(discriminate)) as L1. pose proof (L OptMasking ltac:(discriminate)) as L2.
  pose proof (L OptSort ltac:(discriminate)) as L3. pose proof (L OptNoSort ltac:(discriminate)) as L4. cbn [id_of] in L1, L2, L3, L4.
  rewrite L1, L2, L3, L4. auto.
Qed.
(* Texts that read the same give the same run, whatever else is on the command line. *)
Theorem C75_same_run : forall p e before sp op s s' after, spells (OptOperation op) sp -> s <> [] -> s' <> [] -> same_reading op s s' ->
  run_program p e (before ++ (sp, [s]) :: after) = run_program p e (before ++ (sp, [s']) :: after).
Proof.
  intros p e before sp op s s' after S N N' R. unfold run_program, cli_parse. rewrite !steps_app.
  destruct (cli_steps [] before) as [g| | | |]; try reflexivity. cbn [cli_steps]. rewrite !(step_known _ (OptOperation op) sp _ S).
  assert (F : forall t, t <> [] -> fine (OptOperation op) [t] = true) by (intros t Ht; apply fine_takes; exists t; auto).
  rewrite (F s N), (F s' N'). destruct (is_given g (id_of (OptOperation op))); [reflexivity|].
  assert (D : given_differ op s s' ((id_of (OptOperation op), stored (OptOperation op) [s]) :: g) ((id_of (OptOperation op), stored (OptOperation op) [s']) :: g)).
  { unfold given_differ. rewrite !given_cons. destruct (name_dec (OptOperation op) (OptOperation op)) as [_|X]; [|congruence].
    split; [reflexivity|]. split; [reflexivity|]. intros n K. rewrite !given_cons. destruct (name_dec (OptOperation op) n); [congruence|reflexivity]. }
  pose proof (steps_differ op s s' after _ _ D) as K.
  destruct (cli_steps (_ :: g) after) as [h| | | |], (cli_steps ((_, stored _ [s']) :: g) after) as [h'| | | |]; try contradiction; try discriminate K; try reflexivity.
  destruct h as [|x h]; [destruct K as [K _]; discriminate K|]. destruct h' as [|x' h']; [destruct K as (_ & K & _); discriminate K|].
  rewrite (valid_differ op s s' _ _ K). destruct (cli_valid (x' :: h')); [|reflexivity]. f_equal. now apply (main_differ op s s'), matches_differ.
Qed.
(* A "0x" in front is not ignored: its 0 is the first digit. *)
Theorem C75_prefix_refuted : exists s ls ls', sheet [] true OpTsi s ls /\ sheet [] true OpTsi (lit "0x" ++ s) ls' /\ render ls <> render ls'.
Proof.
  exists (lit "F800"). do 2 eexists. split; [eapply sheet_value; [cbn; tauto|reflexivity]|]. split; [eapply sheet_value; [cbn; tauto|reflexivity]|].
  vm_compute. discriminate.
Qed.
(* Nor are letters of words around the value that happen to be hex digits. *)
Theorem C75_words_refuted : exists s ls e, sheet [] true OpTsi s ls /\ refused [] OpTsi (lit "decoded: " ++ s) e.
Proof.
  exists (lit "F800"). do 2 eexists. split; [eapply sheet_value; [cbn; tauto|reflexivity]|]. apply refused_tsi. eapply rejected_length; [cbn; tauto|discriminate].
Qed.
Example C75_example : same_reading OpTsi (lit "F8 00") (lit "f8-000") /\ same_reading OpServiceCode (lit " 201") (lit "+0201")
  /\ whole_digits (lit "f8-000") = lit "F800" /\ spells (OptOperation OpTsi) (Long "9B").
Proof.
  split; [left; split; [cbn; tauto|reflexivity]|]. split; [right; split; [reflexivity|]|split; [reflexivity|apply spells_spelt; reflexivity]].
  exists 201. split; apply (proj1 (parse_str_to_u16_spec _ 201)); reflexivity.
Qed.

(** C76: automatic detection. *)

(* What is shown is the format found and what the operation for that format shows. *)
Theorem C76_shown : forall masks sort s ls, sheet masks sort OpAuto s ls <->
  s <> [] /\ exists ls',
    ((exists ns, ingenico_block masks s ns) /\ sheet masks sort OpIngenico s ls' /\ ls = format_lines (Some Ingenico) ++ ls'
     \/ (forall ns, ~ ingenico_block masks s ns) /\ sheet masks sort OpBer s ls' /\ ls = format_lines (Some BerTlv) ++ ls').
Proof.
  intros masks sort s ls. split.
  - intros H. inversion H as [f q X|n X|f ns ns0 B O S]; subst; [cbn in X; repeat (destruct X as [X|X]; [discriminate X|]); destruct X|discriminate X|].
    inversion B as [| |? ? Ne I|? ? Ne I Be]; subst; (split; [assumption|]); exists (forest_lines ns0 0 true).
    + left. split; [eauto|]. split; [|reflexivity]. apply (sheet_block masks sort OpIngenico s None ns ns0); [now constructor|assumption|assumption].
    + right. split; [assumption|]. split; [|reflexivity]. apply (sheet_block masks sort OpBer s None ns ns0); [now constructor|assumption|assumption].
  - intros (Ne & ls' & [((ns & I) & H & ->)|(I & H & ->)]);
      (inversion H as [f q X|n X|f ns1 ns0 B O S]; subst; [cbn in X; repeat (destruct X as [X|X]; [discriminate X|]); destruct X|discriminate X|]);
      inversion B as [? ? Be|? ? I'| |]; subst; cbn [format_lines app].
    + apply (sheet_block masks sort OpAuto s (Some Ingenico) ns1 ns0); [now constructor|assumption|assumption].
    + apply (sheet_block masks sort OpAuto s (Some BerTlv) ns1 ns0); [now constructor|assumption|assumption].
Qed.
(* It is refused if no format fits, or for what the operation for the format found refuses. *)
Theorem C76_refused : forall p masks s e, text64 p s -> (refused masks OpAuto s e <->
  (s = [] \/ (forall ns, ~ ingenico_block masks s ns) /\ (forall ns, ~ ber_block masks s ns)) /\ e = Unrecognised
  \/ s <> [] /\ (exists ns, ingenico_block masks s ns) /\ refused masks OpIngenico s e
  \/ s <> [] /\ (forall ns, ~ ingenico_block masks s ns) /\ (exists ns, ber_block masks s ns) /\ refused masks OpBer s e).
Proof.
  intros p masks s e T.
  assert (One : forall e, refused masks OpAuto s e ->
    (s = [] \/ (forall ns, ~ ingenico_block masks s ns) /\ (forall ns, ~ ber_block masks s ns)) /\ e = Unrecognised
    \/ s <> [] /\ (exists ns, ingenico_block masks s ns) /\ refused masks OpIngenico s e
    \/ s <> [] /\ (forall ns, ~ ingenico_block masks s ns) /\ (exists ns, ber_block masks s ns) /\ refused masks OpBer s e).
  { clear e. intros e H. inversion H as [| | | | | | | | | | | |? X|? ? f ns before t after ? B E F Tf]; subst; [left; auto|right].
    inversion B as [| |? ? Ne I|? ? Ne I Be]; subst; [left|right]; (split; [assumption|]).
    + split; [eauto|]. apply (refused_tag masks OpIngenico s None ns before t after e); try assumption. now constructor.
    + split; [assumption|]. split; [eauto|]. apply (refused_tag masks OpBer s None ns before t after e); try assumption. now constructor. }
  assert (Two : forall op e e', refused masks op s e -> refused masks op s e' -> e = e').
  { clear e. intros op e e' H H'. destruct (C73_total p masks true op s T) as [(ls & _ & _ & N)|(x & _ & U & _)]; [now apply N in H|]. now rewrite (U e H), (U e' H'). }
  assert (No : forall op e ls, refused masks op s e -> sheet masks true op s ls -> False).
  { clear e. intros op e ls H H'. destruct (C73_total p masks true op s T) as [(ls' & _ & _ & N)|(x & _ & _ & N)]; [now apply N in H|now apply N in H']. }
  split; [apply One|]. intros [[H ->]|H]; [now apply refused_auto|].
  destruct (C73_total p masks true OpAuto s T) as [(ls & S & _)|(e' & R & _)].
  - exfalso. apply C76_shown in S. destruct S as (_ & ls' & [(I & S & _)|(I & S & _)]), H as [(_ & (ns & I') & H)|(_ & I' & _ & H)].
    + exact (No _ _ _ H S).
    + destruct I as [ns I]. now apply I' in I.
    + now apply I in I'.
    + exact (No _ _ _ H S).
  - destruct (One e' R) as [[X _]|[(_ & I & R')|(_ & I & Be & R')]].
    + exfalso. destruct X as [->|[X1 X2]]; [destruct H as [[H _]|[H _]]; now apply H|]. destruct H as [(_ & (ns & I) & _)|(_ & _ & (ns & I) & _)]; [now apply X1 in I|now apply X2 in I].
    + destruct H as [(_ & _ & H)|(_ & I' & _)]; [now rewrite (Two _ _ _ H R')|]. destruct I as [ns I]. now apply I' in I.
    + destruct H as [(_ & (ns & I') & _)|(_ & _ & _ & H)]; [now apply I in I'|now rewrite (Two _ _ _ H R')].
Qed.
Example C76_example : exists ls ls' ls'', sheet [] false OpAuto (lit "5A0112") (format_lines (Some BerTlv) ++ ls)
  /\ sheet [] false OpAuto (lit "T5A:01:h12") (format_lines (Some Ingenico) ++ ls')
  /\ refused [] OpAuto (lit "T9B:01:h00") ls''.
Proof.
  assert (T1 : text64 p64 (lit "5A0112")) by (split; reflexivity). assert (T2 : text64 p64 (lit "T5A:01:h12")) by (split; reflexivity).
  assert (T3 : text64 p64 (lit "T9B:01:h00")) by (split; reflexivity).
  destruct (tlv_settles p64 [] OpAuto _ _ T1 eq_refl) as (B1 & _). destruct (tlv_settles p64 [] OpAuto _ _ T2 eq_refl) as (B2 & _).
  destruct (tlv_settles p64 [] OpAuto _ _ T3 eq_refl) as (B3 & _).
  assert (F : forall c ty d e, ~ tag_fails (mkRawTag [0x5A] c ty d) e).
  { intros c ty d e (v & _ & R). cbn in R. inversion R as [t' n d' In0 L| | | | | | |]; subst. cbn in In0. intuition discriminate. }
  do 3 eexists. split; [eapply sheet_block; [apply B1; vm_compute; reflexivity|constructor; [apply F|constructor]|reflexivity]|].
  split; [eapply sheet_block; [apply B2; vm_compute; reflexivity|constructor; [apply F|constructor]|reflexivity]|].
  eapply (refused_tag [] OpAuto _ _ _ [] _ []); [apply B3; vm_compute; reflexivity|reflexivity|intros x e' []|].
  eexists. split; [reflexivity|]. eapply rejected_length; [cbn; tauto|discriminate].
Qed.
