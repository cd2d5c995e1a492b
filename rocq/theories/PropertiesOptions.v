(** The properties of values given to an option they are not meant for. *)

From Coq Require Import ZArith NArith String List Bool Lia ZifyN ZifyBool ZifyNat Permutation Sorting.
From Verif Require Import Base ModelUtil ModelEnums ModelBitflag ModelSchemas ModelTags ModelTlv ModelValues ModelProcess ModelDisplay
  SpecUtil SpecCodes SpecValues SpecTlv SpecIngenico SpecTags SpecProcess SpecDisplay
  ProofsUtil ProofsGrammar ProofsBer ProofsIngenico ProofsValues PropertiesValues
  PropertiesBer PropertiesIngenico ProofsProcess PropertiesProcess ProofsDisplay ProofsDiagram ProofsScreens ProofsLayout PropertiesDisplay
  SpecPictures ProofsPictures ModelMain SpecMain ProofsMain PropertiesMain ModelCli SpecCli ProofsCli PropertiesCli PropertiesPictures
  SpecReading PropertiesReading SpecSame PropertiesSame SpecOptions.
Import ListNotations.
Local Open Scope N_scope.

Lemma digits_bytes s : len (hex_bytes s) = digits s / 2.
Proof.
  unfold hex_bytes, digits. generalize (filter is_hex_digitb s). intros l. unfold len. rewrite bytes_of_digits_length.
  now rewrite Nat2N.inj_div2, N.div2_div.
Qed.
Lemma value_sheet masks sort op s ls : takes_value op \/ op = OpIdentify -> sheet masks sort op s ls ->
  exists f q, In (op, f) byte_operations /\ f (hex_bytes s) = Some q /\ ls = q 0 true.
Proof.
  intros V S. inversion S as [f q I E|n O D N|f ns m B N A]; subst.
  - eauto.
  - exfalso. destruct V as [V|V]; [|discriminate V]. unfold takes_value in V. cbn [In] in V. repeat (destruct V as [V|V]; [discriminate V|]). destruct V.
  - exfalso. destruct V as [V|V]; [|subst op; inversion B]. unfold takes_value in V. cbn [In] in V. inversion B; subst; repeat (destruct V as [V|V]; [discriminate V|]); destruct V.
Qed.
Lemma size_value op n : In (op, n) sizes -> takes_value op.
Proof. unfold sizes, takes_value. cbn [In]. intros I. repeat (destruct I as [I|I]; [injection I as <- <-; auto 10|]). destruct I. Qed.
Lemma sized masks sort op n s ls : In (op, n) sizes -> sheet masks sort op s ls -> len (hex_bytes s) = n.
Proof.
  intros I S. destruct (value_sheet masks sort op s ls (or_introl (size_value op n I)) S) as (f & q & J & E & _).
  unfold sizes in I. cbn [In] in I. unfold byte_operations in J. cbn [In] in J.
  repeat (destruct I as [I|I]; [injection I as <- <-; repeat (destruct J as [J|J]; [try discriminate J; injection J as <-|]); try contradiction|]); try contradiction.
  - unfold bits_picture in E. destruct (N.eqb_spec (len (hex_bytes s)) 5); [assumption|discriminate E].
  - unfold iad_picture in E. cbn zeta in E. destruct (N.eqb_spec (len (hex_bytes s)) 32); [assumption|discriminate E].
  - unfold bits_picture in E. destruct (N.eqb_spec (len (hex_bytes s)) 5); [assumption|discriminate E].
  - unfold bits_picture in E. destruct (N.eqb_spec (len (hex_bytes s)) 2); [assumption|discriminate E].
  - unfold cvm_results_picture in E. destruct (hex_bytes s) as [|a [|b [|c [|d r]]]]; try discriminate E. reflexivity.
Qed.
Lemma misfit masks op n s : In (op, n) sizes -> len (hex_bytes s) <> n -> refused masks op s (wrong_size op n (len (hex_bytes s))).
Proof.
  intros I N. unfold sizes in I. cbn [In] in I.
  repeat (destruct I as [I|I]; [injection I as <- <-; cbn [wrong_size]|]); [..|destruct I].
  - constructor. apply rejected_length; [unfold fixed_lengths; cbn [In]; auto 20|exact N].
  - constructor. intros (cci & dki & cvr & cnt & rest & (E & L1 & L2 & L3) & _). apply N. rewrite E. unfold len. cbn [List.length].
    rewrite !app_length. cbn [List.length]. lia.
  - now constructor.
  - constructor. apply rejected_length; [unfold fixed_lengths; cbn [In]; auto 20|exact N].
  - constructor. apply rejected_length; [unfold fixed_lengths; cbn [In]; auto 20|exact N].
Qed.

Theorem C111_size : forall masks sort op n s ls, In (op, n) sizes -> sheet masks sort op s ls -> digits s = 2 * n \/ digits s = 2 * n + 1.
Proof. intros masks sort op n s ls I S. pose proof (sized _ _ _ _ _ _ I S) as E. rewrite digits_bytes in E. lia. Qed.
Theorem C111_extra : forall masks sort op n s w ls, In (op, n) sizes -> sheet masks sort op s ls -> digits s + 2 <= digits w ->
  refused masks op w (wrong_size op n (digits w / 2)).
Proof.
  intros masks sort op n s w ls I S D. pose proof (sized _ _ _ _ _ _ I S) as E. rewrite digits_bytes in E. rewrite <- digits_bytes.
  apply misfit; [exact I|]. rewrite digits_bytes. lia.
Qed.
Theorem C111_whole : forall masks sort op n s ls t l w, In (op, n) sizes -> sheet masks sort op s ls -> object_text t l (hex_bytes s) w ->
  refused masks op w (wrong_size op n (len t + len l + n)).
Proof.
  intros masks sort op n s ls t l w I S (T & L & E). pose proof (sized _ _ _ _ _ _ I S) as Z.
  replace (len t + len l + n) with (len (hex_bytes w)) by (rewrite E, !len_app; lia). apply misfit; [exact I|]. rewrite E, !len_app, Z.
  assert (len t <> 0) by (destruct t; [now apply ber_tag_ne in T|rewrite len_cons; lia]). lia.
Qed.
Theorem C111_told_apart : forall masks sort op op' s ls ls', takes_value op -> takes_value op' ->
  sheet masks sort op s ls -> sheet masks sort op' s ls' -> alike op op'.
Proof.
  assert (X : forall masks sort op s ls, takes_value op -> sheet masks sort op s ls -> In (op, len (hex_bytes s)) sizes \/ op = OpCvmList /\ 8 <= len (hex_bytes s)).
  { intros masks sort op s ls V S. destruct (value_sheet masks sort op s ls (or_introl V) S) as (f & q & J & E & _).
    assert (Z : forall n, In (op, n) sizes -> In (op, len (hex_bytes s)) sizes) by (intros n I; now rewrite (sized _ _ _ _ _ _ I S)).
    destruct op; try (left; first [apply (Z 5); unfold sizes; cbn [In]; now auto 10|apply (Z 32); unfold sizes; cbn [In]; now auto 10|apply (Z 2); unfold sizes; cbn [In]; now auto 10|apply (Z 3); unfold sizes; cbn [In]; now auto 10]);
      try (exfalso; unfold takes_value in V; cbn [In] in V; repeat (destruct V as [V|V]; [discriminate V|]); contradiction).
    right. split; [reflexivity|]. unfold byte_operations in J. cbn [In] in J. repeat (destruct J as [J|J]; [try discriminate J; injection J as <-|]); [|destruct J].
    unfold cvm_list_picture in E. destruct (N.leb_spec 8 (len (hex_bytes s))); [assumption|discriminate E]. }
  intros masks sort op op' s ls ls' V V' S S'. apply X in S; [|exact V]. apply X in S'; [|exact V']. unfold alike. generalize dependent (len (hex_bytes s)). clear. intros k A B.
  assert (Y : forall o, In (o, k) sizes -> (o = OpTvr /\ k = 5) \/ (o = OpIad /\ k = 32) \/ (o = OpCvr /\ k = 5) \/ (o = OpTsi /\ k = 2) \/ (o = OpCvmResults /\ k = 3)).
  { intros o I. unfold sizes in I. cbn [In] in I. repeat (destruct I as [I|I]; [injection I as <- <-; auto 10|]). destruct I. }
  destruct A as [A|[-> A]], B as [B|[-> B]]; [| | |auto].
  - apply Y in A, B. destruct A as [[-> A]|[[-> A]|[[-> A]|[[-> A]|[-> A]]]]], B as [[-> B]|[[-> B]|[[-> B]|[[-> B]|[-> B]]]]]; subst k; try discriminate B; auto 10.
  - apply Y in A. destruct A as [[-> A]|[[-> A]|[[-> A]|[[-> A]|[-> A]]]]]; subst k; try (exfalso; lia); auto 10.
  - apply Y in B. destruct B as [[-> B]|[[-> B]|[[-> B]|[[-> B]|[-> B]]]]]; subst k; try (exfalso; lia); auto 10.
Qed.

(** ** CVM lists *)

Lemma rules_length : forall d i k, len d mod 2 = 0 -> len (rules_picture i k d) = 2 * len d.
Proof.
  fix IH 1. intros [|a [|b d]] i k E; [reflexivity|discriminate E|]. cbn [rules_picture]. rewrite !len_cons in *. rewrite IH; lia.
Qed.
Lemma list_sheet masks sort s ls : sheet masks sort OpCvmList s ls ->
  8 <= len (hex_bytes s) /\ len (hex_bytes s) mod 2 = 0 /\ exists q, cvm_list_picture (hex_bytes s) = Some q /\ ls = q 0 true.
Proof.
  intros S. assert (V : takes_value OpCvmList) by (unfold takes_value; cbn [In]; auto 10).
  destruct (value_sheet masks sort _ s ls (or_introl V) S) as (f & q & J & E & ->).
  unfold byte_operations in J. cbn [In] in J. repeat (destruct J as [J|J]; [try discriminate J; injection J as <-|]); [|destruct J].
  pose proof E as E'. unfold cvm_list_picture in E'. destruct (N.leb_spec 8 (len (hex_bytes s))); [|discriminate E'].
  destruct (N.eqb_spec (len (hex_bytes s) mod 2) 0); [|discriminate E']. eauto.
Qed.
Lemma list_length d q : cvm_list_picture d = Some q ->
  len (q 0 true) = (if (be_value (firstn 4 d) =? 0) && (be_value (firstn 4 (skipn 4 d)) =? 0) && negb (mentions_amount (skipn 8 d)) then 0 else 2) + 1 + 2 * (len d - 8).
Proof.
  unfold cvm_list_picture. destruct (N.leb_spec 8 (len d)) as [A|A]; [|discriminate]. destruct (N.eqb_spec (len d mod 2) 0) as [B|B]; [|discriminate].
  assert (R : len (skipn 8 d) = len d - 8) by (unfold len in *; rewrite skipn_length; lia).
  cbn [andb]. cbv zeta. generalize (be_value (firstn 4 d)), (be_value (firstn 4 (skipn 4 d))). generalize dependent (skipn 8 d). intros r R x y H. injection H as <-.
  rewrite len_app, len_cons, rules_length by lia. rewrite R. destruct (_ && _ && _); [change (len (@nil line)) with 0; lia|]. change (len (amounts_picture x y 0)) with 2. lia.
Qed.
Theorem C111_list : forall masks sort s ls t l w, sheet masks sort OpCvmList s ls -> object_text t l (hex_bytes s) w ->
  if N.even (len t + len l) then exists lw, sheet masks sort OpCvmList w lw /\ len ls + 2 <= len lw
  else refused masks OpCvmList w ByteCountNotDivisibleIntoComponents.
Proof.
  intros masks sort s ls t l w S (T & L & E). destruct (list_sheet _ _ _ _ S) as (A & B & q & Q & ->).
  assert (Lt : len t <> 0) by (destruct t; [now apply ber_tag_ne in T|rewrite len_cons; lia]).
  assert (Ll : len l <> 0) by (destruct l; [now apply ber_len_ne in L|rewrite len_cons; lia]).
  assert (Lw : len (hex_bytes w) = len t + len l + len (hex_bytes s)) by (rewrite E, !len_app; lia).
  destruct (N.even (len t + len l)) eqn:Ev.
  - apply N.even_spec in Ev. destruct Ev as [k Ev]. assert (M : len (hex_bytes w) mod 2 = 0) by (rewrite Lw; lia).
    assert (exists q', cvm_list_picture (hex_bytes w) = Some q') as [q' Q'].
    { unfold cvm_list_picture. rewrite M. replace (8 <=? len (hex_bytes w)) with true by lia. cbn [andb N.eqb]. eauto. }
    exists (q' 0 true). split; [apply (sheet_value _ _ OpCvmList w cvm_list_picture); [unfold byte_operations; cbn [In]; auto 10|exact Q']|].
    rewrite (list_length _ _ Q), (list_length _ _ Q'). destruct (_ && _ && _), (_ && _ && _); lia.
  - constructor. apply rejected_8E_odd; [lia|]. rewrite Lw. assert (N.odd (len t + len l) = true) as O by (now rewrite <- N.negb_even, Ev).
    apply N.odd_spec in O. destruct O as [k O]. lia.
Qed.
(* The object 8E of a card: up to 127 bytes are misread, 128 to 255 refused. *)
Theorem C111_list_8E : forall masks sort s ls w, sheet masks sort OpCvmList s ls -> len (hex_bytes s) < 128 ->
  hex_bytes w = 0x8E :: len (hex_bytes s) :: hex_bytes s ->
  exists y rules, sheet masks sort OpCvmList w (amounts_picture (be_value [0x8E; len (hex_bytes s); nth 0 (hex_bytes s) 0; nth 1 (hex_bytes s) 0]) y 0 ++ heading_row 0 (lit "Cardholder Verification Rules:") :: rules_picture 0 1 rules)
  /\ y = be_value (firstn 4 (skipn 2 (hex_bytes s))) /\ rules = skipn 6 (hex_bytes s).
Proof.
  intros masks sort s ls w S N E. destruct (list_sheet _ _ _ _ S) as (A & B & _). exists (be_value (firstn 4 (skipn 2 (hex_bytes s)))), (skipn 6 (hex_bytes s)).
  split; [|split; reflexivity]. remember (hex_bytes s) as d eqn:D. destruct d as [|a [|b d]]; [change (8 <= 0) in A; lia|change (8 <= 1) in A; lia|].
  set (x := be_value [0x8E; len (a :: b :: d); nth 0 (a :: b :: d) 0; nth 1 (a :: b :: d) 0]).
  assert (Z : x =? 0 = false) by (subst x; unfold be_value; cbn [fold_left]; lia).
  assert (Q : cvm_list_picture (hex_bytes w) = Some (fun i _ => amounts_picture x (be_value (firstn 4 (skipn 2 (a :: b :: d)))) i ++ heading_row i (lit "Cardholder Verification Rules:") :: rules_picture i 1 (skipn 6 (a :: b :: d)))).
  { assert (C : (8 <=? len (hex_bytes w)) && (len (hex_bytes w) mod 2 =? 0) = true) by (rewrite E, !len_cons in *; lia).
    unfold cvm_list_picture. rewrite C, E. cbv zeta. cbn [firstn skipn]. change (be_value [142; len (a :: b :: d); a; b]) with x. rewrite Z. reflexivity. }
  change (sheet masks sort OpCvmList w ((fun i (_ : bool) => amounts_picture x (be_value (firstn 4 (skipn 2 (a :: b :: d)))) i ++ heading_row i (lit "Cardholder Verification Rules:") :: rules_picture i 1 (skipn 6 (a :: b :: d))) 0 true)).
  apply (sheet_value _ _ OpCvmList w cvm_list_picture); [unfold byte_operations; cbn [In]; auto 10|exact Q].
Qed.

(** ** Identification *)

Lemma tag_only t l v : ber_tag t -> l <> [] -> unknown_tag (t ++ l ++ v).
Proof.
  intros T L s K. destruct (known_tags_ok _ _ K) as (U & _ & Lu). rewrite !app_length in Lu.
  assert (Ll : (1 <= List.length l)%nat) by (destruct l; [contradiction|cbn; lia]).
  inversion T as [b Hb|b more last Hb F Hl]; subst.
  - inversion U as [b' Hb' [E1 E2]|b' more last Hb' F Hl [E1 E2]].
    + apply (f_equal (@List.length N)) in E2. rewrite app_length in E2. cbn in E2. lia.
    + subst b'. contradiction.
  - cbn [List.length] in Lu. rewrite app_length in Lu. cbn in Lu. lia.
Qed.
Theorem C111_identify : forall masks sort t l v w, object_text t l v w ->
  exists ls, sheet masks sort OpIdentify w (titled 0 heading (lit "Name:") (lit "             <Unknown>") :: ls).
Proof.
  intros masks sort t l v w (T & L & E). pose proof (ber_len_ne _ _ L) as Ln. pose proof (name_unknown _ (tag_only t l v T Ln)) as N.
  destruct (t ++ l ++ v) as [|b r] eqn:D; [apply app_eq_nil in D; destruct D as [D _]; now apply ber_tag_ne in T|].
  assert (Q : exists q ls, identify_picture (hex_bytes w) = Some q /\ q 0 true = titled 0 heading (lit "Name:") (lit "             <Unknown>") :: ls).
  { rewrite E. cbn [identify_picture]. do 2 eexists. split; [reflexivity|]. cbv beta. rewrite N. reflexivity. }
  destruct Q as (q & ls & Q & X). exists ls. rewrite <- X.
  apply (sheet_value _ _ OpIdentify w identify_picture); [unfold byte_operations; cbn [In]; auto 10|exact Q].
Qed.

(** ** The program *)

Theorem C111_program : forall p e e' m m' st st' op n s w ls t l, load_settings e m = Ok st -> load_settings e' m' = Ok st' ->
  chosen m op s -> chosen m' op w -> text64 p s -> text64 p w -> In (op, n) sizes -> sheet (set_masking st) (set_sort st) op s ls -> fits p (deepest ls) ->
  object_text t l (hex_bytes s) w -> displays (run_main p e m) ls /\ complains (run_main p e' m') (wrong_size op n (len t + len l + n)).
Proof.
  intros p e e' m m' st st' op n s w ls t l L L' C C' T T' I S F O. split.
  - now apply (C73_shown p e m st op s ls).
  - apply (C61_refused p e' m' st' op w _ L' C' T'). apply (C111_whole _ (set_sort st) op n s ls); [exact I| |exact O].
    destruct (value_sheet _ _ _ _ _ (or_introl (size_value op n I)) S) as (f & q & J & E & ->). now apply sheet_value with f.
Qed.

(** ** Cases that occur, and limits *)

Example C111_example :
  In (OpTvr, 5) sizes /\ (exists ls, sheet [42] true OpTvr (lit "0000008000") ls)
  /\ object_text [0x95] [5] (hex_bytes (lit "0000008000")) (lit "95 05 0000008000")
  /\ digits (lit "0000008000") + 2 <= digits (lit "T:95:05:H0000008000")
  /\ (exists ls, sheet [42] true OpCvmList (lit "000000000000000042031F00") ls)
  /\ object_text [0x8E] [12] (hex_bytes (lit "000000000000000042031F00")) (lit "8E0C000000000000000042031F00")
  /\ object_text [0x9F; 0x34] [3] (hex_bytes (lit "420300")) (lit "9F3403420300").
Proof.
  assert (T : forall b : N, b mod 32 <> 31 -> ber_tag [b]) by (intros; now constructor).
  split; [unfold sizes; cbn [In]; auto|].
  split; [eexists; apply (sheet_value _ _ OpTvr _ (bits_picture 5 tvr_bits tvr_used)); [unfold byte_operations; cbn [In]; auto|]; unfold bits_picture;
    replace ((len (hex_bytes (lit "0000008000")) =? 5) && allowed tvr_bits (hex_bytes (lit "0000008000"))) with true by (vm_compute; reflexivity); reflexivity|].
  split; [split; [apply T; vm_compute; intros K; discriminate K|split; [apply (ber_len_short 5); reflexivity|vm_compute; reflexivity]]|].
  split; [vm_compute; intros K; discriminate K|].
  split; [eexists; apply (sheet_value _ _ OpCvmList _ cvm_list_picture); [unfold byte_operations; cbn [In]; auto 10|]; unfold cvm_list_picture;
    replace ((8 <=? len (hex_bytes (lit "000000000000000042031F00"))) && (len (hex_bytes (lit "000000000000000042031F00")) mod 2 =? 0)) with true by (vm_compute; reflexivity); reflexivity|].
  split; [split; [apply T; vm_compute; intros K; discriminate K|split; [apply (ber_len_short 12); reflexivity|vm_compute; reflexivity]]|].
  split; [apply (ber_tag_long 0x9F [] 0x34); [reflexivity|constructor|lia]|split; [apply (ber_len_short 3); reflexivity|vm_compute; reflexivity]].
Qed.
(* Conversely a bare value can be taken for objects: these TSI bytes are an object without a value. *)
Theorem C111_bare_refuted : exists s ls n, sheet [42] true OpTsi s ls /\ tlv_block [42] OpBer s None [n] /\ node_tag_bytes n = [0xE8].
Proof.
  exists (lit "E800"). eexists. exists (RawNode (mkRawTag [0xE8] (class_of 0xE8) (type_of 0xE8) (Normal [])) []).
  split; [apply (sheet_value _ _ OpTsi _ (bits_picture 2 tsi_bits tsi_used)); [unfold byte_operations; cbn [In]; auto|]; unfold bits_picture;
    replace ((len (hex_bytes (lit "E800")) =? 2) && allowed tsi_bits (hex_bytes (lit "E800"))) with true by (vm_compute; reflexivity); reflexivity|].
  split; [|reflexivity]. constructor. apply (ber_block_iff p64); [split; [reflexivity|vm_compute; reflexivity]|vm_compute; reflexivity].
Qed.
(* The options for the TVR and the CVR accept the same bytes, and so do those for the IAD and CVM lists. *)
Theorem C111_alike_refuted : exists s s' l1 l2 l3 l4, sheet [42] true OpTvr s l1 /\ sheet [42] true OpCvr s l2 /\ sheet [42] true OpIad s' l3 /\ sheet [42] true OpCvmList s' l4.
Proof.
  exists (lit "0000000000"), (lit "0FA50000000000000000000000000000" ++ lit "0F000000000000000000000000000000"). do 4 eexists.
  split; [apply (sheet_value _ _ OpTvr _ (bits_picture 5 tvr_bits tvr_used)); [unfold byte_operations; cbn [In]; auto|]; unfold bits_picture;
    replace ((len (hex_bytes (lit "0000000000")) =? 5) && allowed tvr_bits (hex_bytes (lit "0000000000"))) with true by (vm_compute; reflexivity); reflexivity|].
  split; [apply (sheet_value _ _ OpCvr _ (bits_picture 5 cvr_bits cvr_used)); [unfold byte_operations; cbn [In]; auto|]; unfold bits_picture;
    replace ((len (hex_bytes (lit "0000000000")) =? 5) && allowed cvr_bits (hex_bytes (lit "0000000000"))) with true by (vm_compute; reflexivity); reflexivity|].
  set (w := hex_bytes (lit "0FA50000000000000000000000000000" ++ lit "0F000000000000000000000000000000")).
  split; [apply (sheet_value _ _ OpIad _ iad_picture); [unfold byte_operations; cbn [In]; auto|]; unfold iad_picture; cbv zeta; fold w;
    replace ((len w =? 32) && (nth 0 w 0 =? 0x0F) && (nth 16 w 0 =? 0x0F) && ((nth 1 w 0 =? 0xA5) || (nth 1 w 0 =? 0xA6))) with true by (vm_compute; reflexivity); reflexivity|].
  apply (sheet_value _ _ OpCvmList _ cvm_list_picture); [unfold byte_operations; cbn [In]; auto 10|]; unfold cvm_list_picture; fold w.
  replace ((8 <=? len w) && (len w mod 2 =? 0)) with true by (vm_compute; reflexivity). reflexivity.
Qed.
