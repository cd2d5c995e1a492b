(** The property of slips of the keyboard. *)

From Coq Require Import ZArith NArith String List Bool Lia ZifyN ZifyBool ZifyNat.
From Verif Require Import Base ModelUtil ModelEnums ModelBitflag ModelSchemas ModelTags ModelTlv ModelValues ModelProcess ModelDisplay
  SpecUtil SpecCodes SpecValues SpecTlv SpecIngenico SpecTags SpecProcess SpecDisplay
  ProofsUtil ProofsGrammar ProofsBer ProofsIngenico ProofsValues PropertiesValues
  PropertiesBer PropertiesIngenico ProofsProcess PropertiesProcess ProofsDisplay ProofsDiagram ProofsScreens ProofsLayout PropertiesDisplay
  SpecPictures ProofsPictures ModelMain SpecMain ProofsMain PropertiesMain ModelCli SpecCli ProofsCli PropertiesCli PropertiesPictures
  SpecReading PropertiesReading ModelTerminal SpecTerminal ProofsTerminal PropertiesTerminal SpecTells ProofsTells PropertiesTells PropertiesScope PropertiesColumns SpecAlarms PropertiesAlarms SpecSlips.
Import ListNotations.
Local Open Scope N_scope.

Definition count (s : str) : nat := List.length (filter is_hex_digitb s).
Lemma count_app a b : count (a ++ b) = (count a + count b)%nat.
Proof. unfold count. now rewrite filter_app, app_length. Qed.
Lemma count_cons c b : is_hex_digit c -> count (c :: b) = S (count b).
Proof. intros H. unfold count. cbn [filter]. apply is_hex_digitb_spec in H. now rewrite H. Qed.
Lemma count_none x : Forall (fun y => ~ is_hex_digit y) x -> count x = 0%nat.
Proof.
  unfold count. induction 1 as [|y x H _ IH]; [reflexivity|]. cbn [filter]. destruct (is_hex_digitb y) eqn:E; [apply is_hex_digitb_spec in E; contradiction|assumption].
Qed.
Lemma count_all x : Forall is_hex_digit x -> count x = List.length x.
Proof. induction 1 as [|y x H _ IH]; [reflexivity|]. rewrite count_cons by assumption. cbn [List.length]. now rewrite IH. Qed.
Lemma count_loses s s' : loses s s' -> count s = S (count s').
Proof. intros (a & c & b & x & -> & -> & C & X). rewrite !count_app, (count_none x X), (count_cons c b C). lia. Qed.
Lemma count_mistypes s s' : mistypes s s' -> count s = count s'.
Proof. intros (a & x & y & b & -> & -> & L & X & Y). rewrite !count_app, (count_all x X), (count_all y Y). lia. Qed.
Lemma bytes_count s : List.length (hex_bytes s) = Nat.div2 (count s).
Proof. unfold hex_bytes. apply bytes_of_digits_length. Qed.
Lemma bytes_loses s s' : paired s -> loses s s' -> List.length (hex_bytes s) = S (List.length (hex_bytes s')).
Proof.
  intros P L. apply count_loses in L. unfold paired in P. fold (count s) in P. rewrite !bytes_count. rewrite L in *. clear L. revert P. generalize (count s'). intros n P.
  apply Nat.even_spec in P. destruct P as (k & K). destruct k as [|k]; [lia|]. assert (n = S (2 * k)) by lia. subst n. rewrite Nat.div2_succ_double.
  replace (S (S (2 * k))) with (2 * S k)%nat by lia. now rewrite Nat.div2_double.
Qed.
Lemma bytes_gains s s' : paired s -> loses s' s -> List.length (hex_bytes s') = List.length (hex_bytes s).
Proof.
  intros P L. apply count_loses in L. unfold paired in P. fold (count s) in P. rewrite !bytes_count, L. revert P. generalize (count s). intros n P.
  apply Nat.even_spec in P. destruct P as (k & ->). now rewrite Nat.div2_succ_double, Nat.div2_double.
Qed.
(* Which sizes a value can have. *)
Definition size (op : operation) (n : N) : Prop :=
  match op with
  | OpTvr | OpCvr => n = 5 | OpIad => n = 32 | OpTsi => n = 2 | OpCvmResults => n = 3 | OpCvmList => 8 <= n /\ n mod 2 = 0 | _ => True
  end.
Lemma sheet_size masks sort op s ls : In op sized -> sheet masks sort op s ls -> size op (len (hex_bytes s)).
Proof.
  intros I H. inversion H as [f q J Q|n E D L|f ns ns' B _ _]; subst.
  - cbn [byte_operations In] in J. repeat destruct J as [J|J]; try injection J as <- <-; [| | | | | | |destruct J].
    1,3,4: cbn [size]; unfold bits_picture in Q; match type of Q with context [?x =? ?k] => destruct (N.eqb_spec x k) as [E|E] end; [exact E|discriminate Q].
    + cbn [size]. unfold iad_picture in Q. destruct (N.eqb_spec (len (hex_bytes s)) 32) as [E|E]; [exact E|discriminate Q].
    + cbn [size]. destruct (hex_bytes s) as [|a [|b [|c [|d t]]]]; try discriminate Q. reflexivity.
    + cbn [size]. unfold cvm_list_picture in Q. destruct (N.leb_spec 8 (len (hex_bytes s))) as [E|E]; [|discriminate Q].
      destruct (N.eqb_spec (len (hex_bytes s) mod 2) 0) as [E'|E']; [now split|discriminate Q].
    + exact Logic.I.
  - cbn [sized In] in I. destruct I as [I|[I|[I|[I|[I|[I|[]]]]]]]; discriminate I.
  - exfalso. revert B. apply no_block. cbn [sized In] in I |- *. tauto.
Qed.
Lemma size_pred op n : In op sized -> size op (n + 1) -> ~ size op n.
Proof.
  intros I. cbn [sized In] in I. destruct I as [<-|[<-|[<-|[<-|[<-|[<-|[]]]]]]]; cbn [size]; try lia.
Qed.

(* A digit less is always noticed. *)
Theorem C107_less : forall p masks sort op s s' ls, text64 p s' -> In op sized -> paired s -> sheet masks sort op s ls -> loses s s' ->
  exists e, refused masks op s' e.
Proof.
  intros p masks sort op s s' ls T I P H L. destruct (C73_total p masks sort op s' T) as [(ls' & H' & _)|(e & R & _)]; [|now exists e].
  exfalso. apply (size_pred op (len (hex_bytes s')) I); [|now apply (sheet_size masks sort op s' ls')].
  replace (len (hex_bytes s') + 1) with (len (hex_bytes s)); [now apply (sheet_size masks sort op s ls)|]. unfold len. rewrite (bytes_loses s s' P L). lia.
Qed.
(* The message says so, wherever the size is fixed. *)
Theorem C107_message : forall masks op s n, In (op, n) [(OpTvr, 5); (OpCvr, 5); (OpTsi, 2); (OpCvmResults, 3)] ->
  List.length (filter is_hex_digitb s) = (2 * N.to_nat n - 1)%nat ->
  refused masks op s (ByteCountIncorrect Eq n (n - 1)).
Proof.
  intros masks op s n I C. fold (count s) in C. assert (L : len (hex_bytes s) = n - 1).
  { unfold len. rewrite bytes_count, C. cbn [In] in I. destruct I as [I|[I|[I|[I|[]]]]]; injection I as <- <-; reflexivity. }
  cbn [In] in I. destruct I as [I|[I|[I|[I|[]]]]]; injection I as <- <-; rewrite <- L.
  - apply refused_tvr. constructor; [cbn [fixed_lengths In]; tauto|lia].
  - apply refused_cvr. lia.
  - apply refused_tsi. constructor; [cbn [fixed_lengths In]; tauto|lia].
  - apply refused_cvm_results. constructor; [cbn [fixed_lengths In]; tauto|lia].
Qed.
Theorem C107_program : forall p e m st op s s' ls, load_settings e m = Ok st -> SpecMain.chosen m op s' -> text64 p s' -> In op sized -> paired s ->
  sheet (set_masking st) (set_sort st) op s ls -> loses s s' -> exists er, complains (run_main p e m) er.
Proof.
  intros p e m st op s s' ls L C T I P H Ls. destruct (C107_less p _ _ op s s' ls T I P H Ls) as (er & R). exists er. now apply (C61_refused p e m st op s').
Qed.
(* A digit too many, and wrong digits, are never noticed where all contents are meaningful. *)
Lemma lenient_sheet p masks sort op s : text64 p s -> In op lenient -> size op (len (hex_bytes s)) -> exists ls, sheet masks sort op s ls.
Proof.
  intros T I Z. destruct (C73_total p masks sort op s T) as [(ls' & H' & _)|(e & R & _)]; [now exists ls'|]. exfalso.
  inversion R as [s0 e0 J| |s0 J|s0 e0 J| | | | | | | | | |op0 s0 f ns before t after e0 B _ _ _]; subst; cbn [lenient In size] in I, Z; try (destruct I as [I|[I|[I|[]]]]; discriminate I).
  1,3: inversion J as [t k d K L| | | | | | | ]; subst; cbn [fixed_lengths In] in K; repeat (destruct K as [K|K]; [first [discriminate K|injection K as <-; apply L; exact Z]|]); destruct K.
  - now apply J.
  - revert B. apply no_block. cbn [In]. tauto.
Qed.
Theorem C107_more : forall p masks sort op s s' ls, text64 p s' -> In op lenient -> paired s -> sheet masks sort op s ls -> loses s' s ->
  exists ls', sheet masks sort op s' ls'.
Proof.
  intros p masks sort op s s' ls T I P H L. apply (lenient_sheet p); [assumption|assumption|]. unfold len. rewrite (bytes_gains s s' P L). fold (len (hex_bytes s)).
  apply (sheet_size masks sort op s ls); [|assumption]. cbn [lenient sized In] in *. tauto.
Qed.
Theorem C107_wrong : forall p masks sort op s s' ls, text64 p s' -> In op lenient -> sheet masks sort op s ls -> mistypes s s' ->
  exists ls', sheet masks sort op s' ls'.
Proof.
  intros p masks sort op s s' ls T I H M. apply (lenient_sheet p); [assumption|assumption|]. unfold len. rewrite bytes_count, <- (count_mistypes s s' M), <- bytes_count. fold (len (hex_bytes s)).
  apply (sheet_size masks sort op s ls); [|assumption]. cbn [lenient sized In] in *. tauto.
Qed.
(* But the value shown is another one: a digit too many in front shifts everything. *)
Theorem C107_more_shown_refuted : exists s s' ls ls', paired s /\ loses s' s /\ sheet [] false OpTsi s ls /\ sheet [] false OpTsi s' ls' /\ characters ls <> characters ls'.
Proof.
  destruct (bits_picture 2 tsi_bits tsi_used (hex_bytes (lit "E800"))) as [q|] eqn:Q; [|vm_compute in Q; discriminate Q].
  destruct (bits_picture 2 tsi_bits tsi_used (hex_bytes (lit "0E800"))) as [q'|] eqn:Q'; [|vm_compute in Q'; discriminate Q'].
  exists (lit "E800"), (lit "0E800"), (q 0 true), (q' 0 true). split; [reflexivity|]. split; [|split; [|split]].
  - exists [], 48, (lit "E800"), []. repeat split; [now apply is_hex_digitb_spec|constructor].
  - apply (sheet_value [] false OpTsi _ (bits_picture 2 tsi_bits tsi_used)); [cbn [byte_operations In]; tauto|exact Q].
  - apply (sheet_value [] false OpTsi _ (bits_picture 2 tsi_bits tsi_used)); [cbn [byte_operations In]; tauto|exact Q'].
  - unfold bits_picture in Q, Q'. match type of Q with (if ?c then Some ?x else None) = _ => assert (E : q = x) by (change c with true in Q; cbv iota in Q; congruence) end.
    match type of Q' with (if ?c then Some ?x else None) = _ => assert (E' : q' = x) by (change c with true in Q'; cbv iota in Q'; congruence) end.
    rewrite E, E'. vm_compute. intros K. discriminate K.
Qed.
(* In TLV data and in a service code a digit can go missing unnoticed, and the objects shown are others. *)
Theorem C107_tlv_refuted : exists s s' ls ls', paired s /\ loses s s' /\ sheet [] false OpBer s ls /\ sheet [] false OpBer s' ls' /\ characters ls <> characters ls'.
Proof.
  set (s := lit "8003000000"). set (s' := lit "800000000").
  set (n := RawNode (mkRawTag [0x80] TagClass_ContextSpecific Primitive (Normal [0; 0; 0])) []).
  set (n1 := RawNode (mkRawTag [0x80] TagClass_ContextSpecific Primitive (Normal [])) []).
  set (n2 := RawNode (mkRawTag [0] TagClass_Universal Primitive (Normal [])) []).
  assert (T : text64 p64 s) by (split; vm_compute; reflexivity). assert (T' : text64 p64 s') by (split; vm_compute; reflexivity).
  assert (F : forall t d, rt_data t = Normal d -> In (rt_tag t) [[0x80]; [0]] -> forall e, ~ tag_fails t e).
  { intros t d D I e (d' & D' & R). rewrite D in D'. injection D' as <-. cbn [In] in I. inversion R as [t0 k d0 J L| | | | | | | ]; subst; destruct I as [I|[I|[]]]; try congruence; try discriminate I;
      match goal with E : _ = rt_tag t |- _ => rewrite <- E in * end; cbn [fixed_lengths In] in J; repeat (destruct J as [J|J]; [discriminate J|]); destruct J. }
  exists s, s', (forest_lines [n] 0 true), (forest_lines [n1; n2] 0 true). split; [reflexivity|]. split; [|split; [|split]].
  - exists (lit "800"), 51, (lit "000000"), []. repeat split; [now apply is_hex_digitb_spec|constructor].
  - apply (sheet_block [] false OpBer s None [n]); [|repeat constructor; apply (F _ [0; 0; 0]); cbn; tauto|reflexivity].
    apply (tlv_settles p64 [] OpBer s _ T eq_refl). vm_compute. reflexivity.
  - apply (sheet_block [] false OpBer s' None [n1; n2]); [|repeat constructor; apply (F _ []); cbn; tauto|reflexivity].
    apply (tlv_settles p64 [] OpBer s' _ T' eq_refl). vm_compute. reflexivity.
  - vm_compute. intros K. discriminate K.
Qed.
Theorem C107_service_refuted : exists s s' ls ls', loses s s' /\ sheet [] false OpServiceCode s ls /\ sheet [] false OpServiceCode s' ls' /\ characters ls <> characters ls'.
Proof.
  exists (lit "201"), (lit "21"), (service_picture 201 0 true), (service_picture 21 0 true). split; [|split; [|split]].
  - exists (lit "2"), 48, (lit "1"), []. repeat split; [now apply is_hex_digitb_spec|constructor].
  - apply sheet_service_code; [reflexivity| |lia]. exists [], [], (lit "201"), []. repeat split; [constructor|constructor|now left|discriminate|].
    repeat constructor; vm_compute; intros K; discriminate K.
  - apply sheet_service_code; [reflexivity| |lia]. exists [], [], (lit "21"), []. repeat split; [constructor|constructor|now left|discriminate|].
    repeat constructor; vm_compute; intros K; discriminate K.
  - vm_compute. intros K. discriminate K.
Qed.
Example C107_example : exists s s' ls, text64 p64 s' /\ In OpTvr sized /\ paired s /\ sheet [] false OpTvr s ls /\ loses s s' /\ s' = lit "0000O08000" /\ refused [] OpTvr s' (ByteCountIncorrect Eq 5 4).
Proof.
  destruct (bits_picture 5 tvr_bits tvr_used (hex_bytes (lit "0000008000"))) as [q|] eqn:Q; [|vm_compute in Q; discriminate Q].
  exists (lit "0000008000"), (lit "0000O08000"), (q 0 true). split; [split; vm_compute; reflexivity|]. split; [cbn; tauto|]. split; [reflexivity|]. split; [|split; [|split; [reflexivity|]]].
  - apply (sheet_value [] false OpTvr _ (bits_picture 5 tvr_bits tvr_used)); [cbn [byte_operations In]; tauto|exact Q].
  - exists (lit "0000"), 48, (lit "08000"), (lit "O"). repeat split; [now apply is_hex_digitb_spec|]. constructor; [|constructor]. intros K. apply is_hex_digitb_spec in K. discriminate K.
  - now apply (C107_message [] OpTvr _ 5); [cbn [In]; tauto|].
Qed.
