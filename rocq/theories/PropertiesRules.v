(** The property of CVM results read against a CVM list. *)

From Coq Require Import ZArith NArith Ascii String List Bool Lia ZifyN ZifyBool ZifyNat Permutation Sorting.
From Verif Require Import Base ModelUtil ModelEnums ModelBitflag ModelSchemas ModelTags ModelTlv ModelValues ModelProcess ModelDisplay
  SpecUtil SpecCodes SpecValues SpecTlv SpecIngenico SpecTags SpecProcess SpecDisplay
  ProofsUtil ProofsGrammar ProofsBer ProofsIngenico ProofsValues PropertiesValues
  PropertiesBer PropertiesIngenico ProofsProcess PropertiesProcess ProofsDisplay ProofsDiagram ProofsScreens ProofsLayout PropertiesDisplay
  SpecPictures ProofsPictures ModelMain SpecMain ProofsMain PropertiesMain ModelCli SpecCli ProofsCli PropertiesCli PropertiesPictures
  SpecReading PropertiesReading ModelTerminal SpecTerminal ProofsTerminal PropertiesTerminal SpecTells ProofsTells PropertiesTells
  SpecSame PropertiesSame SpecJoin PropertiesJoin PropertiesScope PropertiesColumns SpecAlarms PropertiesAlarms
  PropertiesCut SpecCopied PropertiesCopied SpecReserved PropertiesReserved SpecMatch PropertiesMatch SpecExplain PropertiesExplain SpecRules.
Import ListNotations.
Local Open Scope N_scope.

(** ** The rules of a list *)

(* Only the first line of a rule is bold to its end. *)
Definition unbold (l : line) : Prop := l_end l <> bold.
Lemma beyond pre ls before l after : Forall unbold pre -> l_end l = bold -> pre ++ ls = before ++ l :: after -> exists before', ls = before' ++ l :: after.
Proof.
  intros F E. revert before. induction F as [|x pre U F IH]; intros before H; [now exists before|]. destruct before as [|y before]; cbn [app] in H; injection H as -> H; [congruence|]. now apply (IH before).
Qed.
Lemma rule_found i j n m c next after : forall d k before, rules_picture i k d = before ++ rule_block j n m c next ++ after ->
  exists x y, k <= n /\ nth_error d (N.to_nat (2 * (n - k))) = Some x /\ nth_error d (N.to_nat (2 * (n - k) + 1)) = Some y
    /\ m = code_text Method x 6 1 /\ c = code_text Condition y 8 1 /\ (next = true <-> bits_of x 7 7 = 1).
Proof.
  induction d as [d IH] using length_ind. destruct d as [|a [|b d]]; intros k before H; try (destruct before; discriminate H).
  cbn [rules_picture] in H. destruct before as [|l before].
  - unfold rule_block in H. cbn [app] in H. injection H as E1 E2 E7 E3 E8 E4 E9 E5 E6. apply app_inv_tail in E2. apply dec_inj in E2. subst n. exists a, b.
    replace (k - k) with 0 by lia. split; [lia|]. split; [reflexivity|]. split; [reflexivity|]. split; [congruence|]. split; [congruence|].
    destruct (N.eqb_spec (bits_of a 7 7) 1) as [V|V], next; try tauto; try discriminate E5; split; intros K; try discriminate K; contradiction.
  - cbn [app] in H. injection H as _ H.
    assert (B : exists before', rules_picture i (k + 1) d = before' ++ rule_block j n m c next ++ after).
    { unfold rule_block in H. cbn [app] in H. match type of H with ?p :: ?q :: ?r :: ?z = ?w => change ([p; q; r] ++ z = w) in H end.
      unfold rule_block. cbn [app]. eapply beyond; [|reflexivity|exact H]. repeat constructor; discriminate. }
    destruct B as (before' & B). destruct (IH d ltac:(cbn [List.length]; lia) (k + 1) before' B) as (x & y & L & X & Y & R). exists x, y. split; [lia|].
    replace (N.to_nat (2 * (n - k))) with (Datatypes.S (Datatypes.S (N.to_nat (2 * (n - (k + 1)))))) by lia. replace (N.to_nat (2 * (n - k) + 1)) with (Datatypes.S (Datatypes.S (N.to_nat (2 * (n - (k + 1)) + 1)))) by lia.
    cbn [nth_error]. auto.
Qed.
Lemma rule_there i n x y : forall d k, k <= n -> nth_error d (N.to_nat (2 * (n - k))) = Some x -> nth_error d (N.to_nat (2 * (n - k) + 1)) = Some y ->
  exists before after, rules_picture i k d = before ++ rule_block i n (code_text Method x 6 1) (code_text Condition y 8 1) (bits_of x 7 7 =? 1) ++ after.
Proof.
  induction d as [d IH] using length_ind. intros k L X Y. destruct (N.eq_dec n k) as [->|K].
  - replace (k - k) with 0 in X, Y by lia. destruct d as [|a [|b d]]; try discriminate. cbn in X, Y. injection X as ->. injection Y as ->. exists [], (rules_picture i (k + 1) d). reflexivity.
  - replace (N.to_nat (2 * (n - k))) with (Datatypes.S (Datatypes.S (N.to_nat (2 * (n - (k + 1)))))) in X by lia. replace (N.to_nat (2 * (n - k) + 1)) with (Datatypes.S (Datatypes.S (N.to_nat (2 * (n - (k + 1)) + 1)))) in Y by lia.
    destruct d as [|a [|b d]]; try discriminate. cbn [nth_error] in X, Y. destruct (IH d ltac:(cbn [List.length]; lia) (k + 1) ltac:(lia) X Y) as (before & after & E).
    cbn [rules_picture]. rewrite E. match goal with |- exists _ _, ?p :: ?q :: ?r :: ?z :: _ = _ => exists (p :: q :: r :: z :: before), after end. reflexivity.
Qed.
Lemma list_shape d q i show : cvm_list_picture d = Some q -> exists pre, q i show = pre ++ rules_picture i 1 (skipn 8 d) /\ Forall unbold pre.
Proof.
  unfold cvm_list_picture. destruct (_ && _); [|discriminate]. cbv zeta. intros H. match type of H with Some ?x = _ => assert (E : q = x) by congruence end. rewrite E. clear H E.
  match goal with |- exists pre, ?a ++ ?h :: ?r = _ /\ _ => exists (a ++ [h]) end. split; [now rewrite <- app_assoc|]. apply Forall_app. split; [|repeat constructor; discriminate].
  destruct (_ && _); [constructor|]. unfold amounts_picture. repeat constructor; discriminate.
Qed.
Lemma nth_skip {A} (d : list A) n k : nth_error (skipn n d) k = nth_error d (n + k).
Proof. revert n. induction d as [|x d IH]; intros [|n]; cbn [skipn plus nth_error]; try reflexivity; [now destruct k|apply IH]. Qed.
(* The lines between [pre] and [post], in which only the rules are bold. *)
Lemma list_names d pre rs k i : Forall unbold pre ->
  (names (pre ++ rules_picture i 1 (skipn 8 d)) k rs <-> exists x y, rule_at d k x y /\ tells rs (lit "Method: " ++ code_text Method x 6 1) /\ tells rs (lit "Condition: " ++ code_text Condition y 8 1)
    /\ (tells rs (lit "Apply succeeding CV Rule if this CVM is unsuccessful") <-> bits_of x 7 7 = 1)).
Proof.
  intros F. split.
  - intros (j & before & m & c & next & after & E & M & C & A). assert (B : exists before', rules_picture i 1 (skipn 8 d) = before' ++ rule_block j k m c next ++ after).
    { unfold rule_block in *. cbn [app] in *. eapply beyond; [exact F|reflexivity|exact E]. }
    destruct B as (before' & B). destruct (rule_found i j k m c next after _ _ _ B) as (x & y & L & X & Y & -> & -> & R). rewrite nth_skip in X, Y. exists x, y.
    split; [split; [exact L|]; split; [rewrite <- X|rewrite <- Y]; f_equal; lia|]. rewrite A, R. tauto.
  - intros (x & y & (L & X & Y) & M & C & A). destruct (rule_there i k x y (skipn 8 d) 1 L) as (before & after & E).
    + rewrite nth_skip, <- X. f_equal. lia.
    + rewrite nth_skip, <- Y. f_equal. lia.
    + exists i, (pre ++ before). do 4 eexists. split; [rewrite E, app_assoc; reflexivity|]. split; [exact M|]. split; [exact C|]. rewrite A. destruct (N.eqb_spec (bits_of x 7 7) 1); split; intros K; try discriminate K; try reflexivity; try assumption; contradiction.
Qed.
Lemma code_texts x y : code_text Method x 6 1 = method_text (bits_of x 6 1) /\ code_text Condition y 8 1 = condition_text (bits_of y 8 1).
Proof. unfold code_text, method_text, condition_text. cbn [decode]. unfold optional. destruct (find_code cv_method_codes _) as [[? ?]|], (find_code cvm_condition_codes _) as [[? ?]|]; split; reflexivity. Qed.

(** ** What the results tell *)

Lemma results_say a b c rs x y : (exists r : cvm_result * string, find_code cvm_result_codes c = Some r /\ forall w, tells rs w <-> In w (rule_words a b ++ [lit "Result: " ++ lit (snd r)])) -> y < 256 -> b < 256 ->
  (tells rs (lit "Method: " ++ code_text Method x 6 1) /\ tells rs (lit "Condition: " ++ code_text Condition y 8 1) /\ (tells rs (lit "Apply succeeding CV Rule if this CVM is unsuccessful") <-> bits_of x 7 7 = 1)
   <-> same_rule x y a b).
Proof.
  intros (r & R & H) Ly Lb. rewrite !H. clear H. destruct (code_texts x y) as [-> ->]. unfold same_rule.
  assert (M : forall v, bits_of v 6 1 < 64) by (intros v; unfold bits_of; apply N.mod_lt; discriminate).
  assert (K : forall v, v < 256 -> bits_of v 8 1 = v) by (intros v Lv; unfold bits_of; change (2 ^ (1 - 1)) with 1; rewrite N.div_1_r; apply N.mod_small; exact Lv).
  rewrite <- (methods_told _ _ (M x) (M a)), <- (conditions_told y b Ly Lb). unfold rule_words. rewrite (K y Ly), (K b Lb).
  generalize (method_text (bits_of x 6 1)) (method_text (bits_of a 6 1)) (condition_text y) (condition_text b) (lit (snd r)). intros m m' n n' t.
  set (ws := ((if bits_of a 7 7 =? 1 then _ else _) ++ _) ++ _).
  assert (W1 : In (lit "Method: " ++ m) ws <-> m = m').
  { unfold ws. split; [|intros ->; apply in_app_iff; left; apply in_app_iff; right; now left]. intros I. apply in_app_iff in I. destruct I as [I|I]; [apply in_app_iff in I; destruct I as [I|I]|].
    - destruct (bits_of a 7 7 =? 1); [destruct I as [I|[]]; discriminate I|destruct I].
    - destruct I as [I|[I|[]]]; [now apply app_inv_head in I|discriminate I].
    - destruct I as [I|[]]. discriminate I. }
  assert (W2 : In (lit "Condition: " ++ n) ws <-> n = n').
  { unfold ws. split; [|intros ->; apply in_app_iff; left; apply in_app_iff; right; right; now left]. intros I. apply in_app_iff in I. destruct I as [I|I]; [apply in_app_iff in I; destruct I as [I|I]|].
    - destruct (bits_of a 7 7 =? 1); [destruct I as [I|[]]; discriminate I|destruct I].
    - destruct I as [I|[I|[]]]; [discriminate I|now apply app_inv_head in I].
    - destruct I as [I|[]]. discriminate I. }
  assert (W3 : In (lit "Apply succeeding CV Rule if this CVM is unsuccessful") ws <-> bits_of a 7 7 = 1).
  { unfold ws. split.
    - intros I. apply in_app_iff in I. destruct I as [I|I]; [apply in_app_iff in I; destruct I as [I|I]|].
      + destruct (N.eqb_spec (bits_of a 7 7) 1); [assumption|destruct I].
      + destruct I as [I|[I|[]]]; discriminate I.
      + destruct I as [I|[]]. discriminate I.
    - intros ->. apply in_app_iff. left. apply in_app_iff. left. now left. }
  rewrite W1, W2, W3. clear. destruct (bits_flag x) as [X|X], (bits_flag a) as [A|A]; rewrite X, A; intuition congruence.
Qed.

(** ** C122 *)

(* A rule of the list says what the results say exactly if it is that rule, up to the reserved bit and unknown codes. *)
Theorem C122_named : forall d a b c q r i i' show show' k, bytes_ok d -> b < 256 -> cvm_list_picture d = Some q -> cvm_results_picture [a; b; c] = Some r ->
  (names (q i show) k (r i' show') <-> exists x y, rule_at d k x y /\ same_rule x y a b).
Proof.
  intros d a b c q r i i' show show' k B L Q R. destruct (list_shape d q i show Q) as (pre & -> & F). rewrite (list_names d pre _ k i F).
  assert (T : exists r0 : cvm_result * string, find_code cvm_result_codes c = Some r0 /\ forall w, tells (r i' show') w <-> In w (rule_words a b ++ [lit "Result: " ++ lit (snd r0)])).
  { destruct (results_told a b c r i' show' [] R) as (r0 & R0 & _). exists r0. split; [exact R0|]. intros w. destruct (results_told a b c r i' show' w R) as (r1 & R1 & W). rewrite R0 in R1. injection R1 as <-. exact W. }
  split; intros (x & y & A & S); exists x, y; (split; [exact A|]); apply (results_say a b c _ x y T); auto; destruct A as (_ & _ & A); apply nth_error_In in A; unfold bytes_ok in B; rewrite Forall_forall in B; now apply B.
Qed.
Lemma low_bits x a : bits_of x 7 7 = bits_of a 7 7 /\ bits_of x 6 1 = bits_of a 6 1 <-> x mod 128 = a mod 128.
Proof.
  unfold bits_of. change (2 ^ (7 - 7 + 1)) with 2. change (2 ^ (7 - 1)) with 64. change (2 ^ (6 - 1 + 1)) with 64. change (2 ^ (1 - 1)) with 1. rewrite !N.div_1_r.
  assert (G : forall v, v mod 128 = 64 * ((v / 64) mod 2) + v mod 64).
  { intros v. change 128 with (64 * 2). rewrite N.mod_mul_r by discriminate. lia. }
  rewrite !G. split; [intros [-> ->]; reflexivity|]. intros E. pose proof (N.mod_upper_bound x 64 ltac:(discriminate)). pose proof (N.mod_upper_bound a 64 ltac:(discriminate)).
  generalize dependent (x mod 64). generalize dependent (a mod 64). generalize ((x / 64) mod 2) ((a / 64) mod 2). intros. lia.
Qed.
(* With a method and a condition of the EMV books the bytes are the same but for the reserved bit. *)
Theorem C122_known : forall d a b c q r i i' show show' k, bytes_ok d -> b < 256 -> cvm_list_picture d = Some q -> cvm_results_picture [a; b; c] = Some r ->
  In (bits_of a 6 1) (map (fun r => fst (fst r)) cv_method_codes) -> In b (map (fun r => fst (fst r)) cvm_condition_codes) ->
  (names (q i show) k (r i' show') <-> exists x, rule_at d k x b /\ x mod 128 = a mod 128).
Proof.
  intros d a b c q r i i' show show' k B L Q R M C. rewrite (C122_named d a b c q r i i' show show' k B L Q R). split.
  - intros (x & y & A & S1 & S2 & S3). assert (y = b) as -> by (destruct S3 as [S3|[_ S3]]; [assumption|contradiction]). exists x. split; [exact A|]. apply low_bits. split; [exact S1|]. destruct S2 as [S2|[_ S2]]; [assumption|contradiction].
  - intros (x & A & E). exists x, b. split; [exact A|]. apply low_bits in E. destruct E as [E1 E2]. split; [exact E1|]. split; now left.
Qed.
(* A rule taken from the list and put in front of a result, as terminals do: the results name it. *)
Theorem C122_found : forall d k x y c q r i i' show show', bytes_ok d -> cvm_list_picture d = Some q -> rule_at d k x y -> cvm_results_picture [x; y; c] = Some r ->
  names (q i show) k (r i' show').
Proof.
  intros d k x y c q r i i' show show' B Q A R. apply (C122_named d x y c q r i i' show show' k B); [|assumption|assumption|exists x, y; split; [assumption|]; split; [reflexivity|]; split; now left].
  destruct A as (_ & _ & A). apply nth_error_In in A. unfold bytes_ok in B. rewrite Forall_forall in B. now apply B.
Qed.
(* The list and the results as objects anywhere in one piece of TLV data. *)
Theorem C122_objects : forall p masks sort op s ls f ns n n' d a b c, text64 p s -> sheet masks sort op s ls -> tlv_block masks op s f ns -> occurs n ns -> occurs n' ns ->
  rt_tag (node_tag n) = [0x8E] -> rt_data (node_tag n) = Normal d -> rt_tag (node_tag n') = [0x9F; 0x34] -> rt_data (node_tag n') = Normal [a; b; c] ->
  exists i i' before after before' after', ls = before ++ tag_lines (node_tag n) i true ++ after /\ ls = before' ++ tag_lines (node_tag n') i' true ++ after'
    /\ forall k, (names (tag_lines (node_tag n) i true) k (tag_lines (node_tag n') i' true) <-> exists x y, rule_at d k x y /\ same_rule x y a b).
Proof.
  intros p masks sort op s ls f ns n n' d a b c T H B O O' Et Ed Et' Ed'.
  assert (Hb : bytes_ok d) by (destruct (tag_sound p _ _ _ _ _ _ T B O) as [_ D]; unfold data_ok in D; now rewrite Ed in D).
  assert (Hb' : bytes_ok [a; b; c]) by (destruct (tag_sound p _ _ _ _ _ _ T B O') as [_ D]; unfold data_ok in D; now rewrite Ed' in D).
  assert (Nf : forall x, In x (flat_map preorder ns) -> forall e, ~ tag_fails x e).
  { inversion H as [f0 q J E|m X Dn N|f0 ms ns' B' N A]; subst.
    - exfalso. revert B. apply no_block. clear - J. unfold byte_operations in J. cbn [In] in J. cbn [In]. repeat (destruct J as [J|J]; [injection J as <- _; tauto|]). contradiction.
    - exfalso. revert B. apply no_block. cbn [In]. tauto.
    - destruct (tlv_block_det p _ _ _ _ _ _ _ T B B') as [_ <-]. rewrite Forall_forall in N. exact N. }
  assert (I : In (node_tag n) (flat_map preorder ns)) by (apply (occurs_preorder _ _ O); destruct n; now left).
  assert (I' : In (node_tag n') (flat_map preorder ns)) by (apply (occurs_preorder _ _ O'); destruct n'; now left).
  assert (Q : exists q, cvm_list_picture d = Some q).
  { unfold cvm_list_picture. destruct (N.leb_spec 8 (len d)) as [L|L]; [destruct (N.eqb_spec (len d mod 2) 0) as [M|M]|].
    - cbn [andb]. eexists. reflexivity.
    - exfalso. apply (Nf _ I ByteCountNotDivisibleIntoComponents). exists d. split; [assumption|]. rewrite Et. apply rejected_8E_odd; [assumption|]. pose proof (N.mod_upper_bound (len d) 2 ltac:(discriminate)). lia.
    - exfalso. apply (Nf _ I (ByteCountIncorrect Gt 8 (len d))). exists d. split; [assumption|]. rewrite Et. now apply rejected_8E_short. }
  assert (R : exists r, cvm_results_picture [a; b; c] = Some r).
  { cbn [cvm_results_picture]. destruct (N.lt_ge_cases 2 c) as [L|L]; [exfalso; apply (Nf _ I' NonCompliant); exists [a; b; c]; split; [assumption|]; rewrite Et'; now constructor|].
    assert (C : c = 0 \/ c = 1 \/ c = 2) by lia. destruct C as [-> |[-> | ->]]; eexists; reflexivity. }
  destruct Q as (q & Q), R as (r & R).
  assert (Wh : forall m v, occurs m ns -> rt_data (node_tag m) = Normal v -> v <> [] -> exists i before after, ls = before ++ tag_lines (node_tag m) i true ++ after).
  { intros m v Om Dm Nm. destruct (object_between p _ _ _ _ _ _ _ _ v T B Om H Dm Nm) as (i & before & after & ->). exists i, before, after. unfold tag_lines, data_lines. rewrite Dm. destruct v as [|v0 v]; [congruence|].
    cbn [app]. rewrite <- app_assoc. reflexivity. }
  destruct (Wh n d O Ed) as (i & before & after & E); [intros ->; discriminate Q|]. destruct (Wh n' _ O' Ed') as (i' & before' & after' & E'); [discriminate|].
  exists i, i', before, after, before', after'. split; [exact E|]. split; [exact E'|]. intros k.
  assert (Pl : picture_of (rt_tag (node_tag n)) d = Some q) by (rewrite Et; exact Q).
  assert (Pr : picture_of (rt_tag (node_tag n')) [a; b; c] = Some r) by (rewrite Et'; exact R).
  assert (Sh : exists pre, tag_lines (node_tag n) i true = pre ++ rules_picture (i + 1) 1 (skipn 8 d) /\ Forall unbold pre).
  { destruct (list_shape d q (i + 1) true Q) as (pre & Ep & Fp). unfold tag_lines, meaning_lines. rewrite Ed, Pl, Ep. eexists (tag_row i (node_tag n) _ :: data_lines i (node_tag n) ++ heading_row i (lit "Parsed:") :: pre). split; [cbn [app]; rewrite <- app_assoc; reflexivity|].
    constructor; [discriminate|]. apply Forall_app. split; [|constructor; [discriminate|exact Fp]]. unfold data_lines. rewrite Ed. destruct d; [constructor|]. constructor; [discriminate|]. unfold wide_dump. apply Forall_forall. intros l Il. apply in_map_iff in Il. destruct Il as (z & <- & _). discriminate. }
  destruct Sh as (pre & Ep & Fp). rewrite Ep, (list_names d pre _ k (i + 1) Fp).
  assert (Lb : b < 256) by (apply bytes_ok_cons in Hb'; destruct Hb' as [_ Hb']; now apply bytes_ok_cons in Hb').
  assert (Tl : exists r0 : cvm_result * string, find_code cvm_result_codes c = Some r0 /\ forall w, tells (tag_lines (node_tag n') i' true) w <-> In w (rule_words a b ++ [lit "Result: " ++ lit (snd r0)])).
  { destruct (results_told a b c r (i' + 1) true [] R) as (r0 & R0 & _). exists r0. split; [exact R0|]. intros w. rewrite (object_told (node_tag n') [a; b; c] i' true r w Ed' Pr). destruct (results_told a b c r (i' + 1) true w R) as (r1 & R1 & W). rewrite R0 in R1. injection R1 as <-. exact W. }
  split; intros (x & y & A & S); exists x, y; (split; [exact A|]); apply (results_say a b c _ x y Tl); auto; destruct A as (_ & _ & A); apply nth_error_In in A; unfold bytes_ok in Hb; rewrite Forall_forall in Hb; now apply Hb.
Qed.
(* Two runs of the program, --cvm-list and --cvm-results. *)
Theorem C122_program : forall p e m st e' m' st' s s' ls ls' a b c, load_settings e m = Ok st -> SpecMain.chosen m OpCvmList s -> text64 p s ->
  load_settings e' m' = Ok st' -> SpecMain.chosen m' OpCvmResults s' -> text64 p s' -> hex_bytes s' = [a; b; c] ->
  sheet (set_masking st) (set_sort st) OpCvmList s ls -> sheet (set_masking st') (set_sort st') OpCvmResults s' ls' -> fits p (deepest ls) -> fits p (deepest ls') ->
  displays (run_main p e m) ls /\ displays (run_main p e' m') ls' /\ forall k, names ls k ls' <-> exists x y, rule_at (hex_bytes s) k x y /\ same_rule x y a b.
Proof.
  intros p e m st e' m' st' s s' ls ls' a b c L C T L' C' T' E H H' F F'. split; [now apply (C73_shown p e m st OpCvmList s ls)|]. split; [now apply (C73_shown p e' m' st' OpCvmResults s' ls')|]. intros k.
  assert (V : forall masks sort op s ls g, In (op, g) byte_operations -> op = OpCvmList \/ op = OpCvmResults -> sheet masks sort op s ls -> exists q, g (hex_bytes s) = Some q /\ ls = q 0 true).
  { clear. intros masks sort op s ls g I O H. inversion H as [f q J X|n Y D N|f ns ns' B N A]; subst; [|destruct O; discriminate|destruct O as [-> | ->]; inversion B].
    exists q. split; [|reflexivity]. unfold byte_operations in I, J. cbn [In] in I, J. destruct O as [-> | ->]; repeat (destruct I as [I|I]; [try discriminate I; injection I as <-|]); repeat (destruct J as [J|J]; [try discriminate J; injection J as <-|]); try contradiction; assumption. }
  destruct (V _ _ OpCvmList s ls cvm_list_picture ltac:(unfold byte_operations; cbn [In]; tauto) (or_introl eq_refl) H) as (q & Q & ->).
  destruct (V _ _ OpCvmResults s' ls' cvm_results_picture ltac:(unfold byte_operations; cbn [In]; tauto) (or_intror eq_refl) H') as (r & R & ->). rewrite E in R.
  apply (C122_named (hex_bytes s) a b c q r 0 0 true true k (hex_bytes_ok s)); [|exact Q|exact R].
  pose proof (hex_bytes_ok s') as B. rewrite E in B. apply bytes_ok_cons in B. destruct B as [_ B]. now apply bytes_ok_cons in B.
Qed.
(* Methods the program does not know are all shown alike: a rule may be named that was not applied. *)
Theorem C122_unknown_refuted : exists d a b c q r x, bytes_ok d /\ cvm_list_picture d = Some q /\ cvm_results_picture [a; b; c] = Some r /\ names (q 0 true) 1 (r 0 true) /\ rule_at d 1 x b /\ x mod 128 <> a mod 128.
Proof.
  set (d := [0; 0; 0; 0; 0; 0; 0; 0; 0x20; 3]). assert (B : bytes_ok d) by (unfold d; repeat constructor).
  assert (Q : exists q, cvm_list_picture d = Some q) by (eexists; reflexivity). assert (R : exists r, cvm_results_picture [0x2A; 3; 2] = Some r) by (eexists; reflexivity). destruct Q as (q & Q), R as (r & R).
  assert (A : rule_at d 1 0x20 3) by (repeat split; vm_compute; congruence). exists d, 0x2A, 3, 2, q, r, 0x20.
  split; [exact B|]. split; [exact Q|]. split; [exact R|]. split; [|split; [exact A|discriminate]].
  apply (C122_named d 0x2A 3 2 q r 0 0 true true 1 B eq_refl Q R). exists 0x20, 3. split; [exact A|]. split; [reflexivity|].
  split; [right; split; vm_compute; intros K; repeat (destruct K as [K|K]; [discriminate K|]); exact K|now left].
Qed.
(* A list with two rules, and results for the second. *)
Example C122_example : exists q r, cvm_list_picture [0; 0; 0; 10; 0; 0; 0; 0; 0x42; 3; 0x1F; 0] = Some q /\ cvm_results_picture [0x1F; 0; 2] = Some r
  /\ rule_at [0; 0; 0; 10; 0; 0; 0; 0; 0x42; 3; 0x1F; 0] 2 0x1F 0 /\ names (q 0 true) 2 (r 0 true) /\ ~ names (q 0 true) 1 (r 0 true) /\ ~ names (q 0 true) 3 (r 0 true).
Proof.
  set (d := [0; 0; 0; 10; 0; 0; 0; 0; 0x42; 3; 0x1F; 0]). assert (B : bytes_ok d) by (unfold d; repeat constructor).
  assert (Q : exists q, cvm_list_picture d = Some q) by (eexists; reflexivity). assert (R : exists r, cvm_results_picture [0x1F; 0; 2] = Some r) by (eexists; reflexivity). destruct Q as (q & Q), R as (r & R).
  assert (A : rule_at d 2 0x1F 0) by (repeat split; vm_compute; congruence). exists q, r. split; [exact Q|]. split; [exact R|]. split; [exact A|].
  split; [exact (C122_found d 2 0x1F 0 2 q r 0 0 true true B Q A R)|].
  assert (M : In (bits_of 0x1F 6 1) (map (fun r => fst (fst r)) cv_method_codes)) by (vm_compute; tauto). assert (C : In 0 (map (fun r => fst (fst r)) cvm_condition_codes)) by (vm_compute; tauto).
  split; intros K; apply (C122_known d 0x1F 0 2 q r 0 0 true true _ B eq_refl Q R M C) in K; destruct K as (x & (_ & K1 & K2) & _).
  - vm_compute in K2. discriminate K2.
  - vm_compute in K1. discriminate K1.
Qed.
Example C122_objects_example : exists ns, tlv_block [42] OpBer (lit "8E0C0000000A0000000042031F00 9F34031F0002") None ns
  /\ exists n n', occurs n ns /\ occurs n' ns /\ rt_tag (node_tag n) = [0x8E] /\ rt_tag (node_tag n') = [0x9F; 0x34] /\ rt_data (node_tag n') = Normal [0x1F; 0; 2]
  /\ exists ls, sheet [42] false OpBer (lit "8E0C0000000A0000000042031F00 9F34031F0002") ls.
Proof.
  assert (T : text64 p64 (lit "8E0C0000000A0000000042031F00 9F34031F0002")) by (split; vm_compute; reflexivity).
  eexists. split; [constructor; apply (ber_block_iff p64); [assumption|vm_compute; reflexivity]|]. eexists. eexists.
  split; [apply occurs_here; now left|]. split; [apply occurs_here; right; now left|]. split; [reflexivity|]. split; [reflexivity|]. split; [reflexivity|].
  destruct (C73_total p64 [42] false OpBer _ T) as [(ls & H & _)|(er & R & _)]; [now exists ls|]. exfalso.
  assert (L : load_settings plain_env (with_ber (lit "8E0C0000000A0000000042031F00 9F34031F0002")) = Ok (mkSettings TAuto [42] true)) by now apply plain_settings.
  assert (C : SpecMain.chosen (with_ber (lit "8E0C0000000A0000000042031F00 9F34031F0002")) OpBer (lit "8E0C0000000A0000000042031F00 9F34031F0002")).
  { split; [reflexivity|]. exists [OpTvr; OpIad; OpCvr; OpTsi; OpCvmResults; OpCvmList; OpIdentify; OpAuto], [OpIngenico; OpServiceCode]. split; [reflexivity|]. repeat constructor. }
  destruct (C61_refused p64 plain_env _ _ OpBer _ er L C T R) as (_ & _ & Z & _). revert Z. vm_compute. discriminate.
Qed.
