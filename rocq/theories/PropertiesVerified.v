(** The property of cardholder verification in words. *)

From Coq Require Import ZArith NArith Ascii String List Bool Lia ZifyN ZifyBool ZifyNat Permutation Sorting.
From Verif Require Import Base ModelUtil ModelEnums ModelBitflag ModelSchemas ModelTags ModelTlv ModelValues ModelProcess ModelDisplay
  SpecUtil SpecCodes SpecValues SpecTlv SpecIngenico SpecTags SpecProcess SpecDisplay
  ProofsUtil ProofsGrammar ProofsBer ProofsIngenico ProofsValues PropertiesValues
  PropertiesBer PropertiesIngenico ProofsProcess PropertiesProcess ProofsDisplay ProofsDiagram ProofsScreens ProofsLayout PropertiesDisplay
  SpecPictures ProofsPictures ModelMain SpecMain ProofsMain PropertiesMain ModelCli SpecCli ProofsCli PropertiesCli PropertiesPictures
  SpecReading PropertiesReading ModelTerminal SpecTerminal ProofsTerminal PropertiesTerminal SpecTells ProofsTells PropertiesTells
  SpecSame PropertiesSame SpecJoin PropertiesJoin PropertiesScope PropertiesColumns SpecAlarms PropertiesAlarms PropertiesCut SpecCopied PropertiesCopied
  SpecReserved PropertiesReserved SpecMatch PropertiesMatch SpecExplain PropertiesExplain SpecRules PropertiesRules PropertiesRuns PropertiesIssuer
  SpecStatements PropertiesStatements SpecVerified.
Import ListNotations.
Local Open Scope N_scope.

(** ** Words *)

Definition plain_table {A} (t : list (N * A * string)) : list (N * string) := map (fun x => (fst (fst x), snd x)) t.
Lemma worded_code {A} (t : list (N * A * string)) u v : worded (plain_table t) u v = match find_code t v with Some (_, s) => lit s | None => lit u end.
Proof. induction t as [|[[k a] s] t IH]; cbn [plain_table map worded find_code fst snd]; [reflexivity|]. destruct (k =? v); [reflexivity|exact IH]. Qed.
Lemma method_table : plain_table cv_method_codes = method_words.
Proof. vm_compute. reflexivity. Qed.
Lemma condition_table : plain_table cvm_condition_codes = condition_words.
Proof. vm_compute. reflexivity. Qed.
Lemma low_six x : bits_of x 6 1 = N.land x 0x3F.
Proof. unfold bits_of. change (2 ^ (1 - 1)) with 1. rewrite N.div_1_r. change 0x3F with (N.ones 6). now rewrite N.land_ones. Qed.
Lemma whole_byte x : x < 256 -> bits_of x 8 1 = x.
Proof. intros L. unfold bits_of. change (2 ^ (1 - 1)) with 1. rewrite N.div_1_r. now apply N.mod_small. Qed.
Lemma bit_seven x : (bits_of x 7 7 =? 1) = continues x.
Proof. unfold bits_of, continues. rewrite N.testbit_eqb. reflexivity. Qed.
Lemma method_worded x : method_text (bits_of x 6 1) = method_said x.
Proof. unfold method_text, method_said. rewrite <- method_table, worded_code, low_six. reflexivity. Qed.
Lemma condition_worded y : y < 256 -> condition_text (bits_of y 8 1) = condition_said y.
Proof. intros L. unfold condition_text, condition_said. rewrite <- condition_table, worded_code, (whole_byte y L). reflexivity. Qed.

(** ** Results *)

Lemma rule_ranges a b : all_shown 2 cv_rule_bits [a; b] = (if continues a then [mkRange 14 1 (lit "Apply succeeding CV Rule if this CVM is unsuccessful") SevNormal] else [])
  ++ [mkRange 13 6 (lit "Method: " ++ method_text (bits_of a 6 1)) SevNormal; mkRange 7 8 (lit "Condition: " ++ condition_text (bits_of b 8 1)) SevNormal].
Proof.
  unfold all_shown, cv_rule_bits, field_shown, field_bits, flag, group. cbn [flat_map e_kind e_byte e_hi e_lo e_label e_sev]. change (N.to_nat (1 - 1)) with 0%nat. change (N.to_nat (2 - 1)) with 1%nat. cbn [nth].
  cbn [decode]. unfold optional, method_text, condition_text. rewrite bit_seven. destruct (continues a), (find_code cv_method_codes _) as [[? ?]|], (find_code cvm_condition_codes _) as [[? ?]|]; reflexivity.
Qed.
(** C130: cardholder verification in words. *)
(* Three bytes have a picture exactly if the third is a result; it says what method, condition and result are. *)
Theorem C130_results : forall a b c, b < 256 -> c <= 2 -> exists q, picture_of [0x9F; 0x34] [a; b; c] = Some q /\ forall i col w, stated (q i true) col w <-> results_said a b c col w.
Proof.
  intros a b c Lb Lc. change (picture_of [0x9F; 0x34] [a; b; c]) with (cvm_results_picture [a; b; c]). cbn [cvm_results_picture].
  assert (R : exists r, find_code cvm_result_codes c = Some r /\ forall col x, In (c, col, x) result_words <-> shade true (if c =? 1 then SevError else SevNormal) = col /\ snd r = x).
  { assert (C : c = 0 \/ c = 1 \/ c = 2) by lia. unfold result_words. cbn [In]. destruct C as [-> |[-> | ->]]; eexists; (split; [reflexivity|]); intros col x; cbn [snd]; (split; [intros H; repeat (destruct H as [H|H]; [try discriminate H|]); [injection H as <- <-; split; reflexivity|contradiction]|]); intros [<- <-]; cbn; tauto. }
  destruct R as (r & R & S). rewrite R. cbn [option_map]. eexists. split; [reflexivity|]. intros i col w. cbv beta. rewrite rule_ranges, ranges_stated.
  - rewrite method_worded, (condition_worded b Lb). unfold results_said. split.
    + intros (x & I & C & W). apply in_app_iff in I. destruct I as [I|[<-|[]]].
      * apply in_map_iff in I. destruct I as (y & <- & I). cbn [r_text r_sev] in C, W. apply in_app_iff in I. destruct I as [I|[<-|[<-|[]]]].
        -- left. destruct (continues a); [|contradiction]. destruct I as [<-|[]]. auto.
        -- right. left. auto.
        -- right. right. left. auto.
      * right. right. right. cbn [r_text r_sev] in C, W. exists (snd r). split; [apply S; auto|now symmetry].
    + intros [(K & -> & ->)|[(-> & ->)|[(-> & ->)|(x & I & ->)]]].
      * rewrite K. eexists. split; [apply in_app_iff; left; apply in_map_iff; eexists; split; [reflexivity|]; apply in_app_iff; left; now left|split; reflexivity].
      * eexists. split; [apply in_app_iff; left; apply in_map_iff; eexists; split; [reflexivity|]; apply in_app_iff; right; now left|split; reflexivity].
      * eexists. split; [apply in_app_iff; left; apply in_map_iff; eexists; split; [reflexivity|]; apply in_app_iff; right; right; now left|split; reflexivity].
      * apply S in I. destruct I as [<- <-]. eexists. split; [apply in_app_iff; right; now left|split; reflexivity].
  - apply Forall_forall. intros x I. apply in_app_iff in I. destruct I as [I|[<-|[]]]; [|reflexivity]. apply in_map_iff in I. destruct I as (y & <- & I). cbn [r_offset]. apply in_app_iff in I. destruct I as [I|[<-|[<-|[]]]]; try reflexivity. destruct (continues a); [|contradiction]. destruct I as [<-|[]]. reflexivity.
Qed.
Lemma byte_sheet masks sort op s ls g : In (op, g) byte_operations -> op = OpCvmList \/ op = OpCvmResults -> sheet masks sort op s ls -> exists q, g (hex_bytes s) = Some q /\ ls = q 0 true.
Proof.
  intros I O H. inversion H as [f q J X|n Y D N|f ns ns' B N A]; subst; [|destruct O; discriminate|destruct O as [-> | ->]; inversion B].
  exists q. split; [|reflexivity]. unfold byte_operations in I, J. cbn [In] in I, J. destruct O as [-> | ->]; repeat (destruct I as [I|I]; [try discriminate I; injection I as <-|]); repeat (destruct J as [J|J]; [try discriminate J; injection J as <-|]); try contradiction; assumption.
Qed.
Lemma second_small a b c : bytes_ok [a; b; c] -> b < 256.
Proof. intros B. apply bytes_ok_cons in B. destruct B as [_ B]. now apply bytes_ok_cons in B. Qed.
(* The option --cvm-results accepts three bytes of which the third is at most 2, and says just that about them. *)
Theorem C130_option : forall masks sort s, (forall ls, sheet masks sort OpCvmResults s ls -> exists a b c, hex_bytes s = [a; b; c] /\ c <= 2 /\ forall col w, stated ls col w <-> results_said a b c col w)
  /\ (forall a b c, hex_bytes s = [a; b; c] -> c <= 2 -> exists ls, sheet masks sort OpCvmResults s ls).
Proof.
  intros masks sort s. assert (J : In (OpCvmResults, cvm_results_picture) byte_operations) by (unfold byte_operations; cbn [In]; tauto). split.
  - intros ls H. destruct (byte_sheet _ _ _ _ _ _ J (or_intror eq_refl) H) as (q & Q & ->). pose proof (hex_bytes_ok s) as B. destruct (hex_bytes s) as [|a [|b [|c [|]]]]; try discriminate Q. exists a, b, c. split; [reflexivity|].
    assert (Lc : c <= 2). { destruct (N.le_gt_cases c 2) as [L|L]; [exact L|]. exfalso. cbn [cvm_results_picture] in Q. unfold cvm_result_codes in Q. cbn [find_code] in Q. destruct (N.eqb_spec 0 c); [lia|]. destruct (N.eqb_spec 1 c); [lia|]. destruct (N.eqb_spec 2 c); [lia|]. discriminate Q. }
    split; [exact Lc|]. destruct (C130_results a b c (second_small _ _ _ B) Lc) as (q' & Q' & S). change (picture_of [0x9F; 0x34] [a; b; c]) with (cvm_results_picture [a; b; c]) in Q'. rewrite Q in Q'. injection Q' as <-. apply S.
  - intros a b c E Lc. pose proof (hex_bytes_ok s) as B. rewrite E in B. destruct (C130_results a b c (second_small _ _ _ B) Lc) as (q & Q & _). exists (q 0 true). apply (sheet_value _ _ OpCvmResults s cvm_results_picture q J). rewrite E. exact Q.
Qed.

(** ** Lists *)

Lemma rules_worded d pre i : bytes_ok d -> Forall unbold pre -> rules_said d (pre ++ rules_picture i 1 (skipn 8 d)).
Proof.
  intros B F k m c next. split.
  - intros (j & before & after & E). assert (B' : exists before', rules_picture i 1 (skipn 8 d) = before' ++ rule_block j k m c next ++ after).
    { unfold rule_block in *. cbn [app] in *. eapply beyond; [exact F|reflexivity|exact E]. }
    destruct B' as (before' & B'). destruct (rule_found i j k m c next after _ _ _ B') as (x & y & L & X & Y & -> & -> & R). rewrite nth_skip in X, Y.
    assert (A : rule_at d k x y) by (split; [exact L|]; split; [rewrite <- X|rewrite <- Y]; f_equal; lia). exists x, y. split; [exact A|].
    assert (Ly : y < 256) by (destruct A as (_ & _ & A); apply nth_error_In in A; unfold bytes_ok in B; rewrite Forall_forall in B; now apply B).
    destruct (code_texts x y) as [-> ->]. rewrite method_worded, (condition_worded y Ly). split; [reflexivity|]. split; [reflexivity|]. rewrite <- bit_seven. destruct (N.eqb_spec (bits_of x 7 7) 1) as [e|e]; [now apply R|]. destruct next; [exfalso; apply e, R; reflexivity|reflexivity].
  - intros (x & y & A & -> & -> & ->). assert (Ly : y < 256) by (destruct A as (_ & _ & A); apply nth_error_In in A; unfold bytes_ok in B; rewrite Forall_forall in B; now apply B).
    destruct A as (L & X & Y). destruct (rule_there i k x y (skipn 8 d) 1 L) as (before & after & E).
    + rewrite nth_skip, <- X. f_equal. lia.
    + rewrite nth_skip, <- Y. f_equal. lia.
    + exists i, (pre ++ before), after. rewrite E, <- app_assoc. destruct (code_texts x y) as [-> ->]. now rewrite method_worded, (condition_worded y Ly), bit_seven.
Qed.
(* A picture of a list shows exactly its rules, each under its number. *)
Theorem C130_list : forall d q i show, bytes_ok d -> picture_of [0x8E] d = Some q -> rules_said d (q i show).
Proof. intros d q i show B Q. change (picture_of [0x8E] d) with (cvm_list_picture d) in Q. destruct (list_shape d q i show Q) as (pre & -> & F). now apply rules_worded. Qed.
Theorem C130_list_option : forall masks sort s ls, sheet masks sort OpCvmList s ls -> rules_said (hex_bytes s) ls.
Proof.
  intros masks sort s ls H. assert (J : In (OpCvmList, cvm_list_picture) byte_operations) by (unfold byte_operations; cbn [In]; tauto). destruct (byte_sheet _ _ _ _ _ _ J (or_introl eq_refl) H) as (q & Q & ->). apply C130_list; [apply hex_bytes_ok|exact Q].
Qed.

(** ** Objects *)

(* Below the heading of an object stands a block with this property. *)
Definition parsed_as (P : list line -> Prop) (ls : list line) : Prop := exists i before block after, ls = before ++ heading_row i (lit "Parsed:") :: block ++ after /\ P block.
Theorem C130_objects : forall p masks sort op s f ns nd ls, text64 p s -> tlv_block masks op s f ns -> occurs nd ns -> sheet masks sort op s ls ->
  (forall a b c, rt_tag (node_tag nd) = [0x9F; 0x34] -> rt_data (node_tag nd) = Normal [a; b; c] -> parsed_as (fun block => forall col w, stated block col w <-> results_said a b c col w) ls)
  /\ (forall d, rt_tag (node_tag nd) = [0x8E] -> rt_data (node_tag nd) = Normal d -> d <> [] -> parsed_as (rules_said d) ls).
Proof.
  intros p masks sort op s f ns nd ls T B O H.
  assert (Nf : forall e, ~ tag_fails (node_tag nd) e).
  { assert (I : In (node_tag nd) (flat_map preorder ns)) by (apply (occurs_preorder _ _ O); destruct nd; now left). inversion H as [f0 q J E|m X Dn N|f0 ms ns' B' N A]; subst.
    - exfalso. revert B. apply no_block. clear - J. unfold byte_operations in J. cbn [In] in J. cbn [In]. repeat (destruct J as [J|J]; [injection J as <- _; tauto|]). contradiction.
    - exfalso. revert B. apply no_block. cbn [In]. tauto.
    - destruct (tlv_block_det p _ _ _ _ _ _ _ T B B') as [_ <-]. rewrite Forall_forall in N. exact (N _ I). }
  assert (Hb : forall d, rt_data (node_tag nd) = Normal d -> bytes_ok d) by (intros d E; destruct (tag_sound p _ _ _ _ _ _ T B O) as [_ D]; unfold data_ok in D; now rewrite E in D).
  assert (Go : forall (P : list line -> Prop) d q, rt_data (node_tag nd) = Normal d -> d <> [] -> picture_of (rt_tag (node_tag nd)) d = Some q -> (forall i, P (q i true)) -> parsed_as P ls).
  { intros P d q E N Q S. destruct (object_between p masks sort op s f ns nd ls _ T B O H E N) as (i & before & after & El).
    assert (M : meaning_lines (node_tag nd) i true = heading_row i (lit "Parsed:") :: q (i + 1) true) by (unfold meaning_lines; rewrite E; now rewrite Q).
    rewrite M in El. exists i, (before ++ tag_row i (node_tag nd) (tag_title (node_tag nd)) :: heading_row i (lit "Raw:") :: wide_dump (i + 1) d), (q (i + 1) true), after. split; [rewrite El; now rewrite <- app_assoc|]. apply S. }
  split.
  - intros a b c Et Ed. pose proof (Hb _ Ed) as Bk. assert (Lc : c <= 2).
    { destruct (N.le_gt_cases c 2) as [L|L]; [exact L|]. exfalso. apply (Nf NonCompliant). exists [a; b; c]. split; [exact Ed|]. rewrite Et. now constructor. }
    destruct (C130_results a b c (second_small _ _ _ Bk) Lc) as (q & Q & S). apply (Go _ [a; b; c] q Ed); [discriminate|rewrite Et; exact Q|intros i; apply S].
  - intros d Et Ed N. pose proof (Hb _ Ed) as Bk. assert (Q : exists q, cvm_list_picture d = Some q).
    { unfold cvm_list_picture. destruct (N.leb_spec 8 (len d)) as [L|L]; [destruct (N.eqb_spec (len d mod 2) 0) as [M|M]|].
      - cbn [andb]. eexists. reflexivity.
      - exfalso. apply (Nf ByteCountNotDivisibleIntoComponents). exists d. split; [assumption|]. rewrite Et. apply rejected_8E_odd; [assumption|]. pose proof (N.mod_upper_bound (len d) 2 ltac:(discriminate)). lia.
      - exfalso. apply (Nf (ByteCountIncorrect Gt 8 (len d))). exists d. split; [assumption|]. rewrite Et. now apply rejected_8E_short. }
    destruct Q as (q & Q). apply (Go _ d q Ed N); [rewrite Et; exact Q|]. intros i. now apply C130_list.
Qed.
(* Runs of the program. *)
Theorem C130_program : forall p e m st op s ls, shows p e m st op s ls -> displays (run_main p e m) ls
  /\ (op = OpCvmResults -> exists a b c, hex_bytes s = [a; b; c] /\ c <= 2 /\ forall col w, stated ls col w <-> results_said a b c col w)
  /\ (op = OpCvmList -> rules_said (hex_bytes s) ls)
  /\ (forall f ns nd a b c, tlv_block (set_masking st) op s f ns -> occurs nd ns -> rt_tag (node_tag nd) = [0x9F; 0x34] -> rt_data (node_tag nd) = Normal [a; b; c] -> parsed_as (fun block => forall col w, stated block col w <-> results_said a b c col w) ls)
  /\ (forall f ns nd d, tlv_block (set_masking st) op s f ns -> occurs nd ns -> rt_tag (node_tag nd) = [0x8E] -> rt_data (node_tag nd) = Normal d -> d <> [] -> parsed_as (rules_said d) ls).
Proof.
  intros p e m st op s ls W. split; [now apply (shows_displays p e m st op s ls)|]. destruct W as (L & C & T & H & F). split; [|split; [|split]].
  - intros ->. now apply (proj1 (C130_option (set_masking st) (set_sort st) s)).
  - intros ->. now apply (C130_list_option (set_masking st) (set_sort st)).
  - intros f ns nd a b c B O. exact (proj1 (C130_objects p _ _ _ _ _ _ _ _ T B O H) a b c).
  - intros f ns nd d B O. exact (proj2 (C130_objects p _ _ _ _ _ _ _ _ T B O H) d).
Qed.

(** ** Examples *)

(* Results of a failed signature, and a method the program does not know. *)
Example C130_example : exists ls, sheet [42] true OpCvmResults (lit "5E0301") ls /\ stated ls (Some Red) (lit "Result: Failed") /\ stated ls None (lit "Method: Signature (paper)")
  /\ stated ls None (lit "Condition: If terminal supports the CVM") /\ stated ls None (lit "Apply succeeding CV Rule if this CVM is unsuccessful") /\ ~ stated ls None (lit "Result: Failed")
  /\ exists ls', sheet [42] true OpCvmResults (lit "200002") ls' /\ stated ls' None (lit "Method: Unknown (likely issuer or payment system-specific)").
Proof.
  destruct (C130_option [42] true (lit "5E0301")) as [A X]. destruct (X 0x5E 3 1) as (ls & H); [vm_compute; reflexivity|lia|]. exists ls. split; [exact H|]. destruct (A ls H) as (a & b & c & E & _ & S). vm_compute in E. injection E as <- <- <-.
  split; [apply S; right; right; right; exists "Failed"%string; split; [cbn; tauto|reflexivity]|]. split; [apply S; right; left; split; [reflexivity|vm_compute; reflexivity]|]. split; [apply S; right; right; left; split; [reflexivity|vm_compute; reflexivity]|].
  split; [apply S; left; split; [reflexivity|split; reflexivity]|]. split.
  - intros Y. apply S in Y. destruct Y as [(_ & _ & W)|[(_ & W)|[(_ & W)|(x & I & W)]]]; try (vm_compute in W; discriminate W). unfold result_words in I. cbn [In] in I. destruct I as [I|[I|[I|[]]]]; try discriminate I. 
  - destruct (C130_option [42] true (lit "200002")) as [A' X']. destruct (X' 0x20 0 2) as (ls' & H'); [vm_compute; reflexivity|lia|]. exists ls'. split; [exact H'|]. destruct (A' ls' H') as (a & b & c & E & _ & S'). vm_compute in E. injection E as <- <- <-.
    apply S'. right. left. split; [reflexivity|vm_compute; reflexivity].
Qed.
(* A list with two rules as an object, and its rules. *)
Example C130_objects_example : exists ls, shows p64r plain_env (with_ber (lit "8E0C000000000000000041031F00")) (mkSettings TAuto [42] true) OpBer (lit "8E0C000000000000000041031F00") ls
  /\ (exists ns nd, tlv_block [42] OpBer (lit "8E0C000000000000000041031F00") None ns /\ occurs nd ns /\ rt_tag (node_tag nd) = [0x8E] /\ rt_data (node_tag nd) = Normal [0; 0; 0; 0; 0; 0; 0; 0; 0x41; 3; 0x1F; 0])
  /\ (forall block, rules_said [0; 0; 0; 0; 0; 0; 0; 0; 0x41; 3; 0x1F; 0] block -> rule_shown block 1 (lit "Plaintext PIN verification performed by ICC") (lit "If terminal supports the CVM") true
       /\ rule_shown block 2 (lit "No CVM required") (lit "Always") false /\ forall m c next, ~ rule_shown block 3 m c next).
Proof.
  destruct (shown_ber (lit "8E0C000000000000000041031F00")) as (ls & S); [split; vm_compute; reflexivity|vm_compute; reflexivity|]. exists ls. split; [exact S|]. split.
  - eexists. eexists. split; [constructor; apply (ber_block_iff p64r); [split; vm_compute; reflexivity|vm_compute; reflexivity]|]. split; [apply occurs_here; now left|]. split; reflexivity.
  - intros block R. split; [|split].
    + apply R. exists 0x41, 3. split; [split; [lia|split; reflexivity]|]. split; [vm_compute; reflexivity|]. split; vm_compute; reflexivity.
    + apply R. exists 0x1F, 0. split; [split; [lia|split; reflexivity]|]. split; [vm_compute; reflexivity|]. split; vm_compute; reflexivity.
    + intros m c next Y. apply R in Y. destruct Y as (x & y & (_ & X & _) & _). vm_compute in X. discriminate X.
Qed.
