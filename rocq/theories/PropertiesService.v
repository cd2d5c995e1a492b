(** The property of service codes in words. *)

From Coq Require Import ZArith NArith Ascii String List Bool Lia ZifyN ZifyBool ZifyNat Permutation Sorting.
From Verif Require Import Base ModelUtil ModelEnums ModelBitflag ModelSchemas ModelTags ModelTlv ModelValues ModelProcess ModelDisplay
  SpecUtil SpecCodes SpecValues SpecTlv SpecIngenico SpecTags SpecProcess SpecDisplay
  ProofsUtil ProofsGrammar ProofsBer ProofsIngenico ProofsValues PropertiesValues
  PropertiesBer PropertiesIngenico ProofsProcess PropertiesProcess ProofsDisplay ProofsDiagram ProofsScreens ProofsLayout PropertiesDisplay
  SpecPictures ProofsPictures ModelMain SpecMain ProofsMain PropertiesMain ModelCli SpecCli ProofsCli PropertiesCli PropertiesPictures
  SpecReading PropertiesReading SpecSame PropertiesSame SpecMatch SpecExplain PropertiesExplain SpecService.
Import ListNotations.
Local Open Scope N_scope.

(* The five lines below the number. *)
Record drawing : Type := mkDrawing { d_arms : str; d_title : string; d_pad : nat; d_place : position; d_words : list string }.
Definition drawn : list drawing := [
  mkDrawing [0x2502; 0x2502; 0x251C; 32] "Allowed Services:" 9 Third services_words;
  mkDrawing [0x2502; 0x2502; 0x2514; 32] "PIN Requirements:" 9 Third pin_words;
  mkDrawing [0x2502; 0x2514; 0x2500; 32] "Authorisation Processing:" 1 Second authorisation_words;
  mkDrawing [0x251C; 0x2500; 0x2500; 32] "Interchange:" 14 First interchange_words;
  mkDrawing [0x2514; 0x2500; 0x2500; 32] "Technology:" 15 First technology_words].
Definition drawn_text (n : N) (e : drawing) : str := of_digit (d_words e) (digit n (d_place e)).
Lemma service_lines n i show : service_picture n i show = bold_row i (padded 3 n)
  :: map (fun e => row i [(None, d_arms e); (bold, lit (d_title e)); (None, repeat 32 (d_pad e) ++ drawn_text n e)]) drawn.
Proof. reflexivity. Qed.
Definition unblank (s : str) : bool := match s with c :: _ => negb (c =? 32) | [] => false end.
Lemma blanks k k' a b : unblank a = true -> unblank b = true -> repeat 32 k ++ a = repeat 32 k' ++ b -> a = b.
Proof.
  revert k'. induction k as [|k IH]; intros [|k'] A B E; cbn [repeat app] in E; [exact E|..].
  - subst a. discriminate A.
  - subst b. discriminate B.
  - injection E as E. now apply (IH k').
Qed.
Definition digits : list N := [0; 1; 2; 3; 4; 5; 6; 7; 8; 9].
Lemma digit_in n p : n <= 999 -> In (digit n p) digits.
Proof.
  intros L. assert (D : digit n p < 10) by (destruct p; cbn [digit]; [apply N.div_lt_upper_bound; lia|apply N.mod_lt; discriminate|apply N.mod_lt; discriminate]).
  unfold digits. cbn [In]. lia.
Qed.
Lemma words_unblank n e : n <= 999 -> In e drawn -> unblank (drawn_text n e) = true.
Proof.
  intros L I. pose proof (digit_in n (d_place e) L) as D. unfold drawn_text.
  assert (C : forallb (fun e => forallb (fun d => unblank (of_digit (d_words e) d)) digits) drawn = true) by (vm_compute; reflexivity).
  rewrite forallb_forall in C. specialize (C e I). cbn beta in C. rewrite forallb_forall in C. exact (C _ D).
Qed.
Lemma says_drawn n i show t w : says (service_picture n i show) t w <-> exists e k, In e drawn /\ d_title e = t /\ repeat 32 (d_pad e) ++ drawn_text n e = repeat 32 k ++ lit w.
Proof.
  rewrite service_lines. split.
  - intros (j & arms & k & [I|I]); [discriminate I|]. apply in_map_iff in I. destruct I as (e & E & I). exists e, k. split; [exact I|]. unfold row in E. injection E as _ _ E1 E2. split; [now apply lit_inj|exact E2].
  - intros (e & k & I & <- & E). exists i, (d_arms e), k. right. apply in_map_iff. exists e. split; [now rewrite E|exact I].
Qed.
Lemma says_text n i show t w : n <= 999 -> unblank (lit w) = true -> (says (service_picture n i show) t w <-> exists e, In e drawn /\ d_title e = t /\ drawn_text n e = lit w).
Proof.
  intros L U. rewrite says_drawn. split.
  - intros (e & k & I & T & E). exists e. split; [exact I|]. split; [exact T|]. apply (blanks (d_pad e) k); [now apply words_unblank|exact U|exact E].
  - intros (e & I & T & E). exists e, (d_pad e). split; [exact I|]. split; [exact T|]. now rewrite E.
Qed.
Definition position_eqb (a b : position) : bool := match a, b with First, First | Second, Second | Third, Third => true | _, _ => false end.
Lemma position_eqb_eq a b : position_eqb a b = true -> a = b.
Proof. now destruct a, b. Qed.
Definition entry_checked (x : string * string * position * list N) : bool :=
  match x with (t, w, p, ds) =>
    unblank (lit w) && existsb (fun e => String.eqb (d_title e) t) drawn
    && forallb (fun e => negb (String.eqb (d_title e) t) || position_eqb (d_place e) p && forallb (fun d => Bool.eqb (same_bytes (of_digit (d_words e) d) (lit w)) (existsb (N.eqb d) ds)) digits) drawn
  end.

(** ** C124 *)

(* What is said below each title is decided by one digit. *)
Theorem C124_words : forall n i show t w p ds, n <= 999 -> In (t, w, p, ds) service_words -> (says (service_picture n i show) t w <-> In (digit n p) ds).
Proof.
  intros n i show t w p ds L I. assert (C : forallb entry_checked service_words = true) by (vm_compute; reflexivity). rewrite forallb_forall in C. specialize (C _ I). cbn [entry_checked] in C.
  rewrite !andb_true_iff in C. destruct C as ((U & X) & C). rewrite forallb_forall in C. apply existsb_exists in X. destruct X as (e0 & I0 & T0). apply String.eqb_eq in T0.
  rewrite (says_text n i show t w L U).
  assert (K : forall e, In e drawn -> d_title e = t -> (drawn_text n e = lit w <-> In (digit n p) ds)).
  { intros e J T. specialize (C e J). rewrite T, String.eqb_refl in C. cbn [negb orb] in C. apply andb_prop in C. destruct C as [P C]. apply position_eqb_eq in P. rewrite forallb_forall in C. specialize (C (digit n p) (digit_in n p L)). cbn beta in C.
    apply Bool.eqb_prop in C. unfold drawn_text. rewrite P. rewrite <- (same_bytes_eq (of_digit (d_words e) (digit n p)) (lit w)), C, existsb_exists. split.
    - intros (d & D & E). apply N.eqb_eq in E. now rewrite E.
    - intros D. exists (digit n p). split; [exact D|apply N.eqb_refl]. }
  split.
  - intros (e & J & T & E). now apply (K e J T).
  - intros D. exists e0. split; [exact I0|]. split; [exact T0|]. now apply (K e0 I0 T0).
Qed.
(* Every title has exactly one text. *)
Theorem C124_one_text : forall n i show t, n <= 999 -> In t (map (fun x => fst (fst (fst x))) service_words) ->
  exists w, says (service_picture n i show) t w /\ forall w' p ds, In (t, w', p, ds) service_words -> says (service_picture n i show) t w' -> w' = w.
Proof.
  intros n i show t L I.
  assert (C : forallb (fun t => existsb (fun e => String.eqb (d_title e) t) drawn && forallb (fun e => negb (String.eqb (d_title e) t) || forallb (fun d => existsb (fun x => String.eqb (fst (fst (fst x))) t && String.eqb (nth (N.to_nat d) (d_words e) EmptyString) (snd (fst (fst x)))) service_words
    && forallb (fun x => negb (String.eqb (fst (fst (fst x))) t && existsb (N.eqb d) (snd x)) || String.eqb (snd (fst (fst x))) (nth (N.to_nat d) (d_words e) EmptyString)) service_words) digits
    && forallb (fun x => negb (String.eqb (fst (fst (fst x))) t) || position_eqb (snd (fst x)) (d_place e)) service_words) drawn) (map (fun x => fst (fst (fst x))) service_words) = true) by (vm_compute; reflexivity).
  rewrite forallb_forall in C. specialize (C t I). cbn beta in C. apply andb_prop in C. destruct C as [X C]. apply existsb_exists in X. destruct X as (e & J & T). rewrite forallb_forall in C. specialize (C e J). cbn beta in C. rewrite T in C. cbn [negb orb] in C.
  apply String.eqb_eq in T. apply andb_prop in C. destruct C as [C P]. rewrite forallb_forall in C, P. specialize (C (digit n (d_place e)) (digit_in n _ L)). cbn beta in C. apply andb_prop in C. destruct C as [_ C]. rewrite forallb_forall in C.
  exists (nth (N.to_nat (digit n (d_place e))) (d_words e) EmptyString). split.
  - rewrite says_drawn. exists e, (d_pad e). auto.
  - intros w' p ds M S. apply (C124_words n i show t w' p ds L M) in S. specialize (C _ M). specialize (P _ M). cbn [fst snd] in C, P. rewrite String.eqb_refl in C, P. cbn [negb orb andb] in C, P. apply position_eqb_eq in P. subst p.
    destruct (existsb (N.eqb (digit n (d_place e))) ds) eqn:K; [cbn [negb orb] in C; now apply String.eqb_eq in C|]. exfalso. assert (existsb (N.eqb (digit n (d_place e))) ds = true) by (apply existsb_exists; exists (digit n (d_place e)); split; [exact S|apply N.eqb_refl]). congruence.
Qed.
(* The words tell the digits, up to those without a meaning. *)
Lemma told_digit p a b : In a digits -> In b digits -> (forall t w ds, In (t, w, p, ds) service_words -> (In a ds <-> In b ds)) -> same_digit p a b.
Proof.
  intros A B H.
  assert (C : forallb (fun p => forallb (fun a => forallb (fun b => existsb (fun x => position_eqb (snd (fst x)) p && xorb (existsb (N.eqb a) (snd x)) (existsb (N.eqb b) (snd x))) service_words
      || (a =? b) || existsb (N.eqb a) (reserved_digits p) && existsb (N.eqb b) (reserved_digits p)) digits) digits) [First; Second; Third] = true) by (vm_compute; reflexivity).
  rewrite forallb_forall in C. specialize (C p ltac:(destruct p; cbn [In]; tauto)). cbn beta in C. rewrite forallb_forall in C. specialize (C a A). cbn beta in C. rewrite forallb_forall in C. specialize (C b B). cbn beta in C.
  assert (M : forall x l, existsb (N.eqb x) l = true <-> In x l).
  { intros x l. rewrite existsb_exists. split; [intros (y & I & E); apply N.eqb_eq in E; now subst|]. intros I. exists x. split; [exact I|apply N.eqb_refl]. }
  rewrite !orb_true_iff, andb_true_iff, !M, N.eqb_eq in C. destruct C as [[C|C]|C]; [|now left|now right]. exfalso. apply existsb_exists in C. destruct C as ([[[t w] p'] ds] & I & C). cbn [fst snd] in C. apply andb_prop in C. destruct C as [P C].
  apply position_eqb_eq in P. subst p'. specialize (H t w ds I). rewrite <- !M in H. destruct (existsb (N.eqb a) ds), (existsb (N.eqb b) ds); try discriminate C; destruct H as [H1 H2]; [discriminate (H1 eq_refl)|discriminate (H2 eq_refl)].
Qed.
Lemma same_text n n' e : n <= 999 -> n' <= 999 -> In e drawn -> same_digit (d_place e) (digit n (d_place e)) (digit n' (d_place e)) -> drawn_text n e = drawn_text n' e.
Proof.
  intros L L' I [E|[A B]]; unfold drawn_text; [now rewrite E|].
  assert (C : forallb (fun e => forallb (fun a => forallb (fun b => same_bytes (of_digit (d_words e) a) (of_digit (d_words e) b)) (reserved_digits (d_place e))) (reserved_digits (d_place e))) drawn = true) by (vm_compute; reflexivity).
  rewrite forallb_forall in C. specialize (C e I). cbn beta in C. rewrite forallb_forall in C. specialize (C _ A). cbn beta in C. rewrite forallb_forall in C. specialize (C _ B). cbn beta in C. now apply same_bytes_eq in C.
Qed.
Theorem C124_same : forall n n' i i' show show', n <= 999 -> n' <= 999 ->
  (say_same (service_picture n i show) (service_picture n' i' show') <-> forall p, same_digit p (digit n p) (digit n' p)).
Proof.
  intros n n' i i' show show' L L'. split.
  - intros H p. apply told_digit; [now apply digit_in|now apply digit_in|]. intros t w ds I. rewrite <- (C124_words n i show t w p ds L I), <- (C124_words n' i' show' t w p ds L' I). apply H.
  - intros H t w. rewrite !says_drawn. split; intros (e & k & I & T & E); exists e, k; (split; [exact I|]); (split; [exact T|]); rewrite <- E; f_equal; [symmetry|]; apply same_text; auto.
Qed.
(* A reserved digit is announced as such, and only such a digit. *)
Theorem C124_reserved : forall n i show, n <= 999 -> ((exists t, says (service_picture n i show) t "RFU") <-> exists p, In (digit n p) (reserved_digits p)).
Proof.
  intros n i show L. split.
  - intros (t & S). pose proof S as S'. apply (says_text n i show t "RFU"%string L eq_refl) in S'. destruct S' as (e & I & T & E).
    assert (C : exists p ds, In (t, "RFU"%string, p, ds) service_words /\ ds = reserved_digits p).
    { unfold drawn in I. cbn [In] in I. destruct I as [<-|[<-|[<-|[<-|[<-|[]]]]]]; cbn [d_title] in T; subst t.
      - exists Third, [8; 9]. split; [unfold service_words; cbn [In]; tauto|reflexivity].
      - exfalso. unfold drawn_text in E. cbn [d_words d_place] in E. pose proof (digit_in n Third L) as D. revert E D. generalize (digit n Third). intros d E D. unfold digits in D. cbn [In] in D. repeat (destruct D as [<-|D]; [vm_compute in E; discriminate E|]). destruct D.
      - exists Second, [1; 3; 5; 6; 7; 8; 9]. split; [unfold service_words; cbn [In]; tauto|reflexivity].
      - exists First, [0; 3; 4; 8]. split; [unfold service_words; cbn [In]; tauto|reflexivity].
      - exfalso. unfold drawn_text in E. cbn [d_words d_place] in E. pose proof (digit_in n First L) as D. revert E D. generalize (digit n First). intros d E D. unfold digits in D. cbn [In] in D. repeat (destruct D as [<-|D]; [vm_compute in E; discriminate E|]). destruct D. }
    destruct C as (p & ds & M & ->). exists p. now apply (C124_words n i show t "RFU" p _ L M).
  - intros (p & D). assert (C : exists t, In (t, "RFU"%string, p, reserved_digits p) service_words).
    { destruct p; eexists; unfold service_words; cbn [In reserved_digits]; [do 4 right; left|do 10 right; left|do 15 right; left]; reflexivity. }
    destruct C as (t & M). exists t. now apply (C124_words n i show t "RFU" p _ L M).
Qed.
(* Runs of --service-code. *)
Theorem C124_program : forall p e m st s n ls, load_settings e m = Ok st -> SpecMain.chosen m OpServiceCode s -> text64 p s -> denotes_number s n -> n <= 999 ->
  sheet (set_masking st) (set_sort st) OpServiceCode s ls -> displays (run_main p e m) ls
  /\ (forall t w pl ds, In (t, w, pl, ds) service_words -> (says ls t w <-> In (digit n pl) ds)) /\ forall n', n' <= 999 -> (say_same ls (service_picture n' 0 true) <-> forall pl, same_digit pl (digit n pl) (digit n' pl)).
Proof.
  intros p e m st s n ls S C T D L H.
  assert (V : ls = service_picture n 0 true).
  { inversion H as [g q I E|k Oo D' Le|f' ns0 k B' N A]; subst.
    - exfalso. unfold byte_operations in I. cbn [In] in I. repeat (destruct I as [I|I]; [discriminate|]). destruct I.
    - now rewrite (denotes_det s n k D D').
    - inversion B'. }
  split; [apply (C73_shown p e m st OpServiceCode s); try assumption; subst ls; intros _; vm_compute; reflexivity|]. subst ls. split; [intros; now apply C124_words|]. intros n' L'. now apply C124_same.
Qed.
(* Object 5F30 anywhere in TLV data. *)
Theorem C124_objects : forall p masks sort op s f ns nd v ls, text64 p s -> tlv_block masks op s f ns -> occurs nd ns -> rt_tag (node_tag nd) = [0x5F; 0x30] -> rt_data (node_tag nd) = Normal (service_bytes v) -> v <= 999 ->
  sheet masks sort op s ls -> exists i before block after, ls = before ++ heading_row i (lit "Parsed:") :: block ++ after
    /\ (forall t w pl ds, In (t, w, pl, ds) service_words -> (says block t w <-> In (digit v pl) ds)) /\ forall i' show' v', v' <= 999 -> (say_same block (service_picture v' i' show') <-> forall pl, same_digit pl (digit v pl) (digit v' pl)).
Proof.
  intros p masks sort op s f ns nd v ls T B O Et Ed L H.
  assert (D : denotes_number (dec v) v).
  { exists [], [], (dec v), []. rewrite app_nil_r. split; [reflexivity|]. split; [constructor|]. split; [constructor|]. split; [now left|]. destruct (dec_spec v) as (D1 & D2 & D3). split; [|split; [assumption|now symmetry]]. intros E. rewrite E in D3. cbn [List.length] in D3. lia. }
  destruct (C83_service_code p [] true (dec v) v (service_picture v 0 true) masks sort op s f ns nd ls D) as (i & before & after & E); try assumption; [now constructor|].
  exists i, (before ++ SpecSame.object_lines i (node_tag nd)), (service_picture v (i + 1) true), after. split; [|split; [intros; now apply C124_words|intros; now apply C124_same]].
  rewrite E, <- app_assoc. reflexivity.
Qed.
(* Reserved digits are not passed over: a technology is claimed for them, too. *)
Theorem C124_silent_refuted : exists n, n <= 999 /\ In (digit n First) (reserved_digits First) /\ says (service_picture n 0 true) "Technology:" "Magnetic stripe only (MSR)".
Proof.
  exists 301. split; [discriminate|]. split; [vm_compute; tauto|].
  apply (C124_words 301 0 true "Technology:" "Magnetic stripe only (MSR)" First [0; 1; 3; 4; 5; 7; 8; 9]); [discriminate|unfold service_words; cbn [In]; tauto|vm_compute; tauto].
Qed.
Example C124_example : says (service_picture 201 0 true) "Technology:" "Integrated circuit card (ICC)" /\ says (service_picture 201 0 true) "Authorisation Processing:" "Normal" /\ ~ says (service_picture 201 0 true) "PIN Requirements:" "PIN required"
  /\ say_same (service_picture 208 0 true) (service_picture 209 0 true) /\ ~ say_same (service_picture 201 0 true) (service_picture 101 0 true) /\ ~ exists t, says (service_picture 201 0 true) t "RFU".
Proof.
  split; [apply (C124_words 201 0 true "Technology:" "Integrated circuit card (ICC)" First [2; 6]); [discriminate|unfold service_words; cbn [In]; tauto|vm_compute; tauto]|].
  split; [apply (C124_words 201 0 true "Authorisation Processing:" "Normal" Second [0]); [discriminate|unfold service_words; cbn [In]; tauto|vm_compute; tauto]|].
  split; [intros K; apply (C124_words 201 0 true "PIN Requirements:" "PIN required" Third [0; 3; 5]) in K; [vm_compute in K; intuition discriminate|discriminate|unfold service_words; cbn [In]; tauto]|].
  split; [apply C124_same; [discriminate|discriminate|]; intros [| |]; [now left|now left|right; vm_compute; tauto]|].
  split; [intros K; pose proof (proj1 (C124_same 201 101 0 0 true true ltac:(discriminate) ltac:(discriminate)) K First) as K1; clear K; rename K1 into K; destruct K as [K|[K _]]; vm_compute in K; [discriminate K|intuition discriminate]|].
  intros K. apply C124_reserved in K; [|discriminate]. destruct K as ([| |] & K); vm_compute in K; intuition discriminate.
Qed.
