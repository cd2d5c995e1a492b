(** The property of hex data in the notations of other programs. *)

From Coq Require Import ZArith NArith Ascii String List Bool Lia ZifyN ZifyBool ZifyNat Permutation Sorting.
From Verif Require Import Base ModelUtil ModelEnums ModelBitflag ModelSchemas ModelTags ModelTlv ModelValues ModelProcess ModelDisplay
  SpecUtil SpecCodes SpecValues SpecTlv SpecIngenico SpecTags SpecProcess SpecDisplay
  ProofsUtil ProofsGrammar ProofsBer ProofsIngenico ProofsValues PropertiesValues
  PropertiesBer PropertiesIngenico ProofsProcess PropertiesProcess ProofsDisplay ProofsDiagram ProofsScreens ProofsLayout PropertiesDisplay
  SpecPictures ProofsPictures ModelMain SpecMain ProofsMain PropertiesMain ModelCli SpecCli ProofsCli PropertiesCli PropertiesPictures
  SpecReading PropertiesReading SpecSame PropertiesSame SpecJoin PropertiesJoin SpecOptions PropertiesOptions SpecSlips PropertiesSlips SpecNotation.
Import ListNotations.
Local Open Scope N_scope.

(** ** Digits *)

Notation dig s := (filter is_hex_digitb s).
Lemma digitless_iff s : digitless s <-> dig s = [].
Proof.
  unfold digitless. split.
  - intros H. induction s as [|c s IH]; [reflexivity|]. cbn [filter]. destruct (is_hex_digitb c) eqn:E; [exfalso; apply (H c); [now left|now apply is_hex_digitb_spec]|]. apply IH. intros x I. apply H. now right.
  - intros H c I K. assert (X : In c (dig s)) by (apply filter_In; split; [assumption|now apply is_hex_digitb_spec]). rewrite H in X. destruct X.
Qed.
Lemma one_digit_iff s c : one_digit s c <-> dig s = [c].
Proof.
  split.
  - intros (a & b & -> & H & A & B). apply digitless_iff in A, B. rewrite filter_app, A. cbn [filter app]. apply is_hex_digitb_spec in H. now rewrite H, B.
  - induction s as [|x s IH]; [discriminate|]. cbn [filter]. destruct (is_hex_digitb x) eqn:E.
    + intros K. injection K as <- K. exists [], s. split; [reflexivity|]. split; [now apply is_hex_digitb_spec|]. split; [intros y []|now apply digitless_iff].
    + intros K. destruct (IH K) as (a & b & -> & H & A & B). exists (x :: a), b. split; [reflexivity|]. split; [assumption|]. split; [|assumption]. intros y [<-|I]; [|now apply A]. intros Y. apply is_hex_digitb_spec in Y. congruence.
Qed.
Lemma nearly_iff s : nearly_digitless s <-> (List.length (dig s) <= 1)%nat.
Proof.
  split.
  - intros [H|(a & c & b & -> & A & B)]; [apply digitless_iff in H; rewrite H; cbn; lia|]. apply digitless_iff in A, B. rewrite filter_app, A. cbn [filter app]. destruct (is_hex_digitb c); rewrite B; cbn; lia.
  - intros H. destruct (dig s) as [|c [|c' l]] eqn:E; [left; now apply digitless_iff| |cbn in H; lia]. apply one_digit_iff in E. destruct E as (a & b & E & _ & A & B). right. exists a, c, b. auto.
Qed.
Lemma byte_digits b : b < 256 -> dig (byte_text b) = byte_text b.
Proof. intros H. now apply digits_byte_text. Qed.
Lemma byte_value b l : b < 256 -> bytes_of_digits (byte_text b ++ l) = b :: bytes_of_digits l.
Proof.
  intros H. unfold byte_text. cbn [app bytes_of_digits]. rewrite (proj2 (hex_char_digit (b / 16) ltac:(apply N.div_lt_upper_bound; lia))), (proj2 (hex_char_digit (b mod 16) ltac:(apply N.mod_lt; discriminate))). f_equal. rewrite <- N.div_mod by discriminate. reflexivity.
Qed.
Lemma front_empty X Y : Forall (fun c => is_hex_digitb c = true) X -> (forall b, b < 256 -> exists t, bytes_of_digits (X ++ byte_text b ++ Y) = b :: t) -> X = [].
Proof.
  intros D H. destruct X as [|c [|c' X]]; [reflexivity| |]; exfalso; destruct (H 0 ltac:(lia)) as (t & E), (H 255 ltac:(lia)) as (t' & E').
  - change (byte_text 0) with [48; 48] in E. change (byte_text 255) with [70; 70] in E'. cbn [app bytes_of_digits] in E, E'. injection E as E _. injection E' as E' _. change (hex_value 48) with 0 in E. change (hex_value 70) with 15 in E'. lia.
  - cbn [app bytes_of_digits] in E, E'. injection E as E _. injection E' as E' _. lia.
Qed.
Lemma digits_all s : Forall (fun c => is_hex_digitb c = true) (dig s).
Proof. apply Forall_forall. intros c I. now apply filter_In in I. Qed.
Lemma items_digits f d : dig (n_before f) = [] -> dig (n_after f) = [] -> dig (n_between f) = [] -> bytes_ok d -> dig (items f d) = hex_text d.
Proof.
  intros B A T. induction 1 as [|b d Hb Hd IH]; [reflexivity|]. destruct d as [|c d].
  - cbn [items]. rewrite !filter_app, B, A, byte_digits, app_nil_r by exact Hb. reflexivity.
  - change (items f (b :: c :: d)) with (n_before f ++ byte_text b ++ n_after f ++ n_between f ++ items f (c :: d)). rewrite !filter_app, B, A, T, byte_digits, IH by exact Hb. reflexivity.
Qed.
Lemma hex_even d : Nat.even (List.length (hex_text d)) = true.
Proof. unfold hex_text. induction d as [|b d IH]; [reflexivity|exact IH]. Qed.
Lemma few_digits l : (List.length l <= 1)%nat <-> bytes_of_digits l = [].
Proof. destruct l as [|a [|b l]]; cbn [List.length bytes_of_digits]; split; intros; try reflexivity; try lia; discriminate. Qed.

(** C115: the notations of other programs. *)
(* A notation is read correctly, for all data, exactly if nothing around the bytes holds a hex digit; a single one may stand at the very end. *)
Theorem C115_exact : forall f, (forall d, bytes_ok d -> hex_bytes (written f d) = d) <->
  digitless (n_open f) /\ digitless (n_before f) /\ digitless (n_after f) /\ digitless (n_between f) /\ nearly_digitless (n_close f).
Proof.
  intros f. rewrite !digitless_iff, nearly_iff. split.
  - intros H. unfold hex_bytes, written in H.
    assert (X : dig (n_open f) ++ dig (n_before f) = []).
    { apply front_empty with (dig (n_after f) ++ dig (n_close f)); [apply Forall_app; split; apply digits_all|]. intros b L. exists []. specialize (H [b] ltac:(now repeat constructor)). cbn [items] in H. rewrite !filter_app, byte_digits in H by exact L. now rewrite <- !app_assoc in *. }
    apply app_eq_nil in X. destruct X as [Xo Xb].
    assert (Y : dig (n_after f) ++ dig (n_between f) = []).
    { apply front_empty with (dig (n_after f) ++ dig (n_close f)); [apply Forall_app; split; apply digits_all|]. intros b L. exists []. specialize (H [0; b] ltac:(constructor; [reflexivity|constructor; [exact L|constructor]])). cbn [items] in H. rewrite !filter_app, Xo, Xb, (byte_digits 0), (byte_digits b) in H by (exact L || reflexivity). cbn [app] in H.
      rewrite <- !app_assoc, byte_value in H by reflexivity. injection H as H. rewrite <- !app_assoc. cbn [app] in H. exact H. }
    apply app_eq_nil in Y. destruct Y as [Ya Yt]. repeat (split; [assumption|]).
    specialize (H [0] ltac:(now repeat constructor)). cbn [items] in H. rewrite !filter_app, Xo, Xb, Ya, (byte_digits 0) in H by reflexivity. cbn [app] in H. rewrite app_nil_r, byte_value in H by reflexivity. injection H as H. now apply few_digits.
  - intros (O & B & A & T & C) d D. unfold hex_bytes, written. rewrite !filter_app, O, (items_digits f d B A T D). cbn [app]. rewrite digits_app by apply hex_even. apply few_digits in C. now rewrite C, app_nil_r, bytes_of_hex_text.
Qed.
(* With 0x before every byte, every value of a fixed size is refused. *)
Lemma c_digits d : bytes_ok d -> dig (written c_array d) = flat_map (fun b => 48 :: byte_text b) d.
Proof.
  intros D. unfold written. rewrite !filter_app. change (dig (n_open c_array)) with (@nil N). change (dig (n_close c_array)) with (@nil N). rewrite app_nil_r. cbn [app]. induction D as [|b d Hb Hd IH]; [reflexivity|]. destruct d as [|c d].
  - cbn [items]. rewrite !filter_app, byte_digits by exact Hb. reflexivity.
  - change (items c_array (b :: c :: d)) with (lit "0x" ++ byte_text b ++ [] ++ lit ", " ++ items c_array (c :: d)). rewrite !filter_app, byte_digits, IH by exact Hb. reflexivity.
Qed.
Lemma c_count d : bytes_ok d -> digits (written c_array d) = 3 * len d.
Proof. intros D. unfold digits. rewrite (c_digits d D). clear D. induction d as [|b d IH]; [reflexivity|]. cbn [flat_map byte_text app]. rewrite !len_cons, IH. lia. Qed.
Theorem C115_array : forall masks op n d, In (op, n) sizes -> bytes_ok d -> len d = n -> refused masks op (written c_array d) (wrong_size op n (3 * n / 2)).
Proof.
  intros masks op n d I D L. rewrite <- L, <- (c_count d D), <- digits_bytes. apply misfit; [now rewrite L|]. rewrite digits_bytes, (c_count d D), L. clear - I. unfold sizes in I. cbn [In] in I. repeat (destruct I as [I|I]; [injection I as _ <-; vm_compute; discriminate|]). destruct I.
Qed.
(* A CVM list is accepted so exactly if the number of digits happens to fit, and misread. *)
Theorem C115_array_list : forall masks sort d, bytes_ok d -> 8 <= len d -> len d mod 2 = 0 ->
  if len d mod 4 =? 0 then exists ls, sheet masks sort OpCvmList (written c_array d) ls
  else refused masks OpCvmList (written c_array d) ByteCountNotDivisibleIntoComponents.
Proof.
  intros masks sort d D L E. assert (W : len (hex_bytes (written c_array d)) = 3 * len d / 2) by (rewrite digits_bytes, c_count by exact D; reflexivity).
  destruct (N.eqb_spec (len d mod 4) 0) as [M|M].
  - assert (exists q', cvm_list_picture (hex_bytes (written c_array d)) = Some q') as [q' Q'].
    { unfold cvm_list_picture. rewrite W. replace ((3 * len d / 2) mod 2 =? 0) with true by (Z.div_mod_to_equations; lia). replace (8 <=? 3 * len d / 2) with true by (Z.div_mod_to_equations; lia). cbn [andb]. eauto. }
    exists (q' 0 true). apply (sheet_value _ _ OpCvmList _ cvm_list_picture); [unfold byte_operations; cbn [In]; auto 10|exact Q'].
  - constructor. apply rejected_8E_odd; rewrite W; Z.div_mod_to_equations; lia.
Qed.
(* One digit in front, as in 0x before the whole value: everything is moved by half a byte. *)
Lemma front_value c l : Forall (fun x => is_hex_digitb x = true) (c :: l) -> Nat.even (List.length l) = true ->
  be_value (bytes_of_digits (c :: l)) = (hex_value c * 16 ^ len l + be_value (bytes_of_digits l)) / 16.
Proof.
  intros D E. rewrite <- (hex_number_even l E).
  assert (A : hex_number (c :: l) = hex_value c * 16 ^ len l + hex_number l).
  { change (c :: l) with ([c] ++ l). rewrite hex_number_app, fold_hex_be, (hex_number_even l E) by exact E. rewrite (even_digits_len l E), N.pow_mul_r. change (16 ^ 2) with 256. unfold hex_number, len. cbn [fold_left]. lia. }
  rewrite <- A. destruct (rev l) as [|x r] eqn:R.
  - assert (l = []) by (apply (f_equal (@rev N)) in R; now rewrite rev_involutive in R). subst l. cbn [bytes_of_digits be_value]. unfold hex_number. cbn [fold_left]. inversion D as [|a b D1 _]; subst. pose proof (hex_value_lt c D1). rewrite N.div_small by lia. reflexivity.
  - assert (Z : l = rev r ++ [x]) by (apply (f_equal (@rev N)) in R; rewrite rev_involutive in R; exact R). rewrite Z, app_comm_cons.
    assert (Ev : Nat.even (List.length (c :: rev r)) = true) by (rewrite Z, app_length in E; cbn [List.length] in *; rewrite Nat.add_1_r in E; exact E).
    rewrite bytes_of_digits_odd, hex_number_app by exact Ev. cbn [fold_left]. rewrite (hex_number_even _ Ev).
    assert (X : is_hex_digitb x = true) by (rewrite Forall_forall in D; apply D; right; rewrite Z; apply in_app_iff; right; now left). apply hex_value_lt in X. apply (N.div_unique _ 16 _ (hex_value x)); lia.
Qed.
Lemma front_same : forall n c l, (List.length l <= n)%nat -> Forall (fun x => is_hex_digitb x = true) (c :: l) -> Nat.even (List.length l) = true ->
  (bytes_of_digits (c :: l) = bytes_of_digits l <-> Forall (fun x => hex_value x = hex_value c) l).
Proof.
  induction n as [|n IH]; intros c [|a [|b l]] Ln D E; cbn [List.length] in Ln; try lia; try discriminate E; try (split; [constructor|reflexivity]).
  cbn [bytes_of_digits]. inversion D as [|x y D1 D2]; subst. inversion D2 as [|x y D3 D4]; subst. inversion D4 as [|x y D5 D6]; subst.
  pose proof (hex_value_lt _ D1). pose proof (hex_value_lt _ D3). pose proof (hex_value_lt _ D5).
  specialize (IH b l ltac:(lia) D4 E). split.
  - intros K. pose proof (f_equal (hd 0) K) as K1. pose proof (f_equal (@tl N) K) as K2. cbn [hd tl] in K1, K2. clear K. assert (X : hex_value a = hex_value c /\ hex_value b = hex_value c) by lia. destruct X as [X Y]. constructor; [exact X|]. constructor; [exact Y|]. rewrite <- Y. now apply IH.
  - intros K. inversion K as [|x y K1 K2]; subst. inversion K2 as [|x y K3 K4]; subst. f_equal; [lia|]. apply IH. now rewrite K3.
Qed.
Theorem C115_front : forall w c s, one_digit w c -> paired s ->
  len (hex_bytes (w ++ s)) = len (hex_bytes s)
  /\ be_value (hex_bytes (w ++ s)) = (hex_value c * 256 ^ len (hex_bytes s) + be_value (hex_bytes s)) / 16
  /\ (hex_bytes (w ++ s) = hex_bytes s <-> forall x, In x s -> is_hex_digit x -> hex_value x = hex_value c).
Proof.
  intros w c s W P. apply one_digit_iff in W. unfold paired in P. unfold hex_bytes. rewrite filter_app, W. cbn [app].
  assert (D : Forall (fun x => is_hex_digitb x = true) (c :: dig s)).
  { constructor; [|apply digits_all]. assert (X : In c (dig w)) by (rewrite W; now left). now apply filter_In in X. }
  split; [|split].
  - unfold len. rewrite !bytes_of_digits_length. cbn [List.length]. apply Nat.even_spec in P. destruct P as [k ->]. f_equal. rewrite Nat.div2_double. now rewrite Nat.div2_succ_double.
  - rewrite (front_value c (dig s) D P). rewrite (even_digits_len (dig s) P). now rewrite N.pow_mul_r.
  - rewrite (front_same _ c (dig s) (le_n _) D P). split.
    + intros F x I H. rewrite Forall_forall in F. apply F. apply filter_In. split; [assumption|now apply is_hex_digitb_spec].
    + intros H. apply Forall_forall. intros x I. apply filter_In in I. destruct I as [I X]. apply H; [assumption|now apply is_hex_digitb_spec].
Qed.
(* A TVR, CVR or TSI is shown nevertheless, issuer application data never. *)
Theorem C115_front_shown : forall p masks sort op w c s ls, text64 p (w ++ s) -> In op lenient -> one_digit w c -> paired s -> sheet masks sort op s ls ->
  exists ls', sheet masks sort op (w ++ s) ls'.
Proof.
  intros p masks sort op w c s ls T I W P H. apply (lenient_sheet p); [assumption|assumption|]. rewrite (proj1 (C115_front w c s W P)). apply (sheet_size masks sort op s ls); [|assumption]. cbn [lenient sized In] in *. tauto.
Qed.
Theorem C115_front_iad : forall masks sort w c s ls, one_digit w c -> sheet masks sort OpIad s ls ->
  refused masks OpIad (w ++ s) NonCcdCompliant.
Proof.
  intros masks sort w c s ls W S. apply one_digit_iff in W. destruct (value_sheet masks sort OpIad s ls ltac:(left; unfold takes_value; cbn [In]; auto) S) as (f & q & J & E & _).
  assert (F : f = iad_picture) by (unfold byte_operations in J; cbn [In] in J; repeat (destruct J as [J|J]; [first [discriminate J|injection J as <-; reflexivity]|]); destruct J). subst f.
  unfold iad_picture in E. cbv zeta in E. destruct ((len (hex_bytes s) =? 32) && (nth 0 (hex_bytes s) 0 =? 15) && _ && _) eqn:G; [|discriminate E]. clear E.
  apply andb_prop in G. destruct G as [G _]. apply andb_prop in G. destruct G as [G _]. apply andb_prop in G. destruct G as [_ G]. apply N.eqb_eq in G.
  constructor. intros (cci & dki & cvr & cnt & rest & (Z & _) & _). revert G Z. unfold hex_bytes. rewrite filter_app, W. destruct (dig s) as [|a [|b l]] eqn:Ds; [discriminate|discriminate|]. cbn [app bytes_of_digits nth]. intros G Z. apply (f_equal (hd 0)) in Z. cbn [hd] in Z.
  assert (A : is_hex_digitb a = true /\ is_hex_digitb b = true) by (split; [assert (I : In a (dig s)) by (rewrite Ds; now left)|assert (I : In b (dig s)) by (rewrite Ds; right; now left)]; now apply filter_In in I).
  destruct A as [A B]. apply hex_value_lt in A, B. assert (hex_value a = 0) by lia. lia.
Qed.
(* TLV data with 0x in front, of everything or of each byte: the first object is never a template and has one of the tags 00 to 0F. *)
Theorem C115_first : forall masks s x l n ns, dig s = 48 :: x :: l -> ber_block masks s (n :: ns) ->
  exists d, n = RawNode (mkRawTag [hex_value x] TagClass_Universal Primitive d) [].
Proof.
  intros masks s x l n ns D (objs & O & Tr). unfold hex_bytes in O. rewrite D in O. cbn [bytes_of_digits] in O. change (hex_value 48) with 0 in O. rewrite N.mul_0_r, N.add_0_l in O.
  assert (X : hex_value x < 16) by (apply hex_value_lt; assert (I : In x (dig s)) by (rewrite D; right; now left); now apply filter_In in I).
  inversion Tr as [|o n' os ns' T Ts]; subst. inversion O as [|bytes t v mid os' rest Ob Obs]; subst. inversion Ob as [t' l' v' r' Tg Ln Lf]; subst.
  assert (Et : t = [hex_value x]).
  { inversion Tg as [b B|b more last B]; subst; cbn [app] in *.
    - congruence.
    - exfalso. assert (b = hex_value x) by congruence. subst b. rewrite N.mod_small in B by lia. lia. }
  subst t. assert (P : type_of (first_byte [hex_value x]) = Primitive) by (unfold type_of, first_byte; cbn [hd]; rewrite N.div_small by lia; reflexivity).
  assert (C : class_of (first_byte [hex_value x]) = TagClass_Universal) by (unfold class_of, first_byte; cbn [hd]; rewrite N.div_small by lia; reflexivity).
  inversion T as [t0 v0 d0 R K|t0 v0 objs0 ch K]; subst; [|congruence]. rewrite P, C. eauto.
Qed.

(* Programs and labels: colons, escapes and a label TVR are harmless; a C array, and the labels CVR and Tag, are not. *)
Example C115_harmless : (forall d, bytes_ok d -> hex_bytes (written colons d) = d) /\ (forall d, bytes_ok d -> hex_bytes (written escaped d) = d)
  /\ digitless (lit "TVR: ") /\ one_digit (lit "0x") 48 /\ one_digit (lit "CVR: ") 67 /\ one_digit (lit "Tag ") 97.
Proof.
  split; [|split; [|split; [|split; [|split]]]].
  1,2: apply C115_exact; rewrite !digitless_iff, nearly_iff; repeat split; cbn; lia.
  - now apply digitless_iff.
  - now apply one_digit_iff.
  - now apply one_digit_iff.
  - now apply one_digit_iff.
Qed.
Theorem C115_array_refuted : exists d, bytes_ok d /\ hex_bytes (written c_array d) <> d.
Proof. exists [0x95]. split; [repeat constructor|]. vm_compute. intros K. discriminate K. Qed.
(* A label with the letter C: another CVR is shown. *)
Example C115_front_met : exists ls ls', text64 p64 (lit "CVR: 0F00000000") /\ paired (lit "0F00000000") /\ sheet [42] true OpCvr (lit "0F00000000") ls /\ sheet [42] true OpCvr (lit "CVR: 0F00000000") ls'
  /\ hex_bytes (lit "CVR: 0F00000000") = [0xC0; 0xF0; 0; 0; 0].
Proof.
  assert (T : forall s, s = lit "CVR: 0F00000000" \/ s = lit "0F00000000" -> text64 p64 s) by (intros s [-> | ->]; split; vm_compute; reflexivity).
  assert (I : In OpCvr lenient) by (cbn; tauto).
  assert (Z : forall s, s = lit "CVR: 0F00000000" \/ s = lit "0F00000000" -> size OpCvr (len (hex_bytes s))) by (intros s [-> | ->]; vm_compute; reflexivity).
  destruct (lenient_sheet p64 [42] true OpCvr (lit "0F00000000") (T _ (or_intror eq_refl)) I (Z _ (or_intror eq_refl))) as (ls & S1).
  destruct (lenient_sheet p64 [42] true OpCvr (lit "CVR: 0F00000000") (T _ (or_introl eq_refl)) I (Z _ (or_introl eq_refl))) as (ls' & S2).
  exists ls, ls'. split; [now apply T; left|]. split; [reflexivity|]. split; [exact S1|]. split; [exact S2|]. vm_compute. reflexivity.
Qed.
(* An application label of two bytes as an array: three objects without a value are shown, of the tags 05, 02 and 00. *)
Example C115_first_met : exists n n' n'', ber_block [42] (written c_array [0x50; 0x02; 0; 0]) [n; n'; n''] /\ filter is_hex_digitb (written c_array [0x50; 0x02; 0; 0]) = 48 :: 53 :: lit "0002000000"
  /\ n = RawNode (mkRawTag [5] TagClass_Universal Primitive (Normal [])) [].
Proof.
  assert (T : text64 p64 (written c_array [0x50; 0x02; 0; 0])) by (split; vm_compute; reflexivity).
  do 3 eexists. split; [apply (ber_block_iff p64 _ _ _ T); vm_compute; reflexivity|]. split; [vm_compute; reflexivity|reflexivity].
Qed.
