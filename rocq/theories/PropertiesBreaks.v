(** The property of line breaks in pasted data. *)

From Coq Require Import ZArith NArith String List Bool Lia ZifyN ZifyBool ZifyNat.
From Verif Require Import Base ModelUtil ModelEnums ModelBitflag ModelSchemas ModelTags ModelTlv ModelValues ModelProcess ModelDisplay
  SpecUtil SpecCodes SpecValues SpecTlv SpecIngenico SpecTags SpecProcess SpecDisplay
  ProofsUtil ProofsGrammar ProofsBer ProofsIngenico ProofsValues PropertiesValues
  PropertiesBer PropertiesIngenico ProofsProcess PropertiesProcess ProofsDisplay ProofsDiagram ProofsScreens ProofsLayout PropertiesDisplay
  SpecPictures ProofsPictures ModelMain SpecMain ProofsMain PropertiesMain ModelCli SpecCli ProofsCli PropertiesCli PropertiesPictures
  SpecReading PropertiesReading ModelTerminal SpecTerminal ProofsTerminal PropertiesTerminal SpecTells ProofsTells PropertiesTells PropertiesMasking SpecBreaks.
Import ListNotations.
Local Open Scope N_scope.

Lemma blank_facts x : blank x -> is_hex_digitb x = false /\ x <> colon /\ x <> letter_a /\ x <> letter_h /\ x < 128 /\ x <> letter_T.
Proof. intros [<-|[<-|[<-|[<-|[]]]]]; repeat split; try discriminate; reflexivity. Qed.
Lemma hex_no_colon l : Forall is_hex_digit l -> ~ In colon l.
Proof. intros F I. rewrite Forall_forall in F. apply F, is_hex_digitb_spec in I. discriminate I. Qed.

(** ** Hex digits *)

Lemma broken_bytes s s' : broken s s' -> hex_bytes s' = hex_bytes s.
Proof. intros (a & x & b & -> & -> & B). unfold hex_bytes. rewrite !filter_app. cbn [filter]. destruct (blank_facts x B) as (-> & _). reflexivity. Qed.
Theorem C108_hex : forall masks sort op s s', In op hex_operations -> broken s s' ->
  (forall ls, sheet masks sort op s' ls <-> sheet masks sort op s ls) /\ (forall e, refused masks op s' e <-> refused masks op s e).
Proof.
  intros masks sort op s s' I B. apply broken_bytes in B.
  assert (G : forall a b, hex_bytes a = hex_bytes b -> (forall ls, sheet masks sort op a ls -> sheet masks sort op b ls) /\ (forall e, refused masks op a e -> refused masks op b e)).
  { clear s s' B. intros a b E.
    assert (T : forall f ns, tlv_block masks op a f ns -> tlv_block masks op b f ns).
    { intros f ns H. destruct H; cbn [hex_operations In] in I; try (exfalso; repeat (destruct I as [I|I]; [discriminate I|]); exact I). constructor. unfold ber_block in *. now rewrite <- E. }
    split.
    - intros ls H. inversion H as [f q J Q|n K D L|f ns ns' K F O]; subst.
      + apply (sheet_value masks sort op b f q J). now rewrite <- E.
      + exfalso. cbn [hex_operations In] in I. repeat (destruct I as [I|I]; [discriminate I|]). exact I.
      + apply (sheet_block masks sort op b f ns); auto.
    - intros e H. inversion H; subst; cbn [hex_operations In] in I; try (exfalso; repeat (destruct I as [I|I]; [discriminate I|]); exact I);
        rewrite ?E in *; try (constructor; assumption).
      + apply refused_ber_unsupported. unfold ber_too_long in *. now rewrite <- E.
      + apply refused_ber; [intros ns K; apply (H0 ns); unfold ber_block in *; now rewrite E|]. unfold ber_too_long in *. now rewrite <- E.
      + eapply refused_tag; eauto. }
  split; intros z; split; apply G; congruence.
Qed.

(** ** Fields *)

Lemma split_at (A B g f : list N) c : A ++ c :: B = g ++ f -> f <> [] -> (exists A2, A = g ++ A2 /\ f = A2 ++ c :: B) \/ (exists B1, g = A ++ c :: B1 /\ B = B1 ++ f).
Proof.
  revert g. induction A as [|y A IH]; intros g E F.
  - destruct g as [|z g]; cbn [app] in E; [left; exists []; split; [reflexivity|now symmetry]|]. injection E as <- E. right. exists g. split; [reflexivity|exact E].
  - destruct g as [|z g]; cbn [app] in E; [left; exists (y :: A); split; [reflexivity|now symmetry]|]. injection E as <- E.
    destruct (IH g E F) as [(A2 & -> & E2)|(B1 & -> & E2)]; [left; exists A2; now split|right; exists B1; now split].
Qed.
Lemma not_all_hex a x b : blank x -> all_hex (a ++ x :: b) = false.
Proof. intros B. unfold all_hex. rewrite forallb_app. cbn [forallb]. destruct (blank_facts x B) as (-> & _). cbn. apply andb_false_r. Qed.
Lemma not_colon a x b : blank x -> ~ In colon a -> ~ In colon b -> ~ In colon (a ++ x :: b).
Proof. intros B Ha Hb I. apply in_app_iff in I. destruct I as [I|[I|I]]; [contradiction| |contradiction]. apply blank_facts in B. destruct B as (_ & B & _). congruence. Qed.
Lemma all_hex_true l : Forall is_hex_digit l -> all_hex l = true.
Proof. intros F. unfold all_hex. apply forallb_forall. intros c I. apply is_hex_digitb_spec. rewrite Forall_forall in F. auto. Qed.
Lemma inside_data masks n t1 x t2 rest : blank x -> Forall is_hex_digit (t1 ++ t2) -> len (t1 ++ t2) = 2 * n -> t2 <> [] ->
  inext_data masks n letter_h (t1 ++ x :: t2 ++ rest) = Err NonCompliant.
Proof.
  intros B F L Ne. unfold inext_data. change (letter_h =? letter_a) with false. change (letter_h =? letter_h) with true. cbv iota.
  destruct (N.ltb_spec (len (t1 ++ x :: t2 ++ rest)) (2 * n)) as [_|_]; [reflexivity|]. cbv zeta.
  destruct t2 as [|y t2]; [contradiction|]. set (k := N.to_nat (2 * n)).
  assert (Hk : k = (List.length t1 + S (List.length t2))%nat) by (unfold k, len in *; rewrite app_length in L; cbn [List.length] in L; lia).
  assert (E : firstn k (t1 ++ x :: (y :: t2) ++ rest) = t1 ++ x :: firstn (List.length t2) ((y :: t2) ++ rest)).
  { rewrite Hk, firstn_app_2. reflexivity. }
  rewrite E. rewrite (not_all_hex t1 x _ B). destruct (is_masked_u8 _ masks) eqn:M; [|reflexivity]. exfalso.
  apply C21_masked_bytes in M. destruct M as (_ & m & _ & M). apply Forall_app in M. destruct M as [M1 M2]. inversion M2 as [|? ? Mx M3]; subst m. clear M2.
  apply blank_facts in B. destruct B as (B & _). assert (G : forall c, is_hex_digit c -> c = x -> False) by (intros c Hc ->; apply is_hex_digitb_spec in Hc; congruence).
  apply Forall_app in F. destruct F as [F1 F2]. destruct t1 as [|c t1]; [|inversion M1; inversion F1; subst; eauto].
  destruct t2 as [|z t2]; [cbn in Hk; unfold k in Hk; lia|]. cbn [List.length app firstn] in M3. inversion M3; inversion F2; subst. eauto.
Qed.
Lemma inside masks f f1 x f2 rest : hex_field f -> f = f1 ++ f2 -> f1 <> [] -> f2 <> [] -> blank x -> inext masks (f1 ++ x :: f2 ++ rest) = Err NonCompliant.
Proof.
  intros [ty td tag ld n txt Ht Hl L F] E N1 N2 B. destruct f1 as [|c g]; [contradiction|]. cbn [app] in E. injection E as <- E. cbn [app inext].
  destruct Ht as [Htd _]. destruct Hl as (Hld & Hlen & Hn). pose proof (hex_no_colon td Htd) as Ctd. pose proof (hex_no_colon ld Hld) as Cld.
  destruct (split_at td _ g f2 colon E N2) as [(A2 & Etd & ->)|(B1 & -> & E2)].
  - replace (g ++ x :: (A2 ++ colon :: ld ++ colon :: letter_h :: txt) ++ rest) with ((g ++ x :: A2) ++ colon :: (ld ++ colon :: letter_h :: txt) ++ rest) by (repeat (rewrite <- app_assoc; cbn [app]); reflexivity).
    rewrite split_colon_no; [now rewrite (not_all_hex g x A2 B)|]. apply not_colon; [assumption| |]; intros K; apply Ctd; rewrite Etd; apply in_app_iff; auto.
  - replace ((td ++ colon :: B1) ++ x :: f2 ++ rest) with (td ++ colon :: B1 ++ x :: f2 ++ rest) by (rewrite <- !app_assoc; reflexivity).
    rewrite (split_colon_no td _ Ctd), (all_hex_true td Htd). cbn [negb]. cbv zeta. destruct (trim_leading_0_bytes (bytes_of_digits td)) as [|t0 tg]; [reflexivity|].
    destruct (split_at ld _ B1 f2 colon E2 N2) as [(A2 & Eld & ->)|(B2 & -> & E3)].
    + replace (B1 ++ x :: (A2 ++ colon :: letter_h :: txt) ++ rest) with ((B1 ++ x :: A2) ++ colon :: (letter_h :: txt) ++ rest) by (repeat (rewrite <- app_assoc; cbn [app]); reflexivity).
      rewrite split_colon_no; [now rewrite (not_all_hex B1 x A2 B)|]. apply not_colon; [assumption| |]; intros K; apply Cld; rewrite Eld; apply in_app_iff; auto.
    + replace ((ld ++ colon :: B2) ++ x :: f2 ++ rest) with (ld ++ colon :: B2 ++ x :: f2 ++ rest) by (rewrite <- !app_assoc; reflexivity).
      rewrite (split_colon_no ld _ Cld), (all_hex_true ld Hld). cbn [negb].
      assert (L4 : (4 <? len (bytes_of_digits ld)) = false).
      { apply N.ltb_ge. unfold len. rewrite bytes_of_digits_length. pose proof (Nat.div2_odd (List.length ld)). lia. }
      rewrite L4. destruct B2 as [|h t1]; cbn [app].
      * unfold inext_data. apply blank_facts in B. destruct B as (_ & _ & B1 & B2 & _). now rewrite (proj2 (N.eqb_neq _ _) B1), (proj2 (N.eqb_neq _ _) B2).
      * cbn [app] in E3. injection E3 as <- E3. rewrite <- Hn. rewrite (inside_data masks n t1 x f2 rest B); [reflexivity| | |assumption]; now rewrite <- E3.
Qed.
Lemma in_front masks ty x r : blank x -> is_hex_digitb ty = false -> ty <> colon -> inext masks (x :: ty :: r) = Err NonCompliant.
Proof.
  intros B T C. cbn [inext split_colon]. rewrite (proj2 (N.eqb_neq _ _) C). destruct (split_colon r) as [[u w]|]; [|reflexivity]. unfold all_hex. cbn [forallb]. now rewrite T.
Qed.
Lemma alone masks x : inext masks [x] = Err NonCompliant.
Proof. reflexivity. Qed.
Lemma after_prefix masks a es b e : ing_prefix masks a es -> ascii_text (a ++ b) -> parse_text masks b = Err e -> parse_text masks (a ++ b) = Err e.
Proof.
  intros P. induction P as [|f0 e0 sep rest es F0 P IH]; intros Ha E; [exact E|]. rewrite <- app_assoc in *. cbn [app] in *. rewrite (parse_text_field masks f0 e0) by assumption. cbn [tl].
  apply ascii_app in Ha. destruct Ha as [Hf0 Hr]. apply ascii_cons in Hr.
  rewrite IH by tauto. destruct (ing_child_ok masks e0 (fun v Hv => field_data_bytes masks f0 e0 v Hf0 F0 Hv)) as [n ->].
  cbn [bind]. destruct (ie_type e0 =? letter_T); reflexivity.
Qed.
Lemma stops masks s : ascii_text s -> s <> [] -> inext masks s = Err NonCompliant -> parse_text masks s = Err NonCompliant.
Proof. intros Ha Ne E. rewrite parse_text_eq by assumption. now rewrite E. Qed.
Lemma ingenico_noncompliant p masks s : text64 p s -> ingenico_parse p masks s = Err NonCompliant -> refused masks OpIngenico s NonCompliant.
Proof.
  intros T E. apply refused_ingenico.
  - intros ns K. apply (ingenico_block_iff p) in K; [congruence|assumption].
  - intros K. apply (C24_ingenico_unsupported p masks s T) in K. congruence.
Qed.
(* Inside a field, in front of one, or behind the last separator. *)
Theorem C108_fields : forall p masks a es s, text64 p s -> ascii_text s -> ing_prefix masks a es ->
  (exists f1 x f2 rest, s = a ++ f1 ++ x :: f2 ++ rest /\ hex_field (f1 ++ f2) /\ f1 <> [] /\ f2 <> [] /\ blank x)
  \/ (exists x rest, s = a ++ x :: letter_T :: rest /\ blank x)
  \/ (exists x, s = a ++ [x]) ->
  refused masks OpIngenico s NonCompliant.
Proof.
  intros p masks a es s T A P H. apply (ingenico_noncompliant p); [assumption|]. rewrite text64_eq by assumption.
  assert (G : exists b, s = a ++ b /\ b <> [] /\ inext masks b = Err NonCompliant).
  { destruct H as [(f1 & x & f2 & rest & E & F & N1 & N2 & B)|[(x & rest & E & B)|(x & E)]].
    - exists (f1 ++ x :: f2 ++ rest). split; [assumption|]. split; [destruct f1; discriminate|]. now apply (inside masks (f1 ++ f2)).
    - exists (x :: letter_T :: rest). split; [assumption|]. split; [discriminate|]. now apply in_front.
    - exists [x]. split; [assumption|]. split; [discriminate|]. reflexivity. }
  destruct G as (b & -> & Ne & E). apply (after_prefix masks a es); [assumption|assumption|]. apply stops; [now apply ascii_app in A|assumption|assumption].
Qed.

(** ** Automatic detection *)

Definition short_pair (o : list N * list N) : Prop := pair_ok o /\ len (snd o) < 128.
Lemma std_hex_field t v : pair_ok (t, v) -> hex_field (std_field t v).
Proof.
  intros (B & T & Bv & L). cbn [fst snd] in *. unfold std_field.
  apply (hex_field_intro letter_T (hex_text t) t (hex_text (be_bytes (len v))) (len v)).
  - split; [apply Forall_forall; intros c I; apply is_hex_digitb_spec; pose proof (hex_text_digits t B) as K; rewrite Forall_forall in K; auto|]. exists 0%nat. rewrite bytes_of_hex_text by assumption.
    split; [reflexivity|]. now apply ber_tag_plain.
  - destruct (be_bytes_value (len v) L) as (E1 & E2 & E3). split; [now apply all_hex_iff, all_hex_forall, hex_text_digits|]. rewrite hex_text_length, bytes_of_hex_text by assumption. split; [lia|now symmetry].
  - unfold len. rewrite hex_text_length. lia.
  - apply Forall_forall; intros c I; apply is_hex_digitb_spec; pose proof (hex_text_digits v Bv) as K; rewrite Forall_forall in K; auto.
Qed.
Lemma hex_field_field masks f : hex_field f -> exists e, ing_field masks f e.
Proof.
  intros [ty td tag ld n txt Ht Hl L F]. destruct (masked_dec masks txt) as [M|M]; eexists; (econstructor; [exact Ht|exact Hl|]); [apply (ing_data_masked masks n txt L M)|apply (ing_data_hex masks n txt L M F)].
Qed.
Lemma std_starts masks os x : blank x -> inext masks (x :: std_text os) = Err NonCompliant.
Proof. intros B. destruct os as [|[t v] os]; [reflexivity|]. unfold std_text. cbn [flat_map fst snd]. unfold std_field. rewrite <- app_assoc. cbn [app]. now apply in_front. Qed.
Lemma std_broken masks : forall os a x b, (forall o, In o os -> pair_ok o) -> std_text os = a ++ b -> blank x -> ascii_text (a ++ x :: b) -> parse_text masks (a ++ x :: b) = Err NonCompliant.
Proof.
  induction os as [|[t v] os IH]; intros a x b H E B A.
  - destruct a; [|discriminate E]. cbn in E. subst b. now apply stops.
  - assert (E' : std_field t v ++ 10 :: std_text os = a ++ b) by (unfold std_text in *; cbn [flat_map fst snd] in E; rewrite <- app_assoc in E; exact E). clear E.
    assert (Fd : hex_field (std_field t v)) by (apply std_hex_field; apply (H (t, v)); now left). destruct (hex_field_field masks _ Fd) as (e & F).
    assert (Step : forall sep rest, ascii_text (std_field t v ++ sep :: rest) -> parse_text masks rest = Err NonCompliant -> parse_text masks (std_field t v ++ sep :: rest) = Err NonCompliant).
    { intros sep rest Ar K. change (sep :: rest) with ([sep] ++ rest) in *. rewrite app_assoc in *. apply (after_prefix masks _ [e]); [|assumption|assumption].
      apply (ing_prefix_cons masks _ e sep []); [assumption|constructor]. }
    assert (C : (exists A2, std_field t v = a ++ A2 /\ b = A2 ++ 10 :: std_text os) \/ (exists B1, a = std_field t v ++ 10 :: B1 /\ std_text os = B1 ++ b)).
    { destruct b as [|b0 b]; [right; exists (std_text os); rewrite app_nil_r in *; now split|]. apply split_at; [assumption|discriminate]. }
    destruct C as [(A2 & Ef & ->)|(B1 & -> & Er)].
    + destruct a as [|a0 a].
      * cbn [app] in *. subst A2. apply stops; [assumption|discriminate|]. unfold std_field. cbn [app]. now apply in_front.
      * destruct A2 as [|y A2].
        -- rewrite app_nil_r in Ef. rewrite <- Ef in *. cbn [app] in *. apply Step; [assumption|]. apply stops; [apply ascii_app in A; destruct A as [_ A]; now apply ascii_cons in A|discriminate|]. apply std_starts. cbn; tauto.
        -- apply stops; [assumption|discriminate|]. apply (inside masks (std_field t v)); try assumption; discriminate.
    + rewrite <- app_assoc in *. cbn [app] in *. apply Step; [assumption|]. apply (IH B1 x b); [intros o I; apply H; now right|assumption|assumption|]. apply ascii_app in A. destruct A as [_ A]. now apply ascii_cons in A.
Qed.
Lemma hex_filter l : bytes_ok l -> filter is_hex_digitb (hex_text l) = hex_text l.
Proof. intros B. pose proof (hex_text_digits l B) as F. induction F as [|c s Hc _ IH]; [reflexivity|]. cbn [filter]. now rewrite Hc, IH. Qed.
Lemma hex_text_app a b : hex_text (a ++ b) = hex_text a ++ hex_text b.
Proof. unfold hex_text. apply flat_map_app. Qed.
Lemma std_digits os : (forall o, In o os -> short_pair o) -> hex_bytes (std_text os) = flat_map (fun o => std_object (fst o) (snd o)) os.
Proof.
  intros H. assert (E : filter is_hex_digitb (std_text os) = hex_text (flat_map (fun o => std_object (fst o) (snd o)) os)).
  { induction os as [|[t v] os IH]; [reflexivity|]. unfold std_text in *. cbn [flat_map fst snd]. rewrite filter_app, IH by (intros o I; apply H; now right). rewrite hex_text_app. f_equal.
    destruct (H (t, v) (or_introl eq_refl)) as [(B & T & Bv & L) S]. cbn [fst snd] in *. unfold std_object, std_len, std_field, be_bytes. rewrite (proj2 (N.ltb_lt (len v) 128)) by assumption.
    rewrite (proj2 (N.ltb_lt (len v) 256)) by lia. rewrite !hex_text_app, !filter_app. cbn [filter]. rewrite !filter_app. cbn [filter]. rewrite !filter_app. cbn [filter].
    change (is_hex_digitb letter_T) with false. change (is_hex_digitb colon) with false. change (is_hex_digitb letter_h) with false. change (is_hex_digitb 10) with false. cbv iota.
    rewrite !hex_filter; [now rewrite app_nil_r|assumption| |assumption]. constructor; [unfold is_byte; lia|constructor]. }
  unfold hex_bytes. rewrite E. apply bytes_of_hex_text. apply std_objects_bytes. intros o I. now apply H.
Qed.
(* Fields in hex with short values survive: automatic detection then reads the digits as BER-TLV. *)
Theorem C108_auto : forall p masks os s', (forall o, In o os -> short_pair o) -> text64 p (std_text os) -> text64 p s' -> broken (std_text os) s' ->
  exists ns, auto_parse p masks s' = Ok (BerTlv, ns) /\ ber_parse p masks (flat_map (fun o => std_object (fst o) (snd o)) os) = Ok ns
    /\ (masks = [] -> ingenico_parse p [] (std_text os) = Ok ns).
Proof.
  intros p masks os s' H T T' B. pose proof B as (a & x & b & E & Es & Bx). assert (Hp : forall o, In o os -> pair_ok o) by (intros o I; now apply H).
  assert (Hb : hex_bytes s' = flat_map (fun o => std_object (fst o) (snd o)) os) by (rewrite (broken_bytes _ _ B); now apply std_digits).
  assert (Hi : input64 p (flat_map (fun o => std_object (fst o) (snd o)) os)) by (rewrite <- Hb, hex_bytes_eq; now apply hex_input64).
  destruct (parse_bytes_accepts masks _ os (std_objects_bytes os Hp) (std_objects os Hp)) as [ns K].
  assert (K' : ber_parse p masks (flat_map (fun o => std_object (fst o) (snd o)) os) = Ok ns) by (destruct (input64_eq p masks _ Hi) as [_ ->]; exact K).
  exists ns. split; [|split; [assumption|]].
  - apply C31_auto_ber. split; [rewrite Es; destruct a; discriminate|]. split; [|now rewrite <- hex_bytes_eq, Hb].
    exists NonCompliant. assert (A : ascii_text s').
    { rewrite Es. pose proof (std_text_ascii os Hp) as A. rewrite E in A. apply ascii_app in A. apply ascii_app. split; [tauto|]. apply ascii_cons. split; [now apply blank_facts in Bx|tauto]. }
    rewrite text64_eq by assumption. rewrite Es in *. now apply (std_broken masks os).
  - intros ->. destruct (C30_formats_agree p os Hp Hi T) as (ns' & K1 & K2 & _). congruence.
Qed.
(* In a value written as text a blank becomes part of the value, and automatic detection can read such a text as other data. *)
Theorem C108_text_refuted : exists s s' ns ns', broken s s' /\ ingenico_parse p64 [] s = Ok ns /\ ingenico_parse p64 [] s' = Ok ns' /\ ns <> ns'.
Proof.
  exists (lit "T50:04:aVISA"), (lit "T50:04:aVI SA"). do 2 eexists. split; [exists (lit "T50:04:aVI"), 32, (lit "SA"); repeat split; cbn; tauto|].
  split; [vm_compute; reflexivity|]. split; [vm_compute; reflexivity|]. intros K. discriminate K.
Qed.
Theorem C108_auto_refuted : exists s s' ns ns', broken s s' /\ auto_parse p64 [] s = Ok (Ingenico, ns) /\ auto_parse p64 [] s' = Ok (BerTlv, ns') /\ ns <> ns'.
Proof.
  exists (lit "T50:01:aB"), (lit "T50 :01:aB"). do 2 eexists. split; [exists (lit "T50"), 32, (lit ":01:aB"); repeat split; cbn; tauto|].
  split; [vm_compute; reflexivity|]. split; [vm_compute; reflexivity|]. intros K. discriminate K.
Qed.
Example C108_example : broken (lit "9F0206000000") (lit "9F0206 000000") /\ In OpBer hex_operations /\ hex_field (lit "T9F02:01:h" ++ lit "07") /\ (forall o, In o [([0x9F; 2], [7])] -> short_pair o)
  /\ text64 p64 (std_text [([0x9F; 2], [7])]) /\ broken (std_text [([0x9F; 2], [7])]) (lit "T9F02:01:" ++ 10 :: lit "h07" ++ [10]).
Proof.
  split; [exists (lit "9F0206"), 32, (lit "000000"); repeat split; cbn; tauto|]. split; [cbn; tauto|].
  assert (P : pair_ok ([0x9F; 2], [7])) by (split; [cbn; bytes_lit|]; split; [apply (ber_tag_long 0x9F [] 2); [reflexivity|constructor|lia]|split; [cbn; bytes_lit|vm_compute; reflexivity]]).
  split; [exact (std_hex_field [0x9F; 2] [7] P)|]. split; [intros o [<-|[]]; split; [exact P|vm_compute; reflexivity]|]. split; [split; vm_compute; reflexivity|].
  exists (lit "T9F02:01:"), 10, (lit "h07" ++ [10]). repeat split. cbn; tauto.
Qed.
