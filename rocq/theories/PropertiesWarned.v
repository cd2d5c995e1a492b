(** C126 with colours: which card verification results are shown as warnings and errors. *)

From Coq Require Import ZArith NArith Ascii String List Bool Lia ZifyN ZifyBool ZifyNat Permutation Sorting.
From Verif Require Import Base ModelUtil ModelEnums ModelBitflag ModelSchemas ModelTags ModelTlv ModelValues ModelProcess ModelDisplay
  SpecUtil SpecCodes SpecValues SpecTlv SpecIngenico SpecTags SpecProcess SpecDisplay
  ProofsUtil ProofsGrammar ProofsBer ProofsIngenico ProofsValues PropertiesValues
  PropertiesBer PropertiesIngenico ProofsProcess PropertiesProcess ProofsDisplay ProofsDiagram ProofsScreens ProofsLayout PropertiesDisplay
  SpecPictures ProofsPictures ModelMain SpecMain ProofsMain PropertiesMain ModelCli SpecCli ProofsCli PropertiesCli PropertiesPictures
  SpecReading PropertiesReading SpecSame PropertiesSame SpecJoin PropertiesJoin PropertiesCut SpecCopied PropertiesCopied
  SpecReserved PropertiesReserved SpecMatch PropertiesMatch SpecExplain PropertiesExplain PropertiesRuns SpecIssuer PropertiesIssuer SpecStatements PropertiesStatements SpecWarned.
Import ListNotations.
Local Open Scope N_scope.

(** ** Fields *)

Lemma field_stated n t raw d i show c w : forallb (sound n) t = true ->
  (stated (diagram n raw (all_shown n t d) i show) c w <-> exists e, In e t /\ field_text e (field_bits e d) = Some w /\ shade show (e_sev e) = c).
Proof.
  intros S. rewrite forallb_forall in S. rewrite ranges_stated.
  - assert (X : forall e r, In r (field_shown n e d) <-> exists s, field_text e (field_bits e d) = Some s /\ r = mkRange (8 * (n - e_byte e) + (e_hi e - 1)) (e_hi e - e_lo e + 1) s (e_sev e)).
    { intros e r. unfold field_shown, field_text. destruct (e_kind e); try (destruct (decode _ _) as [[v s]|]; cbn [option_map snd In]; [split; [intros [<-|[]]; eexists; split; reflexivity|intros (s' & [= <-] & ->); now left]|split; [intros []|intros (s' & E & _); discriminate E]]).
      destruct (_ =? 1); cbn [In]; [split; [intros [<-|[]]; eexists; split; reflexivity|intros (s' & [= <-] & ->); now left]|split; [intros []|intros (s' & E & _); discriminate E]]. }
    unfold all_shown. split.
    + intros (r & I & C & W). apply in_flat_map in I. destruct I as (e & He & I). apply X in I. destruct I as (s & E & ->). cbn [r_sev r_text] in C, W. subst s. eauto.
    + intros (e & He & E & C). eexists. split; [apply in_flat_map; exists e; split; [exact He|apply X; eexists; split; [exact E|reflexivity]]|]. auto.
  - apply Forall_forall. intros r I. unfold all_shown in I. apply in_flat_map in I. destruct I as (e & He & I). exact (proj1 (shown_fits n e d r (S e He) I)).
Qed.
(* Flags: by their words. *)
Definition alarm_of (x : string) : option color := option_map fst (find (fun a => String.eqb (snd a) x) results_alarms).
Lemma alarms_apart : forall a b x, In (a, x) results_alarms -> In (b, x) results_alarms -> a = b.
Proof. intros a b x I J. unfold results_alarms in I, J. cbn [In] in I, J. repeat (destruct I as [I|I]; [injection I as <- <-; repeat (destruct J as [J|J]; [first [discriminate J|injection J as <-; reflexivity]|]); destruct J|]). destruct I. Qed.
Lemma alarm_colour x c : results_colour (lit x) c <-> c = alarm_of x.
Proof.
  assert (F : match alarm_of x with Some a => In (a, x) results_alarms | None => forall a, ~ In (a, x) results_alarms end).
  { unfold alarm_of. destruct (find _ results_alarms) as [[a y]|] eqn:E; cbn [option_map fst].
    - apply find_some in E. destruct E as [I E]. cbn [snd] in E. apply String.eqb_eq in E. now subst y.
    - intros a I. apply (find_none _ _ E) in I. cbn [snd] in I. now rewrite String.eqb_refl in I. }
  destruct c as [a|]; cbn [results_colour].
  - split.
    + intros (y & I & E). apply lit_inj in E. subst y. destruct (alarm_of x) as [b|]; [f_equal; now apply (alarms_apart a b x)|now apply F in I].
    + intros E. rewrite <- E in F. eauto.
  - split.
    + intros H. destruct (alarm_of x) as [b|]; [|reflexivity]. exfalso. now apply (H b x F).
    + intros E a y I K. apply lit_inj in K. subst y. rewrite <- E in F. now apply F in I.
Qed.
Lemma flags_coloured : forallb (fun e => negb (is_flag e) || match shade true (e_sev e), alarm_of (e_label e) with None, None => true | Some Red, Some Red => true | Some Yellow, Some Yellow => true | _, _ => false end) cvr_bits = true.
Proof. vm_compute. reflexivity. Qed.
Lemma field_coloured e v w c : In e cvr_bits -> field_text e v = Some w -> (shade true (e_sev e) = c <-> results_colour w c).
Proof.
  intros I E. destruct (is_flag e) eqn:F.
  - pose proof flags_coloured as G. rewrite forallb_forall in G. specialize (G e I). rewrite F in G. cbn [negb orb] in G. unfold is_flag in F. unfold field_text in E. destruct (e_kind e); try discriminate F. destruct (v =? 1); [|discriminate E]. injection E as <-. rewrite alarm_colour.
    assert (X : shade true (e_sev e) = alarm_of (e_label e)) by (destruct (shade true (e_sev e)) as [[]|], (alarm_of (e_label e)) as [[]|]; try discriminate G; reflexivity). rewrite X. split; congruence.
  - assert (J : In e (filter (fun e => negb (is_flag e)) cvr_bits)) by (apply filter_In; rewrite F; auto). rewrite others_listed in J.
    assert (X : exists s, w = lit (e_label e) ++ s). { unfold is_flag in F. unfold field_text in E. destruct (e_kind e); try discriminate F; (destruct (decode _ _) as [[? s]|]; [|discriminate E]); injection E as <-; now exists s. }
    destruct X as (s & ->). clear E I F.
    assert (Y : shade true (e_sev e) = None /\ forall a x, In (a, x) results_alarms -> lit (e_label e) ++ s <> lit x).
    { cbn [In] in J. destruct J as [J|[J|[J|[J|[]]]]]; subst e; (split; [reflexivity|]); intros a x K H; unfold group in H; cbn [e_label] in H; unfold results_alarms in K; cbn [In] in K; (repeat (destruct K as [K|K]; [injection K as _ <-; vm_compute in H; discriminate H|])); destruct K. }
    destruct Y as [Y1 Y2]. rewrite Y1. destruct c as [a|]; cbn [results_colour]; split.
    + discriminate.
    + intros (x & K & H). exfalso. exact (Y2 a x K H).
    + intros _. exact Y2.
    + reflexivity.
Qed.
Lemma results_stated d raw i c w : bytes_ok d -> (stated (diagram 5 raw (all_shown 5 cvr_bits d) i true) c w <-> results_say d w /\ results_colour w c).
Proof.
  intros B. rewrite field_stated by (vm_compute; reflexivity). rewrite <- (results_fields d w B). split.
  - intros (e & I & E & C). split; [eauto|]. now apply (field_coloured e (field_bits e d) w c I E).
  - intros ((e & I & E) & C). exists e. split; [exact I|]. split; [exact E|]. now apply (field_coloured e (field_bits e d) w c I E).
Qed.

(** C126 with colours *)
(* Each explanation of card verification results stands there in its colour and in no other. *)
Theorem C126_colours : forall masks sort s ls c w, sheet masks sort OpCvr s ls -> (stated ls c w <-> results_say (hex_bytes s) w /\ results_colour w c).
Proof.
  intros masks sort s ls c w H. inversion H as [f q J E|n O Dn N|f ns ns' B N A]; subst.
  - unfold byte_operations in J. cbn [In] in J. repeat (destruct J as [J|J]; [try discriminate J|]); [|contradiction]. injection J as <-. apply bits_shape in E. destruct E as (_ & _ & ->). apply results_stated. apply hex_bytes_ok.
  - discriminate O.
  - inversion B.
Qed.
(* So it is in issuer application data; the identifier of the format is never coloured. *)
Definition issuer_coloured (cci : N) (cvr : list N) (ls : list line) : Prop :=
  forall c w, stated ls c w <-> identifier_says cci w /\ c = None \/ results_say cvr w /\ results_colour w c.
Lemma stated_app a b c w : stated (a ++ b) c w <-> stated a c w \/ stated b c w.
Proof.
  unfold stated. split.
  - intros (i & x & I). apply in_app_iff in I. destruct I; [left|right]; eauto.
  - intros [(i & x & I)|(i & x & I)]; exists i, x; apply in_app_iff; auto.
Qed.
Lemma issuer_picture_coloured cci dki cvr counters rest i q : ccd_parts cci cvr counters rest -> bytes_ok cvr -> iad_picture (issuer_data cci dki cvr counters rest) = Some q -> issuer_coloured cci cvr (q i true).
Proof.
  intros P B Q. destruct (issuer_shape cci dki cvr counters rest P) as (q' & Q' & S). rewrite Q in Q'. injection Q' as <-. rewrite S. intros c w.
  assert (K : forall ls, stated (key_line i dki :: ls) c w <-> stated ls c w) by (intros ls; rewrite stated_cons; split; [intros [(j & a & E)|X]; [discriminate E|exact X]|tauto]).
  unfold issuer_lines, issuer_rest. rewrite unstated by discriminate. rewrite stated_app, K. rewrite unstated by discriminate. rewrite stated_app, (results_stated cvr _ (i + 1) c w B).
  rewrite !unstated by discriminate. assert (Z : ~ stated [] c w) by (intros (j & a & [])).
  assert (T : stated (diagram 1 [cci] (all_shown 1 cci_bits [cci]) (i + 1) true) c w <-> identifier_says cci w /\ c = None); [|tauto].
  rewrite <- (identifier_told cci [cci] (i + 1) true w (proj1 P)), field_told, field_stated by (vm_compute; reflexivity).
  assert (V : forall e, In e cci_bits -> shade true (e_sev e) = None) by (intros e I; unfold cci_bits in I; cbn [In] in I; destruct I as [<-|[<-|[]]]; reflexivity).
  split.
  - intros (e & I & E & C). rewrite (V e I) in C. split; [eauto|now symmetry].
  - intros ((e & I & E) & ->). exists e. auto.
Qed.
Theorem C126_issuer_colours : forall masks sort s ls cci dki cvr counters rest, sheet masks sort OpIad s ls -> hex_bytes s = issuer_data cci dki cvr counters rest -> ccd_parts cci cvr counters rest -> issuer_coloured cci cvr ls.
Proof.
  intros masks sort s ls cci dki cvr counters rest H E P. pose proof (hex_bytes_ok s) as B. rewrite E in B. apply parts_ok in B. inversion H as [f q J Q|n O Dn N|f ns ns' B' N A']; subst.
  - unfold byte_operations in J. cbn [In] in J. repeat (destruct J as [J|J]; [try discriminate J|]); [|contradiction]. injection J as <-. rewrite E in Q. now apply (issuer_picture_coloured cci dki cvr counters rest).
  - discriminate O.
  - inversion B'.
Qed.
(* The same for the object 9F10 in TLV data. *)
Theorem C126_object_colours : forall p masks sort op s f ns nd ls cci dki cvr counters rest, text64 p s -> tlv_block masks op s f ns -> occurs nd ns -> sheet masks sort op s ls ->
  rt_tag (node_tag nd) = [0x9F; 0x10] -> rt_data (node_tag nd) = Normal (issuer_data cci dki cvr counters rest) -> ccd_parts cci cvr counters rest -> bytes_ok cvr ->
  exists i before block after, ls = before ++ heading_row i (lit "Parsed:") :: block ++ after /\ issuer_shown (i + 1) cci dki cvr counters rest block /\ issuer_coloured cci cvr block.
Proof.
  intros p masks sort op s f ns nd ls cci dki cvr counters rest T B O H Et Ed P Bc. destruct (object_between p masks sort op s f ns nd ls _ T B O H Ed ltac:(discriminate)) as (i & before & after & E).
  destruct (issuer_shape cci dki cvr counters rest P) as (q & Q & _). assert (M : meaning_lines (node_tag nd) i true = heading_row i (lit "Parsed:") :: q (i + 1) true).
  { unfold meaning_lines. rewrite Et, Ed. assert (X : picture_of [0x9F; 0x10] (issuer_data cci dki cvr counters rest) = Some q) by (rewrite <- Q; reflexivity). now rewrite X. }
  rewrite M in E. exists i, (before ++ tag_row i (node_tag nd) (tag_title (node_tag nd)) :: heading_row i (lit "Raw:") :: wide_dump (i + 1) (issuer_data cci dki cvr counters rest)), (q (i + 1) true), after.
  split; [rewrite E; now rewrite <- app_assoc|]. split; [now apply issuer_picture|now apply (issuer_picture_coloured cci dki cvr counters rest)].
Qed.
(* Runs of the program. *)
Theorem C126_program_colours : forall p e m st op s ls, shows p e m st op s ls -> displays (run_main p e m) ls
  /\ (op = OpCvr -> forall c w, stated ls c w <-> results_say (hex_bytes s) w /\ results_colour w c)
  /\ (op = OpIad -> forall cci dki cvr counters rest, hex_bytes s = issuer_data cci dki cvr counters rest -> ccd_parts cci cvr counters rest -> issuer_coloured cci cvr ls)
  /\ (forall f ns nd cci dki cvr counters rest, tlv_block (set_masking st) op s f ns -> occurs nd ns -> rt_tag (node_tag nd) = [0x9F; 0x10] -> rt_data (node_tag nd) = Normal (issuer_data cci dki cvr counters rest) -> ccd_parts cci cvr counters rest -> bytes_ok cvr ->
      exists i before block after, ls = before ++ heading_row i (lit "Parsed:") :: block ++ after /\ issuer_shown (i + 1) cci dki cvr counters rest block /\ issuer_coloured cci cvr block).
Proof.
  intros p e m st op s ls W. split; [now apply (shows_displays p e m st op s ls)|]. destruct W as (L & C & T & H & F). split; [|split].
  - intros -> c w. now apply (C126_colours (set_masking st) (set_sort st)).
  - intros -> cci dki cvr counters rest E P. now apply (C126_issuer_colours (set_masking st) (set_sort st) s ls cci dki cvr counters rest).
  - intros f ns nd cci dki cvr counters rest B O Et Ed P Bc. now apply (C126_object_colours p (set_masking st) (set_sort st) op s f ns nd).
Qed.
(* Results of which one is a warning, one an error and one neither. *)
Example C126_colours_example : exists ls, sheet [42] true OpCvr (lit "0A01080800") ls /\ stated ls (Some Yellow) (lit "Issuer authentication not performed")
  /\ stated ls (Some Red) (lit "Issuer script processing failed") /\ stated ls None (lit "CDA (Combined Data Authentication) performed") /\ ~ stated ls None (lit "Issuer script processing failed").
Proof.
  assert (L : len (hex_bytes (lit "0A01080800")) = 5) by (vm_compute; reflexivity). destruct (C126_results [42] true _ L) as (ls & H). exists ls. split; [exact H|].
  assert (E : hex_bytes (lit "0A01080800") = [0x0A; 0x01; 0x08; 0x08; 0]) by (vm_compute; reflexivity). rewrite !(C126_colours [42] true _ ls _ _ H), E, !alarm_colour. split; [|split; [|split]].
  - split; [apply (say_flag _ 0%nat 2); [unfold results_flags; cbn [In]; tauto|reflexivity]|reflexivity].
  - split; [apply (say_flag _ 3%nat 8); [unfold results_flags; cbn [In]; tauto|reflexivity]|reflexivity].
  - split; [apply (say_flag _ 0%nat 8); [unfold results_flags; cbn [In]; tauto|reflexivity]|reflexivity].
  - intros [_ X]. vm_compute in X. discriminate X.
Qed.
(* Issuer application data whose results have a warning. *)
Example C126_program_colours_example : exists ls, shows p64r plain_env (with_iad sample_issuer) (mkSettings TAuto [42] true) OpIad sample_issuer ls /\ stated ls (Some Yellow) (lit "Issuer authentication not performed").
Proof.
  destruct C126_example as (ls & W & E & P & _). exists ls. split; [exact W|]. destruct (C126_program_colours _ _ _ _ _ _ _ W) as (_ & _ & I & _). apply (I eq_refl _ _ _ _ _ E P). right. split.
  - apply (say_flag _ 0%nat 2); [unfold results_flags; cbn [In]; tauto|reflexivity].
  - exists "Issuer authentication not performed"%string. split; [unfold results_alarms; cbn [In]; tauto|reflexivity].
Qed.
