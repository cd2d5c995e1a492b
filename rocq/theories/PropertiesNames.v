(** The property of the names of tags. *)

From Coq Require Import ZArith NArith Ascii String List Bool Lia ZifyN ZifyBool ZifyNat Permutation Sorting.
From Verif Require Import Base ModelUtil ModelEnums ModelBitflag ModelSchemas ModelTags ModelTlv ModelValues ModelProcess ModelDisplay
  SpecUtil SpecCodes SpecValues SpecTlv SpecIngenico SpecTags SpecProcess SpecDisplay
  ProofsUtil ProofsGrammar ProofsBer ProofsIngenico ProofsValues PropertiesValues
  PropertiesBer PropertiesIngenico ProofsProcess PropertiesProcess ProofsDisplay ProofsDiagram ProofsScreens ProofsLayout PropertiesDisplay
  SpecPictures ProofsPictures ModelMain SpecMain ProofsMain PropertiesMain ModelCli SpecCli ProofsCli PropertiesCli PropertiesPictures
  SpecReading PropertiesReading SpecSame PropertiesSame SpecJoin PropertiesJoin PropertiesCut SpecCopied PropertiesCopied
  SpecExplain PropertiesExplain PropertiesRuns SpecNames.
Import ListNotations.
Local Open Scope N_scope.

(** ** The table of names *)

Definition all_titles : list (list N * str) :=
  map (fun r => (number_tag (fst r), lit (snd r))) emv_tag_names ++ map (fun r => (fst r, lit (snd r))) unrecognised_names.
Lemma titles_apart : NoDup (unknown :: map snd all_titles).
Proof. apply apart_nodup. vm_compute. reflexivity. Qed.
Lemma second_once {A B} (l : list (A * B)) a b x : NoDup (map snd l) -> In (a, x) l -> In (b, x) l -> a = b.
Proof.
  induction l as [|[c y] l IH]; cbn [map snd In]; [contradiction|]. intros D. inversion D as [|? ? Nx D']; subst. assert (M : forall z, In (z, x) l -> y <> x).
  { intros z I ->. apply Nx. apply in_map_iff. exists (z, x). auto. }
  intros [I|I] [J|J]; [congruence|exfalso; apply (M b J); congruence|exfalso; apply (M a I); congruence|auto].
Qed.
Lemma listed_known t x : In (t, x) all_titles -> x <> unknown.
Proof. intros I ->. pose proof titles_apart as D. apply NoDup_cons_iff in D. apply (proj1 D). exact (in_map snd all_titles (t, unknown) I). Qed.
Lemma listed_once t t' x : In (t, x) all_titles -> In (t', x) all_titles -> t = t'.
Proof. intros I I'. pose proof titles_apart as D. apply NoDup_cons_iff in D. exact (second_once all_titles t t' x (proj2 D) I I'). Qed.
Lemma name_listed t : name_of t = unknown /\ unknown_tag t \/ In (t, name_of t) all_titles /\ known_name t (name_of t).
Proof.
  destruct (find (fun r => same_bytes (number_tag (fst r)) t) emv_tag_names) as [[n x]|] eqn:F.
  - right. assert (E : name_of t = lit x) by (unfold name_of; now rewrite F). apply find_some in F. destruct F as [I F]. cbn [fst] in F. apply same_bytes_eq in F. subst t. rewrite E. split.
    + unfold all_titles. apply in_app_iff. left. apply in_map_iff. exists (n, x). auto.
    + exists n, x. auto.
  - left. assert (U : unknown_tag t).
    { intros s (n & x & I & -> & _). pose proof (find_none _ _ F _ I) as X. cbn [fst] in X. now rewrite same_bytes_refl in X. }
    split; [now apply name_unknown|exact U].
Qed.
Lemma title_listed t : tag_title t = unknown \/ In (rt_tag t, tag_title t) all_titles.
Proof.
  assert (X : name_of (rt_tag t) = unknown \/ In (rt_tag t, name_of (rt_tag t)) all_titles) by (destruct (name_listed (rt_tag t)); tauto).
  unfold tag_title. destruct (rt_data t) as [d|]; [|exact X]. destruct (picture_of (rt_tag t) d); [exact X|]. destruct (SpecPictures.lookup unrecognised_names (rt_tag t)) as [x|] eqn:L; [|exact X].
  right. apply lookup_in in L. unfold all_titles. apply in_app_iff. right. apply in_map_iff. exists (rt_tag t, x). auto.
Qed.

(** ** Complete tags *)

Lemma tag_prefix t r t' : ber_tag t -> ber_tag t' -> t' = t ++ r -> r = [].
Proof.
  intros T T' E. destruct T as [b H|b more last H M L].
  - cbn [app] in E. destruct T' as [b' H'|b' more' last' H' M' L']; injection E as E1 E2; [congruence|subst b'; contradiction].
  - cbn [app] in E. destruct T' as [b' H'|b' more' last' H' M' L']; injection E as E1 E2; [exfalso; subst b'; contradiction|]. clear b' H' E1 H b. revert more' M' E2. induction M as [|c more C M IH]; intros more' M' E2.
    + destruct M' as [|c' more' C' M']; cbn [app] in E2.
      * injection E2 as _ E2. exact (eq_sym E2).
      * injection E2 as E2 _. lia.
    + destruct M' as [|c' more' C' M']; cbn [app] in E2.
      * injection E2 as E2 _. lia.
      * injection E2 as _ E2. exact (IH more' M' E2).
Qed.
Lemma known_complete t : name_of t <> unknown -> ber_tag t.
Proof. intros H. destruct (name_listed t) as [[X _]|[_ K]]; [contradiction|]. now apply known_tags_ok in K. Qed.

(** ** The lines *)

Lemma identified masks sort s ls : sheet masks sort OpIdentify s ls -> exists b t, hex_bytes s = b :: t /\ identify_picture (hex_bytes s) <> None /\ forall q, identify_picture (hex_bytes s) = Some q -> ls = q 0 true.
Proof.
  intros H. inversion H as [f q J Q|n O Dn N|f ns ns' B N A]; subst; [|discriminate O|inversion B].
  unfold byte_operations in J. cbn [In] in J. repeat (destruct J as [J|J]; [try discriminate J|]); [|contradiction]. injection J as <-. destruct (hex_bytes s) as [|b t] eqn:E; [discriminate Q|]. exists b, t. split; [reflexivity|]. split; [rewrite Q; discriminate|]. intros q' Q'. congruence.
Qed.
Lemma identified_lines masks sort s ls : sheet masks sort OpIdentify s ls -> exists b t, hex_bytes s = b :: t /\ (forall x, named ls x <-> x = name_of (hex_bytes s))
  /\ (forall x, of_class ls x <-> x = lit (nth (N.to_nat (b / 64)) ["Universal"; "Application"; "Context-Specific"; "Private"]%string EmptyString)) /\ (forall x, of_type ls x <-> x = if N.testbit b 5 then lit "Constructed" else lit "Primitive").
Proof.
  intros H. destruct (identified masks sort s ls H) as (b & t & E & _ & L). exists b, t. split; [exact E|]. rewrite E in *. specialize (L _ eq_refl). cbv beta in L. generalize dependent (name_of (b :: t)). intros name L.
  revert L. generalize (lit (nth (N.to_nat (b / 64)) ["Universal"; "Application"; "Context-Specific"; "Private"]%string EmptyString)) as c. intros c ->.
  unfold named, of_class, of_type, titled, row. cbn [In]. split; [|split]; intros x; (split; [intros I; repeat (destruct I as [I|I]; [try discriminate I|]); [|contradiction]; injection I as I; exact (eq_sym I)|intros ->; tauto]).
Qed.

(** C127: the names of tags. *)
(* The name of a tag tells the tag. *)
Theorem C127_tells : forall masks masks' sort sort' s s' ls ls' x, sheet masks sort OpIdentify s ls -> sheet masks' sort' OpIdentify s' ls' -> named ls x -> named ls' x -> x <> unknown -> hex_bytes s = hex_bytes s'.
Proof.
  intros masks masks' sort sort' s s' ls ls' x H H' I I' Nx. destruct (identified_lines _ _ _ _ H) as (b & t & _ & A & _), (identified_lines _ _ _ _ H') as (b' & t' & _ & A' & _). apply A in I. apply A' in I'.
  destruct (name_listed (hex_bytes s)) as [[X _]|[X _]]; [congruence|]. destruct (name_listed (hex_bytes s')) as [[X' _]|[X' _]]; [congruence|]. rewrite <- I in X. rewrite <- I' in X'. exact (listed_once _ _ _ X X').
Qed.
(* Only a complete tag has a name; anything longer or shorter is unknown. *)
Theorem C127_complete : forall masks sort s ls x, sheet masks sort OpIdentify s ls -> named ls x -> x <> unknown -> ber_tag (hex_bytes s).
Proof. intros masks sort s ls x H I Nx. destruct (identified_lines _ _ _ _ H) as (b & t & _ & A & _). apply A in I. apply known_complete. congruence. Qed.
Theorem C127_more : forall masks sort s ls t r, sheet masks sort OpIdentify s ls -> ber_tag t -> r <> [] -> hex_bytes s = t ++ r -> named ls unknown.
Proof.
  intros masks sort s ls t r H T Nr E. destruct (identified_lines _ _ _ _ H) as (b & u & _ & A & _). apply A. destruct (name_listed (hex_bytes s)) as [[X _]|[X _]]; [now symmetry|]. exfalso. apply Nr, (tag_prefix t r (hex_bytes s) T); [|exact E].
  apply known_complete. exact (listed_known _ _ X).
Qed.
Theorem C127_less : forall masks sort s ls t r, sheet masks sort OpIdentify s ls -> ber_tag t -> r <> [] -> t = hex_bytes s ++ r -> named ls unknown.
Proof.
  intros masks sort s ls t r H T Nr E. destruct (identified_lines _ _ _ _ H) as (b & u & _ & A & _). apply A. destruct (name_listed (hex_bytes s)) as [[X _]|[X _]]; [now symmetry|]. exfalso. apply Nr, (tag_prefix (hex_bytes s) r t); [|exact T|exact E].
  apply known_complete. exact (listed_known _ _ X).
Qed.
(* Of the tags with a name exactly the templates are constructed, and all are of two classes. *)
Theorem C127_kinds : forall masks sort s ls x, sheet masks sort OpIdentify s ls -> named ls x -> x <> unknown ->
  (of_type ls (lit "Constructed") <-> In (hex_bytes s) templates) /\ (of_type ls (lit "Primitive") <-> ~ In (hex_bytes s) templates) /\ (of_class ls (lit "Application") \/ of_class ls (lit "Context-Specific")).
Proof.
  intros masks sort s ls x H I Nx. destruct (identified_lines _ _ _ _ H) as (b & t & E & A & C & K). apply A in I.
  destruct (name_listed (hex_bytes s)) as [[X _]|[_ X]]; [congruence|]. destruct X as (n & y & J & X & _).
  assert (Z : forallb (fun r => let d := number_tag (fst r) in let b := nth 0 d 0 in Bool.eqb (N.testbit b 5) (existsb (same_bytes d) templates) && ((b / 64 =? 1) || (b / 64 =? 2))) emv_tag_names = true) by (vm_compute; reflexivity).
  rewrite forallb_forall in Z. specialize (Z _ J). cbn [fst] in Z. cbv zeta in Z. rewrite <- X, E in Z. cbn [nth] in Z. apply andb_prop in Z. destruct Z as [Z1 Z2]. apply eqb_prop in Z1.
  assert (M : existsb (same_bytes (b :: t)) templates = true <-> In (hex_bytes s) templates).
  { rewrite existsb_exists, E. split; [intros (y' & Y & S); apply same_bytes_eq in S; now subst y'|intros Y; exists (b :: t); split; [exact Y|apply same_bytes_eq; reflexivity]]. }
  rewrite <- Z1 in M. destruct (N.testbit b 5).
  - split; [|split].
    + rewrite K. split; [intros _; now apply M|reflexivity].
    + rewrite K. split; [intros D; exfalso; apply (f_equal (@List.length N)) in D; discriminate D|intros Nt; exfalso; apply Nt; now apply M].
    + rewrite !C. apply orb_prop in Z2. destruct Z2 as [Z2|Z2]; apply N.eqb_eq in Z2; rewrite Z2; [left|right]; reflexivity.
  - split; [|split].
    + rewrite K. split; [intros D; exfalso; apply (f_equal (@List.length N)) in D; discriminate D|intros Nt; apply M in Nt; discriminate Nt].
    + rewrite K. split; [intros _ Nt; apply M in Nt; discriminate Nt|reflexivity].
    + rewrite !C. apply orb_prop in Z2. destruct Z2 as [Z2|Z2]; apply N.eqb_eq in Z2; rewrite Z2; [left|right]; reflexivity.
Qed.
(* Every byte is accepted, and nothing but the lack of one is refused. *)
Theorem C127_all : forall masks sort s, (exists ls, sheet masks sort OpIdentify s ls) <-> hex_bytes s <> [].
Proof.
  intros masks sort s. split.
  - intros (ls & H). destruct (identified _ _ _ _ H) as (b & t & E & _). congruence.
  - intros Nn. destruct (hex_bytes s) as [|b t] eqn:E; [congruence|]. eexists. eapply (sheet_value masks sort OpIdentify s identify_picture); [unfold byte_operations; cbn [In]; tauto|]. rewrite E. reflexivity.
Qed.
(* Titles in TLV data: those of objects with different tags are different, unless both are unknown. *)
Lemma titled_shown p masks sort op s f ns n ls : text64 p s -> tlv_block masks op s f ns -> occurs n ns -> sheet masks sort op s ls -> object_titled ls (rt_tag (node_tag n)) (tag_title (node_tag n)).
Proof.
  intros T B O H. destruct (object_shown p _ _ _ _ _ _ _ _ T B O H) as (n' & i & b & a & -> & R). apply shown_tag in R. destruct n' as [t c]. cbn [node_tag] in R. subst t.
  exists i, (length_text (rt_data (node_tag n))). apply in_app_iff. right. apply in_app_iff. left. cbn [tree_lines]. unfold tag_lines. now left.
Qed.
Theorem C127_titles : forall p masks sort op s f ns n ls p' masks' sort' op' s' f' ns' n' ls', text64 p s -> tlv_block masks op s f ns -> occurs n ns -> sheet masks sort op s ls ->
  text64 p' s' -> tlv_block masks' op' s' f' ns' -> occurs n' ns' -> sheet masks' sort' op' s' ls' ->
  exists title title', object_titled ls (rt_tag (node_tag n)) title /\ object_titled ls' (rt_tag (node_tag n')) title' /\ (title = title' -> title = unknown \/ rt_tag (node_tag n) = rt_tag (node_tag n')).
Proof.
  intros p masks sort op s f ns n ls p' masks' sort' op' s' f' ns' n' ls' T B O H T' B' O' H'. exists (tag_title (node_tag n)), (tag_title (node_tag n')).
  split; [now apply (titled_shown p masks sort op s f ns)|]. split; [now apply (titled_shown p' masks' sort' op' s' f' ns')|]. intros E.
  destruct (title_listed (node_tag n)) as [X|X]; [now left|]. destruct (title_listed (node_tag n')) as [X'|X']; [left; congruence|]. right. rewrite E in X. exact (listed_once _ _ _ X X').
Qed.
(* Runs of the program. *)
Theorem C127_program : forall p e m st s, load_settings e m = Ok st -> SpecMain.chosen m OpIdentify s -> text64 p s ->
  hex_bytes s = [] /\ complains (run_main p e m) (ByteCountIncorrect Gt 1 0)
  \/ exists ls x, displays (run_main p e m) ls /\ (forall y, named ls y <-> y = x)
    /\ (x <> unknown -> ber_tag (hex_bytes s) /\ (of_type ls (lit "Constructed") <-> In (hex_bytes s) templates) /\ (of_class ls (lit "Application") \/ of_class ls (lit "Context-Specific")))
    /\ forall p' e' m' st' s' ls', shows p' e' m' st' OpIdentify s' ls' -> displays (run_main p' e' m') ls' /\ (named ls' x -> x = unknown \/ hex_bytes s' = hex_bytes s).
Proof.
  intros p e m st s L C T. assert (D : hex_bytes s = [] \/ hex_bytes s <> []) by (destruct (hex_bytes s); [now left|right; discriminate]). destruct D as [E|E].
  - left. split; [exact E|]. apply (C61_refused p e m st OpIdentify s); try assumption. now constructor.
  - right. apply (C127_all (set_masking st) (set_sort st)) in E. destruct E as (ls & H). exists ls, (name_of (hex_bytes s)). pose proof H as H0. apply identified_lines in H0. destruct H0 as (b & t & _ & A & _). split.
    + apply (C73_shown p e m st OpIdentify s ls L C T H). destruct (identified _ _ _ _ H) as (b' & t' & E & _ & Q). rewrite E in Q. rewrite (Q _ eq_refl). intros _. reflexivity.
    + split; [exact A|]. assert (I : named ls (name_of (hex_bytes s))) by now apply A. split.
      * intros Nx. split; [exact (C127_complete _ _ _ _ _ H I Nx)|]. destruct (C127_kinds _ _ _ _ _ H I Nx) as (K1 & _ & K2). auto.
      * intros p' e' m' st' s' ls' S. split; [now apply (shows_displays p' e' m' st' OpIdentify s')|]. intros I'. destruct (name_listed (hex_bytes s)) as [[X _]|[X _]]; [now left|]. right. destruct S as (_ & _ & _ & H' & _).
        exact (C127_tells _ _ _ _ _ _ _ _ _ H' H I' I (listed_known _ _ X)).
Qed.
Theorem C127_program_titles : forall p e m st op s f ns n ls p' e' m' st' op' s' f' ns' n' ls', shows p e m st op s ls -> shows p' e' m' st' op' s' ls' ->
  tlv_block (set_masking st) op s f ns -> occurs n ns -> tlv_block (set_masking st') op' s' f' ns' -> occurs n' ns' ->
  displays (run_main p e m) ls /\ displays (run_main p' e' m') ls'
  /\ exists title title', object_titled ls (rt_tag (node_tag n)) title /\ object_titled ls' (rt_tag (node_tag n')) title' /\ (title = title' -> title = unknown \/ rt_tag (node_tag n) = rt_tag (node_tag n')).
Proof.
  intros p e m st op s f ns n ls p' e' m' st' op' s' f' ns' n' ls' A A' B O B' O'. split; [now apply (shows_displays p e m st op s)|]. split; [now apply (shows_displays p' e' m' st' op' s')|].
  destruct A as (_ & _ & T & H & _), A' as (_ & _ & T' & H' & _). now apply (C127_titles p (set_masking st) (set_sort st) op s f ns n ls p' (set_masking st') (set_sort st') op' s' f' ns' n' ls').
Qed.
(* A tag, a template, and a whole object given as a tag. *)
Definition with_identify (s : str) : matches :=
  mkMatches None None None None None None (Some s) None None None None (Some (lit "auto", SrcDefault)) (Some ([42], SrcDefault)) (Some (true, SrcDefault)) (Some (false, SrcDefault)).
Example C127_example : (exists ls, sheet [42] true OpIdentify (lit "9F 02") ls /\ named ls (lit "Amount, Authorised (Numeric)") /\ lit "Amount, Authorised (Numeric)" <> unknown)
  /\ (exists ls, sheet [42] true OpIdentify (lit "70") ls /\ named ls (lit "READ RECORD Response Message Template") /\ In (hex_bytes (lit "70")) templates)
  /\ (exists ls, sheet [42] true OpIdentify (lit "9B02F800") ls /\ ber_tag [0x9B] /\ hex_bytes (lit "9B02F800") = [0x9B] ++ [0x02; 0xF8; 0x00])
  /\ (exists ls, sheet [42] true OpIdentify (lit "9F") ls /\ ber_tag [0x9F; 0x02] /\ [0x9F; 0x02] = hex_bytes (lit "9F") ++ [0x02]).
Proof.
  assert (S : forall s, hex_bytes s <> [] -> exists ls, sheet [42] true OpIdentify s ls /\ named ls (name_of (hex_bytes s))).
  { intros s Nn. apply (C127_all [42] true) in Nn. destruct Nn as (ls & H). exists ls. split; [exact H|]. apply identified_lines in H. destruct H as (b & t & _ & A & _). now apply A. }
  split; [|split; [|split]].
  - destruct (S (lit "9F 02") ltac:(vm_compute; discriminate)) as (ls & H & I). exists ls. split; [exact H|]. split; [|intros K; apply (f_equal (@List.length N)) in K; vm_compute in K; discriminate K].
    assert (E : name_of (hex_bytes (lit "9F 02")) = lit "Amount, Authorised (Numeric)") by (vm_compute; reflexivity). now rewrite E in I.
  - destruct (S (lit "70") ltac:(vm_compute; discriminate)) as (ls & H & I). exists ls. split; [exact H|]. split; [|change (hex_bytes (lit "70")) with [0x70]; unfold templates; cbn [In]; tauto].
    assert (E : name_of (hex_bytes (lit "70")) = lit "READ RECORD Response Message Template") by (vm_compute; reflexivity). now rewrite E in I.
  - destruct (S (lit "9B02F800") ltac:(vm_compute; discriminate)) as (ls & H & _). exists ls. split; [exact H|]. split; [constructor; vm_compute; discriminate|vm_compute; reflexivity].
  - destruct (S (lit "9F") ltac:(vm_compute; discriminate)) as (ls & H & _). exists ls. split; [exact H|]. split; [apply (ber_tag_long 0x9F [] 0x02); [reflexivity|constructor|reflexivity]|vm_compute; reflexivity].
Qed.
Example C127_program_example : load_settings plain_env (with_identify (lit "BF0C")) = Ok (mkSettings TAuto [42] true) /\ SpecMain.chosen (with_identify (lit "BF0C")) OpIdentify (lit "BF0C") /\ In (hex_bytes (lit "BF0C")) templates.
Proof.
  split; [now apply plain_settings|]. split.
  - split; [reflexivity|]. exists [OpTvr; OpIad; OpCvr; OpTsi; OpCvmResults; OpCvmList], [OpAuto; OpBer; OpIngenico; OpServiceCode]. split; [reflexivity|]. repeat constructor.
  - change (hex_bytes (lit "BF0C")) with [0xBF; 0x0C]. unfold templates. cbn [In]. tauto.
Qed.
