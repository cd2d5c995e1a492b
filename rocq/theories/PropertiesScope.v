(** The properties of what each setting changes. *)

From Coq Require Import ZArith NArith String List Bool Lia ZifyN ZifyBool ZifyNat Permutation Sorting.
From Verif Require Import Base ModelUtil ModelEnums ModelBitflag ModelSchemas ModelTags ModelTlv ModelValues ModelProcess ModelDisplay
  SpecUtil SpecCodes SpecValues SpecTlv SpecIngenico SpecTags SpecProcess SpecDisplay
  ProofsUtil ProofsGrammar ProofsBer ProofsIngenico ProofsValues PropertiesValues
  PropertiesBer PropertiesIngenico ProofsProcess PropertiesProcess ProofsDisplay ProofsDiagram ProofsScreens ProofsLayout PropertiesDisplay
  SpecPictures ProofsPictures ModelMain SpecMain ProofsMain PropertiesMain ModelCli SpecCli ProofsCli PropertiesCli PropertiesPictures
  SpecReading PropertiesReading ModelTerminal SpecTerminal ProofsTerminal PropertiesTerminal SpecTells ProofsTells PropertiesTells SpecMasking PropertiesMasking SpecJoin PropertiesJoin SpecScope.
Import ListNotations.
Local Open Scope N_scope.

Lemma same_chosen m m' op s : same_operations m m' -> chosen m op s -> chosen m' op s.
Proof.
  intros S (G & b & a & E & F). split; [now rewrite <- S|]. exists b, a. split; [assumption|]. rewrite Forall_forall in *. intros o I. rewrite <- S. now apply F.
Qed.

(** ** Lines in another order *)

Lemma separated_perm l : Permutation (separated l) (List.concat l ++ repeat blank (pred (List.length l))).
Proof.
  induction l as [|x l IH]; [constructor|]. rewrite separated_cons. cbn [List.concat List.length pred]. rewrite <- app_assoc. apply Permutation_app_head.
  destruct l as [|y l]; [constructor|]. rewrite IH. cbn [List.length pred repeat]. apply Permutation_middle.
Qed.
Lemma concat_perm {A} (l l' : list (list A)) : Permutation l l' -> Permutation (List.concat l) (List.concat l').
Proof.
  induction 1; cbn [List.concat]; [constructor|now apply Permutation_app_head| |now transitivity (List.concat l')].
  rewrite !app_assoc. apply Permutation_app_tail, Permutation_app_comm.
Qed.
Lemma separated_reordered l l' : Permutation l l' -> Permutation (separated l) (separated l').
Proof. intros P. rewrite !separated_perm, (Permutation_length P). now apply Permutation_app_tail, concat_perm. Qed.
Lemma each_length {A B} (R : A -> B -> Prop) l l' : Forall2 R l l' -> List.length l = List.length l'.
Proof. induction 1; cbn [List.length]; congruence. Qed.
Lemma separated_each {A} (f g : A -> list line) l l' : Forall2 (fun a b => Permutation (f a) (g b)) l l' -> Permutation (separated (map f l)) (separated (map g l')).
Proof.
  intros F. rewrite !separated_perm, !map_length. assert (E : List.length l = List.length l') by now apply (each_length _ _ _ F). rewrite E. apply Permutation_app_tail.
  clear E. induction F; cbn [map List.concat]; [constructor|now apply Permutation_app].
Qed.
Lemma in_order_lines l l' : in_order l l' -> forall i show, Permutation (forest_lines l i show) (forest_lines l' i show).
Proof.
  apply (in_order_ind2 (fun l l' _ => forall i show, Permutation (forest_lines l i show) (forest_lines l' i show))
    (fun m l' _ => forall i show, Forall2 (fun a b => Permutation (tree_lines show a i) (tree_lines show b i)) m l')); clear.
  - intros l m l' P _ _ _ IH i show. unfold forest_lines. transitivity (separated (map (fun n => tree_lines show n i) m)).
    + now apply separated_reordered, Permutation_map.
    + now apply separated_each.
  - constructor.
  - intros t c c' m l' O IH _ IH' i show. constructor; [|apply IH']. cbn [tree_lines]. apply Permutation_app_head.
    specialize (IH (i + 1) show). unfold forest_lines in IH.
    destruct c as [|n c], c' as [|n' c']; [constructor|inversion O as [? m0 ? P _ _ Ea]; subst; apply Permutation_nil in P; subst; inversion Ea
      |inversion O as [? m0 ? P _ _ Ea]; subst; inversion Ea; subst; apply Permutation_sym, Permutation_nil in P; discriminate|now constructor].
Qed.
Lemma deepest_perm ls ls' : Permutation ls ls' -> deepest ls = deepest ls'.
Proof. unfold deepest. induction 1; cbn [map fold_right]; lia. Qed.
Lemma sheets_reordered p masks op s ls ls' : text64 p s -> sheet masks true op s ls -> sheet masks false op s ls' -> Permutation ls ls'.
Proof.
  intros T H H'. inversion H as [f q I Q|n E D L|f ns ns' B O S]; subst.
  - destruct (sheet_of_value _ _ _ _ _ f I H') as (q' & Q' & ->). rewrite Q in Q'. injection Q' as <-. reflexivity.
  - assert (X : sheet masks false OpServiceCode s (service_picture n 0 true)) by now apply sheet_service_code.
    destruct (C73_total p masks false OpServiceCode s T) as [(l0 & _ & U & _)|(e & _ & _ & N)]; [|now apply N in X]. now rewrite (U _ X), (U _ H').
  - assert (X : sheet masks false op s (format_lines f ++ forest_lines ns 0 true)) by now apply (sheet_block _ _ _ _ f ns ns).
    destruct (C73_total p masks false op s T) as [(l0 & _ & U & _)|(e & _ & _ & N)]; [|now apply N in X]. rewrite (U _ H'), <- (U _ X).
    apply Permutation_app_head. symmetry. now apply in_order_lines.
Qed.

(** ** C93: what each setting changes *)

(* The colour setting changes nothing of what is printed (only the escape sequences around it,
   C77). *)
Theorem C93_colour : forall p e m st e' m' st', load_settings e m = Ok st -> load_settings e' m' = Ok st' -> same_operations m m' ->
  set_masking st = set_masking st' -> set_sort st = set_sort st' -> run_main p e m = run_main p e' m'.
Proof.
  intros p e m st e' m' st' L L' S M O. destruct (chosen_or_none m) as [(op & s & C)|N].
  - rewrite (main_chosen p e m st op s L C), (main_chosen p e' m' st' op s L' (same_chosen _ _ _ _ S C)). unfold run_one. now rewrite M, O.
  - rewrite (main_none p e m st L N), (main_none p e' m' st' L'); [reflexivity|]. intros o. now rewrite <- S.
Qed.
(* No setting changes what the operations on single values print. *)
Theorem C93_value : forall p e m st e' m' st' op s, load_settings e m = Ok st -> load_settings e' m' = Ok st' ->
  chosen m op s -> chosen m' op s -> ~ tlv_operation op -> run_main p e m = run_main p e' m'.
Proof.
  intros p e m st e' m' st' op s L L' C C' N. rewrite (main_chosen p e m st op s L C), (main_chosen p e' m' st' op s L' C').
  unfold run_one. unfold tlv_operation in N. destruct op; try reflexivity; exfalso; tauto.
Qed.
(* Sorting changes the order of the lines and nothing else. *)
Theorem C93_sort : forall p e m st e' m' st' op s, load_settings e m = Ok st -> load_settings e' m' = Ok st' ->
  chosen m op s -> chosen m' op s -> text64 p s -> set_masking st = set_masking st' -> set_sort st = true -> set_sort st' = false ->
  reordered (set_masking st) op s (run_main p e m) (run_main p e' m').
Proof.
  intros p e m st e' m' st' op s L L' C C' T M O O'.
  destruct (C73_total p (set_masking st) true op s T) as [(ls & H & _ & N)|(er & R & _)].
  - destruct (C73_total p (set_masking st) false op s T) as [(ls' & H' & _)|(er & R & _)]; [|now apply N in R].
    right. exists ls, ls'. pose proof (sheets_reordered p _ op s ls ls' T H H') as P. split; [assumption|]. split; [assumption|]. split; [assumption|].
    pose proof H as H1. pose proof H' as H1'. rewrite <- O in H1. rewrite M, <- O' in H1'.
    destruct (C73_overflow p e m st op s ls L C T H1) as [V1 V2], (C73_overflow p e' m' st' op s ls' L' C' T H1') as [V1' V2'].
    rewrite <- (deepest_perm _ _ P) in V2'. destruct (N.lt_ge_cases (deepest ls) 256) as [Lt|Ge].
    + left. split; [apply (C73_shown p e m st op s ls)|apply (C73_shown p e' m' st' op s ls')]; try assumption; intros _; [|rewrite <- (deepest_perm _ _ P)]; assumption.
    + destruct (overflow_checks p) eqn:V.
      * right. split; [apply V2|apply V2']; auto.
      * left. split; [apply (C73_shown p e m st op s ls)|apply (C73_shown p e' m' st' op s ls')]; try assumption; intros Z; congruence.
  - left. exists er. split; [now apply (C61_refused p e m st op s)|]. rewrite M in R. now apply (C61_refused p e' m' st' op s).
Qed.

(* More masking characters bring no lines but those in place of masked values. *)
Lemma separated_in (l : list (list line)) x : In x (separated l) -> (exists y, In y l /\ In x y) \/ x = blank /\ (2 <= List.length l)%nat.
Proof.
  induction l as [|y l IH]; [intros []|]. rewrite separated_cons. intros I. apply in_app_or in I. destruct I as [I|I]; [left; exists y; cbn; tauto|].
  destruct l as [|z l]; [destruct I|]. destruct I as [<-|I]; [right; split; [reflexivity|cbn; lia]|].
  destruct (IH I) as [(w & Iw & K)|[-> K]]; [left; exists w; cbn in *; tauto|right; split; [reflexivity|cbn in *; lia]].
Qed.
Lemma in_separated (l : list (list line)) x : (exists y, In y l /\ In x y) \/ x = blank /\ (2 <= List.length l)%nat -> In x (separated l).
Proof.
  induction l as [|y l IH]; [intros [(y & [] & _)|[_ K]]; cbn in K; lia|]. rewrite separated_cons. intros [(w & [->|I] & K)|[-> K]]; apply in_or_app.
  - now left.
  - right. destruct l as [|z l]; [destruct I|]. right. apply IH. left. eauto.
  - right. destruct l as [|z l]; [cbn in K; lia|]. now left.
Qed.
Lemma hides_lines show : forall l l', hides_some l l' -> List.length l = List.length l'
  /\ forall i x, In x (forest_lines l' i show) -> In x (forest_lines l i show) \/ mask_row x.
Proof.
  unfold hides_some. assert (K : forall l l', Forall2 (fun n n' => forall i x, In x (tree_lines show n' i) -> In x (tree_lines show n i) \/ mask_row x) l l' ->
    forall i x, In x (forest_lines l' i show) -> In x (forest_lines l i show) \/ mask_row x).
  { intros l l' F i x I. unfold forest_lines in *. destruct (separated_in _ _ I) as [(y & Iy & J)|[-> J]].
    - apply in_map_iff in Iy. destruct Iy as (n' & <- & In'). assert (G : exists n, In n l /\ forall i x, In x (tree_lines show n' i) -> In x (tree_lines show n i) \/ mask_row x).
      { clear -F In'. induction F as [|a b l l' H F IH]; [destruct In'|]. destruct In' as [->|I]; [exists a; cbn; auto|]. destruct (IH I) as (n & Hn & G). exists n. cbn. auto. }
      destruct G as (n & Hn & G). destruct (G i x J) as [Z|Z]; [left|now right]. apply in_separated. left. exists (tree_lines show n i). split; [|assumption].
      apply in_map_iff. eauto.
    - left. apply in_separated. right. split; [reflexivity|]. rewrite map_length in *. pose proof (each_length _ _ _ F). lia. }
  intros l l' H. assert (X : Forall2 (fun n n' => forall i x, In x (tree_lines show n' i) -> In x (tree_lines show n i) \/ mask_row x) l l').
  { revert l l' H. apply (hides_all_mind (fun _ => True) (fun _ => True)
      (fun n n' _ => forall i x, In x (tree_lines show n' i) -> In x (tree_lines show n i) \/ mask_row x)
      (fun l l' _ => Forall2 (fun n n' => forall i x, In x (tree_lines show n' i) -> In x (tree_lines show n i) \/ mask_row x) l l')).
    - intros t c ty v below _ i x I. right. cbn [tree_lines] in I. rewrite app_nil_r in I. unfold tag_lines, data_lines, meaning_lines in I. cbn [rt_data app] in I.
      destruct I as [<-|[<-|[]]]; exists i; [right; exists (mkRawTag t c ty Masked); split; reflexivity|now left].
    - intros t c ty i x I. now left.
    - intros t c ty v below below' _ Hs F i x I. cbn [tree_lines] in *. apply in_app_or in I. destruct I as [I|I]; [left; apply in_or_app; now left|].
      destruct below' as [|n' below']; [destruct I|]. assert (N : below <> []) by (intros ->; inversion F). destruct I as [<-|I].
      + left. apply in_or_app. right. destruct below; [congruence|now left].
      + destruct (K _ _ F (i + 1) x I) as [Z|Z]; [left|now right]. apply in_or_app. right. destruct below; [congruence|]. right. exact Z.
    - constructor.
    - intros n n' l l' _ IH _ F. now constructor. }
  split; [exact (each_length _ _ _ X)|now apply K].
Qed.
Theorem C93_masking : forall p masks masks' sort op s ls ls', text64 p s -> op = OpBer \/ op = OpIngenico -> incl masks masks' ->
  sheet masks sort op s ls -> sheet masks' sort op s ls' -> forall l, In l ls' -> In l ls \/ mask_row l.
Proof.
  assert (U : forall p masks sort op s ls, text64 p s -> op = OpBer \/ op = OpIngenico -> sheet masks sort op s ls ->
    exists ns, tlv_result p masks op s = Some (Ok (None, ns)) /\ Permutation ls (forest_lines ns 0 true)).
  { intros p masks sort op s ls T Op H. inversion H as [f q X|n X|f ns ns' B O S]; subst.
    { exfalso. destruct Op as [-> | ->]; cbn in X; repeat (destruct X as [X|X]; [discriminate X|]); destruct X. }
    { exfalso. destruct Op; discriminate. }
    exists ns. assert (Ef : f = None) by (destruct Op as [-> | ->]; inversion B; reflexivity). subst f. split.
    - destruct Op as [-> | ->]; cbn [tlv_result]; f_equal; [apply (tlv_settles p masks OpBer s _ T eq_refl)|apply (tlv_settles p masks OpIngenico s _ T eq_refl)]; assumption.
    - cbn [format_lines app]. destruct sort; [symmetry; now apply in_order_lines|now subst]. }
  intros p masks masks' sort op s ls ls' T Op I H H' l J.
  destruct (U p _ _ _ _ _ T Op H) as (ns & E & P), (U p _ _ _ _ _ T Op H') as (ns' & E' & P').
  assert (X : hides_some ns ns').
  { destruct Op as [-> | ->]; cbn [tlv_result] in E, E'.
    - destruct (ber_parse p masks (parse_hex_str s)) as [x| | |] eqn:Ex; try discriminate. destruct (ber_parse p masks' (parse_hex_str s)) as [x'| | |] eqn:Ex'; try discriminate.
      cbn in E, E'. injection E as <-. injection E' as <-. destruct (C74_ber p masks masks' _ x (hex_input64 p s T) I Ex) as (y & Ey & Hy). rewrite Ey in Ex'. injection Ex' as <-.
      revert Hy. apply hides_weaken; auto.
    - destruct (ingenico_parse p masks s) as [x| | |] eqn:Ex; try discriminate. destruct (ingenico_parse p masks' s) as [x'| | |] eqn:Ex'; try discriminate.
      cbn in E, E'. injection E as <-. injection E' as <-. destruct (C74_ingenico p masks masks' s x T I Ex) as (y & Ey & Hy). rewrite Ey in Ex'. now injection Ex' as <-. }
  apply (Permutation_in _ P') in J. destruct (proj2 (hides_lines true _ _ X) 0 l J) as [Z|Z]; [left|now right]. apply (Permutation_in _ (Permutation_sym P)). exact Z.
Qed.
(* A setting that an operation has no use for still has to be readable. *)
Theorem C93_unused_refuted : exists e e' m op s st, ~ tlv_operation op /\ chosen m op s /\ load_settings e m = Ok st /\ o_panic (run_main p64 e m) = false
  /\ (exists v, e_vars e = [("masking_characters"%string, CArr [CStr [42]])] /\ e' = mkEnv (e_file e) [("masking_characters"%string, v)] (e_profile e) (e_tty e) (e_cli_profile e))
  /\ o_panic (run_main p64 e' m) = true.
Proof.
  exists (mkEnv (Some (fun _ => [])) [("masking_characters"%string, CArr [CStr [42]])] ProfDefault true ProfGlobal),
    (mkEnv (Some (fun _ => [])) [("masking_characters"%string, CStr [42])] ProfDefault true ProfGlobal), (with_service_code (lit "201")), OpServiceCode, (lit "201"), (mkSettings TAuto [42] true).
  split; [intros [K|[K|K]]; discriminate|]. split; [apply only_chosen; split; [reflexivity|intros []; try reflexivity; contradiction]|].
  split; [vm_compute; reflexivity|]. split; [vm_compute; reflexivity|]. split; [eexists; split; reflexivity|]. vm_compute. reflexivity.
Qed.
Example C93_example : exists e e' m m' st st' ls ls', load_settings e m = Ok st /\ load_settings e' m' = Ok st' /\ chosen m OpBer (lit "9B02E800 5A0131") /\ chosen m' OpBer (lit "9B02E800 5A0131")
  /\ text64 p64 (lit "9B02E800 5A0131") /\ set_masking st = set_masking st' /\ set_sort st = true /\ set_sort st' = false
  /\ displays (run_main p64 e m) ls /\ displays (run_main p64 e' m') ls' /\ o_stdout (run_main p64 e m) <> o_stdout (run_main p64 e' m').
Proof.
  set (s := lit "9B02E800 5A0131"). set (e' := mkEnv (Some (fun _ => [])) [("sort_parsed_tags"%string, CBool false)] ProfDefault true ProfGlobal).
  assert (L : load_settings plain_env (with_ber s) = Ok (mkSettings TAuto [42] true)) by (vm_compute; reflexivity).
  assert (L' : load_settings e' (with_ber s) = Ok (mkSettings TAuto [42] false)) by (vm_compute; reflexivity).
  assert (C : chosen (with_ber s) OpBer s) by (apply only_chosen; split; [reflexivity|intros []; try reflexivity; contradiction]).
  assert (T : text64 p64 s) by (split; vm_compute; reflexivity).
  assert (P : o_panic (run_main p64 plain_env (with_ber s)) = false) by (vm_compute; reflexivity).
  assert (Q : o_stderr (run_main p64 plain_env (with_ber s)) = []) by (vm_compute; reflexivity).
  destruct (C93_sort p64 _ _ _ _ _ _ _ _ L L' C C T eq_refl eq_refl eq_refl) as [(er & (_ & _ & _ & K) & _)|(ls & ls' & _ & _ & _ & [[D D']|[K _]])].
  - exfalso. rewrite Q in K. destruct (error_text er); discriminate K.
  - exists plain_env, e', (with_ber s), (with_ber s). do 2 eexists. exists ls, ls'. do 2 (split; [eassumption|]). do 2 (split; [exact C|]). split; [exact T|].
    do 3 (split; [reflexivity|]). do 2 (split; [assumption|]). vm_compute. intros K. discriminate K.
  - exfalso. congruence.
Qed.
