(** The properties of the environment variables and of the program in its environment. *)

From Coq Require Import NArith List String Ascii Bool PeanoNat Lia ZifyN ZifyBool ZifyNat Permutation.
From Verif Require Import Base ModelUtil ModelTlv ModelValues ModelProcess ModelDisplay ModelCli SpecUtil SpecTlv SpecIngenico SpecDisplay SpecCli
  PropertiesBer ProofsUtil ProofsValues ModelMain SpecMain ProofsMain PropertiesMain ProofsCli PropertiesCli ModelWords SpecWords ProofsWords PropertiesWords SpecValues SpecPictures ModelTerminal SpecTerminal PropertiesTerminal ModelEnv SpecEnv ProofsEnv.
Import ListNotations.
Local Open Scope N_scope.

(** C80: what environment variables say. *)
Theorem C80_texts : forall s v, value_of_text s = v <-> stands_for s v.
Proof. exact value_iff. Qed.
Theorem C80_variables : forall w k v, dict_get (e_vars (environment_of w)) k = Some v <-> assigns (w_vars w) k v.
Proof. intros w k v. apply env_dict_iff. Qed.
Theorem C80_file : forall w file, e_file (environment_of w) = Some file <-> uses_file w file.
Proof.
  intros w file. unfold uses_file. change (e_file (environment_of w)) with (w_files w (env_var_or (w_vars w) (lit "PEMV_CONFIG") (lit "pemv.toml"))).
  pose proof (fun t => variable_iff (w_vars w) "pemv_config" "PEMV_CONFIG" "pemv.toml" t eq_refl eq_refl) as V. split.
  - intros H. eexists. split; [apply V; reflexivity|exact H].
  - intros (f & Vf & H). apply V in Vf. now rewrite Vf.
Qed.
Theorem C80_profile : forall w pr, e_profile (environment_of w) = pr <-> uses_profile w pr.
Proof.
  intros w pr. unfold uses_profile. change (e_profile (environment_of w)) with (profile_named (env_var_or (w_vars w) (lit "PEMV_PROFILE") (lit "default"))).
  pose proof (fun t => variable_iff (w_vars w) "pemv_profile" "PEMV_PROFILE" "default" t eq_refl eq_refl) as V. split.
  - intros H. eexists. split; [apply V; reflexivity|now apply profile_iff].
  - intros (s & Vs & H). apply V in Vs. rewrite Vs. now apply profile_iff.
Qed.
(* No other variable matters. *)
Lemma entry_irrelevant x : ~ relevant (fst x) -> env_entry x = [].
Proof.
  intros N. unfold env_entry. destruct (env_key (fst x)) as [[a r]|] eqn:E; [|reflexivity]. destruct (setting_of_key a) as [k|] eqn:S; [|reflexivity].
  apply setting_of_key_inv in S. destruct S as [-> J]. exfalso. apply N. right. right. exists k. split; [assumption|]. pose proof (env_key_sound _ k r J E) as X. destruct r; [now left|now right].
Qed.
Theorem C80_only : forall p before x after files tty cp ws, ~ relevant (fst x) ->
  run_outside p (mkWorld (before ++ x :: after) files tty cp) ws = run_outside p (mkWorld (before ++ after) files tty cp) ws.
Proof.
  intros p before x after files tty cp ws N. unfold run_outside.
  assert (E : environment_of (mkWorld (before ++ x :: after) files tty cp) = environment_of (mkWorld (before ++ after) files tty cp)); [|now rewrite E].
  assert (V : forall n m d, map ascii_lower (lit m) = lit n -> map ascii_lower (lit n) = lit n -> ~ named (fst x) n ->
            env_var_or (before ++ x :: after) (lit m) d = env_var_or (before ++ after) (lit m) d).
  { intros n m d L1 L2 Nn. unfold env_var_or. assert (K : env_var (before ++ x :: after) (lit m) = env_var (before ++ after) (lit m)); [|now rewrite K].
    induction before as [|[k v] b IH]; cbn [app env_var]; [|now rewrite IH]. destruct x as [k v]. destruct (uncased_eqb (trim k) (lit m)) eqn:U; [|reflexivity].
    apply (named_iff k n m L1 L2) in U. contradiction. }
  unfold environment_of. cbn [w_vars w_files w_tty w_cli_profile].
  change (env_prefix ++ env_file_name_override) with (lit "PEMV_CONFIG"). change (env_prefix ++ env_profile) with (lit "PEMV_PROFILE").
  rewrite (V "pemv_config"%string), (V "pemv_profile"%string); try reflexivity; [|intros K; apply N; right; now left|intros K; apply N; now left]. f_equal.
  unfold env_dict. rewrite !fold_left_app. cbn [fold_left]. now rewrite (entry_irrelevant x N).
Qed.
(* Which texts are usable for which setting. *)
Lemma white_not_separator c : is_white_space c -> ~ separator c /\ c <> 34 /\ c <> 39.
Proof. unfold is_white_space, white_space_chars, separator. cbn [In]. intros K. repeat (destruct K as [K|K]; [subst; lia|]). destruct K. Qed.
Lemma blank_white c : blank_char c -> is_white_space c.
Proof. unfold blank_char, is_white_space, white_space_chars. cbn [In]. intuition lia. Qed.
Lemma blanks_white a : Forall blank_char a -> Forall is_white_space a.
Proof. intros F. eapply Forall_impl; [|exact F]. intros c. apply blank_white. Qed.
Lemma stripped_blanks a s w : Forall blank_char a -> stripped (a ++ s) w <-> stripped s w.
Proof. intros A. rewrite <- !trim_stripped. unfold trim. now rewrite (trim_start_app a s (blanks_white a A)). Qed.
Lemma word_stands t w v : stripped t w -> Forall (fun c => ~ separator c) w -> (forall c r, w = c :: r -> c <> 34 /\ c <> 39) -> word_value w v -> literal t v.
Proof.
  intros S F H V. destruct (skip_split t) as (a & E & A & Hs). remember (skip_blanks t) as s eqn:Z. clear Z. subst t. apply (stripped_blanks a s w A) in S.
  destruct S as [N (x & y & Es & X & Y)]. assert (S : stripped s w) by (split; [assumption|exists x, y; auto]). apply (literal_word a s w); try assumption.
  - rewrite Es. assert (G : forall z, Forall is_white_space z -> Forall (fun c => ~ separator c) z) by (intros z Z; eapply Forall_impl; [|exact Z]; intros c K; now apply white_not_separator).
    apply Forall_app. split; [now apply G|]. apply Forall_app. split; [assumption|now apply G].
  - intros c r Ec. split; [now apply (Hs c r)|]. rewrite Es in Ec. destruct x as [|x0 x].
    + destruct w as [|w0 w]; [|injection Ec as <- _; now apply (H w0 w)]. cbn [app] in Ec. subst y. inversion Y; subst. now apply white_not_separator.
    + injection Ec as <- _. inversion X; subst. now apply white_not_separator.
Qed.
Lemma stands_word t n : Forall (fun c => ~ separator c /\ c <> 34 /\ c <> 39) (lit n) -> forall v, stripped t (lit n) -> word_value (lit n) v -> stands_for t v.
Proof.
  intros F v S V. left. apply (word_stands t (lit n)); try assumption; [eapply Forall_impl; [|exact F]; intros c K; apply K|].
  intros c r E. rewrite E in F. inversion F as [|? ? K]; subst. apply K.
Qed.
Ltac letters := cbn; repeat (apply Forall_cons; [split; [let K := fresh in intros K; cbn [separator In] in K; repeat (destruct K as [K|K]; [discriminate K|]); exact K|split; discriminate]|]); apply Forall_nil.
Theorem C80_sort : forall t b, (exists v, stands_for t v /\ sort_value v b) <-> stripped t (lit (if b then "true" else "false")).
Proof.
  intros t b. unfold sort_value. split.
  - intros (v & [L|[_ K]] & E); subst v; [|discriminate]. inversion L as [a s w v A S H W V| | | |]; subst. apply (stripped_blanks a s w A) in W.
    destruct V as [[-> V]|[[-> V]|[[_ [(i & _ & V)|[_ V]]]|(_ & _ & _ & V)]]]; try discriminate; injection V as ->; exact W.
  - intros S. exists (CBool b). split; [|reflexivity]. destruct b; [apply (stands_word t "true" ltac:(letters) _ S); left; auto|apply (stands_word t "false" ltac:(letters) _ S); right; left; auto].
Qed.
(* The names, or the numbers 0 to 3 (with leading zeros or a sign). *)
Theorem C80_colour : forall t c, (exists v, stands_for t v /\ colour_value v c)
  <-> (exists n, In (c, n) colour_names /\ (stripped t (lit n) \/ quoted t (lit n))) \/ (exists w i, In (c, i) colour_numbers /\ stripped t w /\ whole w i).
Proof.
  assert (G : forall c n, In (c, n) colour_names -> Forall (fun x => ~ separator x /\ x <> 34 /\ x <> 39) (lit n) /\ Forall text_char (lit n) /\ word_value (lit n) (CStr (lit n))
    /\ stripped (lit n) (lit n)).
  { intros c n I. cbn [colour_names In] in I. repeat (destruct I as [I|I]; [injection I as <- <-|]); try contradiction;
      (split; [letters|split; [cbn; repeat constructor; unfold text_char; lia|split; [|apply trim_stripped; reflexivity]]]);
      right; right; right; (split; [discriminate|split; [discriminate|split; [|reflexivity]]]); rewrite <- number_iff; discriminate. }
  intros t c. unfold colour_value. split.
  - intros (v & St & [(n & I & ->)|(i & I & ->)]).
    2: { right. destruct St as [L|[N K]]; [|discriminate K]. inversion L as [a s w v A S H W V| | | |]; subst. exists w, i. split; [assumption|]. split; [now apply (stripped_blanks a s w A)|].
         destruct V as [[-> V]|[[-> V]|[[_ [(j & V' & V)|[_ V]]]|(_ & _ & _ & V)]]]; try discriminate. now injection V as ->. }
    left. exists n. split; [assumption|]. destruct (G c n I) as (G1 & G2 & G3 & G4). destruct St as [L|[N K]].
    + inversion L as [a s w v A S H W V| |a s b A S B| |]; subst.
      * left. apply (stripped_blanks a s w A) in W. destruct V as [[-> V]|[[-> V]|[[_ [(j & _ & V)|[_ V]]]|(_ & _ & _ & V)]]]; try discriminate. injection V as ->. exact W.
      * right. exists a, b. auto.
    + injection K as <-. exfalso. apply (N (CStr (lit n))). apply (word_stands _ (lit n)); try assumption; [eapply Forall_impl; [|exact G1]; intros x K; apply K|].
      intros x r E. rewrite E in G1. inversion G1 as [|? ? K]; subst. apply K.
  - intros [(n & I & H)|(w & i & I & S & W)].
    2: { exists (CNum i). split; [|right; eauto]. left. destruct W as (g & d & -> & Sg & NE & D & Ei & B & M). assert (W : whole (g ++ d) i) by (exists g, d; auto 8).
         assert (Ch : forall x, In x (g ++ d) -> ~ separator x /\ x <> 34 /\ x <> 39).
         { intros x Ix. assert (R : x = 43 \/ x = 45 \/ is_dec_digit x).
           { apply in_app_or in Ix. destruct Ix as [Ix|Ix]; [destruct Sg as [->|[->| ->]]; cbn [In] in Ix; intuition|]. right. right. unfold digits in D. rewrite Forall_forall in D. now apply D. }
           unfold separator, is_dec_digit in *. cbn [In]. lia. }
         apply (word_stands t (g ++ d)); [assumption|apply Forall_forall; intros x Ix; now apply Ch| |].
         - intros x r E. apply (Ch x). rewrite E. now left.
         - right. right. left. split; [|left; eauto]. rewrite <- (app_nil_r d). apply numeral_whole; try assumption. now left. }
    destruct (G c n I) as (G1 & G2 & G3 & G4). exists (CStr (lit n)). split; [|left; eauto]. destruct H as [H|(a & b & -> & A & B)].
    + now apply (stands_word t n G1).
    + left. now constructor.
Qed.
(* A number chooses a colour, too. *)
Example C80_colour_example : (exists v, stands_for (lit " +02") v /\ colour_value v CAuto) /\ (exists v, stands_for (lit "-0") v /\ colour_value v CAlways)
  /\ forall c, ~ exists v, stands_for (lit "4") v /\ colour_value v c.
Proof.
  split; [|split].
  - apply C80_colour. right. exists (lit "+02"), 2. split; [cbn; auto|]. split; [apply trim_stripped; reflexivity|]. apply number_u32_iff. reflexivity.
  - apply C80_colour. right. exists (lit "-0"), 0. split; [cbn; auto|]. split; [apply trim_stripped; reflexivity|]. apply number_u32_iff. reflexivity.
  - intros c (v & S & V). apply value_iff in S. vm_compute in S. subst v. destruct V as [(n & _ & K)|(i & I & K)]; [discriminate K|]. injection K as <-. repeat (destruct I as [I|I]; [discriminate I|]). exact I.
Qed.
Lemma numeral_single c : numeral [c] <-> is_dec_digit c.
Proof.
  rewrite <- number_iff, <- is_digit_iff. unfold is_number. cbn [strip_sign].
  assert (X : forall u n, (List.length u <= 1)%nat -> (1 < List.length (lit n))%nat -> uncased_eqb u (lit n) = false).
  { intros u n H H'. unfold uncased_eqb. destruct (leqb _ _) eqn:E; [|reflexivity]. apply leqb_eq in E. apply (f_equal (@List.length N)) in E. rewrite !map_length in E. unfold str in *. lia. }
  destruct ((c =? 43) || (c =? 45)) eqn:E.
  - rewrite !X by (cbn; lia). unfold is_digit. cbn. split; [discriminate|]. lia.
  - rewrite !X by (cbn; lia). unfold is_decimal. cbn [span orb]. destruct (is_digit c) eqn:D; [tauto|]. cbn [is_nil negb andb span]. destruct (c =? 46); cbn; split; congruence.
Qed.
Lemma char_literal x c : (exists v, literal x v /\ (v = CChar c \/ v = CStr [c])) <-> char_item x c.
Proof.
  split.
  - intros (v & L & H). destruct L as [a s w v A S Hd W V|a y b A B|a s b A S B|a s vs b A S B|a s b A S B]; try (destruct H; discriminate).
    + destruct V as [[_ V]|[[_ V]|[[_ [(i & _ & V)|[_ V]]]|(_ & _ & NN & V)]]]; try (destruct H; congruence). destruct H as [H|H]; [congruence|]. rewrite V in H. injection H as ->.
      apply item_bare; try assumption.
      * destruct W as [_ (x & y & -> & _)]. rewrite Forall_forall in S. apply S. apply in_or_app. right. now left.
      * now rewrite <- numeral_single.
    + destruct H as [H|H]; [|discriminate]. injection H as ->. now constructor.
    + destruct H as [H|H]; [discriminate|]. injection H as ->. inversion S; subst. apply item_text; [|assumption]. exists a, b. auto.
  - intros H. destruct H as [a c b A B|t c (a & b & -> & A & B) T|a s c A S Hd N1 N2].
    + exists (CChar c). split; [now constructor|now left].
    + exists (CStr [c]). split; [apply (literal_text a [c] b); [assumption|constructor; [assumption|constructor]|assumption]|now right].
    + exists (CStr [c]). split; [|now right]. apply (literal_word a s [c]); try assumption.
      * destruct S as [_ (x & y & -> & X & Y)]. assert (G : forall z, Forall is_white_space z -> Forall (fun c => ~ separator c) z) by (intros z Z; eapply Forall_impl; [|exact Z]; intros u K; now apply white_not_separator).
        apply Forall_app. split; [now apply G|]. constructor; [assumption|now apply G].
      * right. right. right. split; [discriminate|]. split; [discriminate|]. split; [now rewrite numeral_single|reflexivity].
Qed.
Theorem C80_masking : forall t cs, (exists v, stands_for t v /\ masking_value v cs) <-> char_list t cs.
Proof.
  assert (G1 : forall s vs, items s vs -> forall cs, Forall2 (fun x c => x = CChar c \/ x = CStr [c]) vs cs -> char_items s cs).
  { fix IH 3. intros s vs [|s' v NE L|s' v t vs' L I] cs F.
    - inversion F; subst. constructor.
    - inversion F as [|? c ? ? H F']; subst. inversion F'; subst. constructor. apply char_literal. eauto.
    - inversion F as [|? c ? ? H F']; subst. constructor; [apply char_literal; eauto|]. now apply (IH _ _ I). }
  assert (G2 : forall s cs, char_items s cs -> exists vs, items s vs /\ Forall2 (fun x c => x = CChar c \/ x = CStr [c]) vs cs).
  { induction 1 as [|x c H|x c t cs H _ (vs & I & F)].
    - exists []. split; constructor.
    - assert (NE : x <> []).
      { intros ->. inversion H as [a c' b A B E|t' c' (a & b & E & _)|a s c' A [_ (u & v & -> & _)] Hd N1 N2 E]; subst; try (destruct a; discriminate). destruct a; [|discriminate]. destruct u; discriminate. }
      apply char_literal in H. destruct H as (v & L & H). exists [v]. split; [now apply items_last|constructor; [assumption|constructor]].
    - apply char_literal in H. destruct H as (v & L & H). exists (v :: vs). split; now constructor. }
  intros t cs. unfold masking_value, char_list. split.
  - intros (v & St & vs & -> & F). destruct St as [L|[_ K]]; [|discriminate]. inversion L as [a s w v A S H W V| | |a s vs' b A S B|]; subst.
    + destruct V as [[_ V]|[[_ V]|[[_ [(i & _ & V)|[_ V]]]|(_ & _ & _ & V)]]]; discriminate.
    + exists a, s, b. repeat (split; [assumption||reflexivity|]). split; [now apply (G1 s vs)|assumption].
  - intros (a & s & b & -> & A & I & B). destruct (G2 s cs I) as (vs & Is & F). exists (CArr vs). split; [left; now constructor|eauto].
Qed.
(* A value that is not usable stops the program, unless the command line decides. *)
Definition usable (k : string) (v : cvalue) : Prop :=
  k = "cli_colour"%string /\ (exists c, colour_value v c) \/ k = "masking_characters"%string /\ (exists cs, masking_value v cs)
  \/ k = "sort_parsed_tags"%string /\ (exists b, sort_value v b).
Lemma loaded_file e m st : load_settings e m = Ok st -> (exists file, e_file e = Some file) /\ colour_typed_ok m.
Proof.
  intros L. split.
  - destruct (e_file e) as [file|] eqn:F; [eauto|]. exfalso. now apply (C62_bad_file e m st).
  - intros s T. destruct (colour_try_total s) as [[c K]|K]; [apply colour_try_iff in K; destruct K as (n & K); eauto|]. exfalso.
    apply (C62_bad_colour e m st); [|assumption]. intros X. destruct (X s T) as (c & n & I & S). assert (K' : colour_choice_try_from s = Ok c) by (apply colour_try_iff; eauto). congruence.
Qed.
Theorem C80_unusable : forall p w m k v, w_cli_profile w = ProfGlobal -> assigns (w_vars w) k v -> silent (asks m) k -> ~ usable k v ->
  o_panic (run_main p (environment_of w) m) = true.
Proof.
  intros p w m k v P A S U. apply C62_invalid_panics. intros st L. destruct (loaded_file _ _ _ L) as [(file & F) C].
  apply (C62_precedence (environment_of w) m file st P F C) in L. destruct L as (v1 & v2 & v3 & c & D1 & V1 & _ & D2 & V2 & D3 & V3).
  assert (D : decided (layers (environment_of w) file m) k v) by (apply decided_later; [assumption|]; apply decided_here; now apply C80_variables).
  pose proof (keys_not_both _ k v A) as J. cbn [setting_keys In] in J. apply U.
  destruct J as [<-|[<-|[<-|[]]]].
  - rewrite (C62_decided_once _ _ _ _ _ _ D D1). left. eauto.
  - rewrite (C62_decided_once _ _ _ _ _ _ D D2). right. left. eauto.
  - rewrite (C62_decided_once _ _ _ _ _ _ D D3). right. right. eauto.
Qed.
(* The order of the variables does not matter if no two of them are the same up to the case of letters. *)
Definition overlap (n n' : str) : Prop :=
  named n "pemv_config" /\ named n' "pemv_config" \/ named n "pemv_profile" /\ named n' "pemv_profile"
  \/ exists k, In k setting_keys /\ concerns n k /\ concerns n' k.
Definition exclusive (vars : variables) : Prop := forall x y, In x vars -> In y vars -> overlap (fst x) (fst y) -> x = y.
Lemma load_ext e e' m : e_cli_profile e = ProfGlobal -> e_cli_profile e' = ProfGlobal -> e_file e = e_file e' -> e_tty e = e_tty e' -> e_profile e = e_profile e' ->
  (forall k, dict_get (e_vars e) k = dict_get (e_vars e') k) -> load_settings e m = load_settings e' m.
Proof.
  assert (X : forall e e' m st, e_cli_profile e = ProfGlobal -> e_cli_profile e' = ProfGlobal -> e_file e = e_file e' -> e_tty e = e_tty e' -> e_profile e = e_profile e' ->
    (forall k, dict_get (e_vars e) k = dict_get (e_vars e') k) -> load_settings e m = Ok st -> load_settings e' m = Ok st).
  { clear. intros e e' m st P P' F T Q V L. destruct (loaded_file _ _ _ L) as [(file & Fe) C]. apply (C62_precedence e m file st P Fe C) in L.
    apply (C62_precedence e' m file st P'); [now rewrite <- F|assumption|]. rewrite <- T. refine (in_force_ext _ _ _ _ _ L).
    assert (R : forall ls : list layer, Forall2 (fun (a b : layer) => forall k v, a k v <-> b k v) ls ls) by (induction ls; constructor; [reflexivity|assumption]).
    unfold layers, selected_layers. rewrite <- Q. constructor; [reflexivity|]. constructor; [intros k v; unfold says; now rewrite V|]. apply R. }
  intros P P' F T Q V. destruct (load_settings e m) as [st|er| |] eqn:L.
  - symmetry. now apply (X e e' m st).
  - assert (K : load_settings e m = Panic) by (apply load_bad; congruence). congruence.
  - symmetry. apply load_bad. intros st K. assert (load_settings e m = Ok st) by (apply (X e' e m st); try assumption; try (symmetry; assumption); intros k; symmetry; apply V). congruence.
  - assert (K : load_settings e m = Panic) by (apply load_bad; congruence). congruence.
Qed.
Lemma run_words_ext p e e' ws : (forall m, load_settings e m = load_settings e' m) -> run_words p e ws = run_words p e' ws.
Proof. intros H. unfold run_words. destruct (words_parse ws) as [m| | | |]; try reflexivity. f_equal. unfold run_main. now rewrite H. Qed.
Lemma exclusive_var vars n m d : exclusive vars -> (forall x y, named x n -> named y n -> overlap x y) -> map ascii_lower (lit m) = lit n -> map ascii_lower (lit n) = lit n ->
  forall t, env_var_or vars (lit m) (lit d) = t <-> (exists x, In x vars /\ named (fst x) n /\ stripped (snd x) t) \/ (forall x, In x vars -> ~ named (fst x) n) /\ t = lit d.
Proof.
  intros Ex Ov L1 L2 t. rewrite (variable_iff vars n m d t L1 L2). unfold variable_or. split.
  - intros [(b & name & text & a & E & Nm & S & _)|[F ->]].
    + left. exists (name, text). subst vars. split; [apply in_or_app; right; now left|]. split; assumption.
    + right. split; [|reflexivity]. rewrite Forall_forall in F. exact F.
  - intros [(x & I & Nm & S)|[F ->]]; [|right; split; [now apply Forall_forall|reflexivity]].
    destruct (proj1 (variable_iff vars n m d _ L1 L2) eq_refl) as [(b & name & text & a & E & Nm' & S' & F)|[F _]].
    + assert (K : x = (name, text)).
      { apply Ex; [assumption|subst vars; apply in_or_app; right; now left|]. now apply Ov. }
      subst x. left. exists b, name, text, a. auto.
    + rewrite Forall_forall in F. now elim (F x I).
Qed.
Lemma exclusive_dict vars k v : exclusive vars -> In k setting_keys -> (dict_get (env_dict vars) k = Some v <-> exists x, In x vars /\ concerns (fst x) k /\ env_entry x = [(k, v)]).
Proof.
  intros Ex J. split.
  - intros H. apply env_dict_iff in H. destruct H as [b n t a k v E _ S T F|b n t a k E _ S F]; exists (n, t); subst vars; (split; [apply in_or_app; right; now left|]).
    + split; [now left|]. rewrite (entry_setting n t k J S). now rewrite (proj2 (value_iff t v) T).
    + split; [now right|]. now apply entry_table.
  - intros (x & I & C & E). induction vars as [|y vars IH] using rev_ind; [destruct I|]. rewrite env_dict_snoc, dict_get_app.
    destruct (concerns_dec y k J) as [Cy|Cy].
    + assert (K : x = y) by (apply Ex; [assumption|apply in_or_app; right; now left|right; right; eauto]). subst y. rewrite E. cbn [dict_get]. now rewrite String.eqb_refl.
    + rewrite (entry_other y k Cy). apply IH.
      * intros u w Iu Iw. apply Ex; apply in_or_app; now left.
      * apply in_app_or in I. destruct I as [I|[<-|[]]]; [assumption|contradiction].
Qed.
Theorem C80_order : forall p vars vars' files tty ws, Permutation vars vars' -> exclusive vars ->
  run_outside p (mkWorld vars files tty ProfGlobal) ws = run_outside p (mkWorld vars' files tty ProfGlobal) ws.
Proof.
  intros p vars vars' files tty ws Pm Ex. assert (In' : forall x, In x vars <-> In x vars') by (intros x; split; apply Permutation_in; [assumption|now apply Permutation_sym]).
  assert (Ex' : exclusive vars') by (intros x y I I'; apply Ex; now apply In').
  assert (V : forall n m d, (forall x y, named x n -> named y n -> overlap x y) -> map ascii_lower (lit m) = lit n -> map ascii_lower (lit n) = lit n ->
            env_var_or vars (lit m) (lit d) = env_var_or vars' (lit m) (lit d)).
  { intros n m d Ov L1 L2. apply (exclusive_var vars n m d Ex Ov L1 L2). destruct (proj1 (exclusive_var vars' n m d Ex' Ov L1 L2 _) eq_refl) as [(x & I & H)|[F E]].
    - left. exists x. split; [now apply In'|assumption].
    - right. split; [|assumption]. intros x I. apply F. now apply In'. }
  apply run_words_ext. intros m. apply load_ext; try reflexivity.
  - unfold environment_of. cbn [e_file w_vars w_files]. f_equal. apply (V "pemv_config"%string "PEMV_CONFIG"%string "pemv.toml"%string); try reflexivity. intros x y A B. left. auto.
  - unfold environment_of. cbn [e_profile w_vars w_files]. f_equal. apply (V "pemv_profile"%string "PEMV_PROFILE"%string "default"%string); try reflexivity. intros x y A B. right. left. auto.
  - intros k. cbn [environment_of e_vars w_vars]. destruct (in_dec string_dec k setting_keys) as [J|J].
    + assert (Eq : forall v, dict_get (env_dict vars) k = Some v <-> dict_get (env_dict vars') k = Some v).
      { intros v. rewrite (exclusive_dict vars k v Ex J), (exclusive_dict vars' k v Ex' J). split; intros (x & I & H); exists x; (split; [now apply In'|assumption]). }
      destruct (dict_get (env_dict vars) k) as [v|] eqn:A; [symmetry; now apply Eq|]. destruct (dict_get (env_dict vars') k) as [v|] eqn:B; [|reflexivity].
      pose proof (proj2 (Eq v) eq_refl). discriminate.
    + destruct (dict_get (env_dict vars) k) as [v|] eqn:A; [now elim J; apply (env_dict_keys vars k v)|].
      destruct (dict_get (env_dict vars') k) as [v|] eqn:B; [now elim J; apply (env_dict_keys vars' k v)|reflexivity].
Qed.
(* Otherwise the last one decides. *)
Definition no_files : str -> option (profile -> dict) := fun _ => Some (fun _ => []).
Theorem C80_order_refuted : exists vars vars' ws, Permutation vars vars' /\ exit_status (run_outside p64 (mkWorld vars no_files true ProfGlobal) ws) = 0
  /\ exit_status (run_outside p64 (mkWorld vars' no_files true ProfGlobal) ws) = 101.
Proof.
  exists [(lit "PEMV_CLI_COLOUR", lit "red"); (lit "pemv_cli_colour", lit "ansi")], [(lit "pemv_cli_colour", lit "ansi"); (lit "PEMV_CLI_COLOUR", lit "red")], [lit "--tsi"; lit "F800"].
  split; [apply perm_swap|]. split; vm_compute; reflexivity.
Qed.
Example C80_example : assigns [(lit "HOME", lit "/"); (lit "pemv_masking_characters", lit "[*, 'x', ""7""]"); (lit "PEMV_PROFILE", lit "Shop")] "masking_characters"%string
    (CArr [CStr [42]; CChar 120; CStr [55]])
  /\ masking_value (CArr [CStr [42]; CChar 120; CStr [55]]) [42; 120; 55] /\ uses_profile (mkWorld [(lit "PEMV_PROFILE", lit "Shop")] no_files true ProfGlobal) (ProfCustom (lit "shop"))
  /\ Forall (fun t => ~ exists v b, stands_for (lit t) v /\ sort_value v b) ["1"; "yes"; "True"; "[true]"]%string
  /\ Forall (fun t => ~ exists v cs, stands_for (lit t) v /\ masking_value v cs) ["*"; "[1]"; "[**]"]%string
  /\ ~ relevant (lit "PEMV_COLOUR").
Proof.
  split; [apply env_dict_iff; vm_compute; reflexivity|]. split; [eexists; split; [reflexivity|]; repeat (apply Forall2_cons; [auto|]); apply Forall2_nil|].
  split; [apply C80_profile; vm_compute; reflexivity|]. split.
  { repeat constructor; intros (v & b & S & E); apply value_iff in S; vm_compute in S; subst v; discriminate E. }
  split.
  { repeat constructor; intros (v & cs & S & vs & E & F); apply value_iff in S; vm_compute in S; subst v; try discriminate E; injection E as <-; inversion F as [|? ? ? ? [H|H]]; discriminate. }
  intros [H|[H|(k & J & C)]].
  - apply (named_iff _ "pemv_config" "PEMV_CONFIG") in H; [vm_compute in H; discriminate H|reflexivity|reflexivity].
  - apply (named_iff _ "pemv_profile" "PEMV_PROFILE") in H; [vm_compute in H; discriminate H|reflexivity|reflexivity].
  - assert (E : env_key (lit "PEMV_COLOUR") = Some (lit "colour", [])) by (vm_compute; reflexivity).
    destruct C as [C|C]; [rewrite (env_key_setting _ k J C) in E|destruct (env_key_table _ k J C) as (x & r & K); rewrite K in E; discriminate E].
    injection E as E. cbn [setting_keys In] in J. destruct J as [<-|[<-|[<-|[]]]]; vm_compute in E; discriminate E.
Qed.

(** C81: the program in its environment, from the words and variables to the screen. *)
Lemma outside_program w file pr l st : uses_profile w pr ->
  (in_force (outside_layers (w_vars w) pr file l) (w_tty w) st <-> in_force (program_layers (environment_of w) file l) (e_tty (environment_of w)) st).
Proof.
  intros Up. cbn [environment_of e_tty].
  assert (R : forall ls : list layer, Forall2 (fun (a b : layer) => forall k v, a k v <-> b k v) ls ls) by (induction ls; constructor; [reflexivity|assumption]).
  split; intros I; refine (in_force_ext _ _ _ _ _ I); unfold outside_layers, program_layers, selected_layers; rewrite (proj2 (C80_profile w pr) Up);
    (constructor; [reflexivity|]); (constructor; [|apply R]); intros k v; [symmetry|]; apply C80_variables.
Qed.
Lemma outside_in_force w file pr l st : uses_profile w pr -> in_force (outside_layers (w_vars w) pr file l) (w_tty w) st ->
  in_force (program_layers (environment_of w) file l) (e_tty (environment_of w)) st.
Proof. intros Up. now apply outside_program. Qed.
(* The settings of a run are those of the words, the variables, the file and the built-in ones, in this order. *)
Theorem C81_settings : forall w file pr ws l m st, w_cli_profile w = ProfGlobal -> uses_file w file -> uses_profile w pr ->
  written ws l -> no_information l -> words_parse ws = CliOk m ->
  (load_settings (environment_of w) m = Ok st <-> in_force (outside_layers (w_vars w) pr file l) (w_tty w) st).
Proof.
  intros w file pr ws l m st P F Up W N E. rewrite (parse_written ws l W) in E. destruct (parse_exact l N) as [(A & m' & E' & D)|[_ E']]; [|destruct l; congruence].
  rewrite E in E'. injection E' as <-. assert (Fe : e_file (environment_of w) = Some file) by now apply C80_file. rewrite (outside_program w file pr l st Up).
  rewrite (C62_precedence (environment_of w) m file st P Fe (colour_described l m A D)).
  assert (R : forall ls : list layer, Forall2 (fun (a b : layer) => forall k v, a k v <-> b k v) ls ls) by (induction ls; constructor; [reflexivity|assumption]).
  split; intros I; refine (in_force_ext _ _ _ _ _ I); (constructor; [|apply R]); intros k v; [symmetry|]; apply (requests_asks l m A D).
Qed.
Theorem C81_shown : forall p w file pr ws l st op s ls k, w_cli_profile w = ProfGlobal -> uses_file w file -> uses_profile w pr ->
  written ws l -> no_information l -> acceptable l -> in_force (outside_layers (w_vars w) pr file l) (w_tty w) st ->
  said l (OptOperation op) [s] -> text64 p s -> breakdown (set_masking st) (set_sort st) op s ls k -> fits p k ->
  exists o, run_outside p w ws = Ran o /\ displays o ls.
Proof.
  intros p w file pr ws l st op s ls k P F Up W N A I S T B Ft. apply (C79_shown p (environment_of w) file ws l st op s ls k); try assumption; [now apply C80_file|now apply (outside_in_force w file pr)].
Qed.
Theorem C81_refused : forall p w file pr ws l st op s er, w_cli_profile w = ProfGlobal -> uses_file w file -> uses_profile w pr ->
  written ws l -> no_information l -> acceptable l -> in_force (outside_layers (w_vars w) pr file l) (w_tty w) st ->
  said l (OptOperation op) [s] -> text64 p s -> refused (set_masking st) op s er ->
  exists o, run_outside p w ws = Ran o /\ complains o er.
Proof.
  intros p w file pr ws l st op s er P F Up W N A I S T R. apply (C79_refused p (environment_of w) file ws l st op s er); try assumption; [now apply C80_file|now apply (outside_in_force w file pr)].
Qed.
Lemma var_os_iff vars n t : var_os vars n = Some t <-> first_variable vars n t.
Proof.
  unfold first_variable. induction vars as [|[k v] vars IH]; cbn [var_os].
  - split; [discriminate|]. intros (b & a & E & _). destruct b; discriminate.
  - destruct (leqb k n) eqn:K.
    + apply leqb_eq in K. subst k. split.
      * intros [= ->]. exists [], vars. split; [reflexivity|]. intros u [].
      * intros (b & a & E & N). destruct b as [|x b]; cbn [app] in E; inversion E; subst; [reflexivity|]. exfalso. apply (N v). now left.
    + rewrite IH. split; intros (b & a & E & N).
      * exists ((k, v) :: b), a. split; [cbn [app]; congruence|]. intros u [H|H]; [|now apply (N u)]. injection H as -> _.
        assert (T : leqb n n = true) by now apply leqb_eq. congruence.
      * destruct b as [|x b]; cbn [app] in E; inversion E; subst.
        { assert (T : leqb n n = true) by now apply leqb_eq. congruence. }
        exists b, a. split; [reflexivity|]. intros u H. apply (N u). now right.
Qed.
Lemma var_os_none vars n : var_os vars n = None <-> forall u, ~ In (n, u) vars.
Proof.
  induction vars as [|[k v] vars IH]; cbn [var_os In]; [split; [intros _ u []|reflexivity]|]. destruct (leqb k n) eqn:K.
  - apply leqb_eq in K. subst k. split; [discriminate|]. intros H. exfalso. apply (H v). now left.
  - rewrite IH. split; intros H u; [intros [E|E]; [injection E as -> _; assert (T : leqb n n = true) by (now apply leqb_eq); congruence|now apply (H u)]|]. intros E. apply (H u). now right.
Qed.
Lemma wanted_iff w c : colours_wanted w c <-> wants_colours (w_tty w) (v_term (term_vars_of (w_vars w))) (v_no_color (term_vars_of (w_vars w))) c.
Proof.
  unfold colours_wanted, wants_colours. cbn [term_vars_of v_term v_no_color].
  assert (A : (forall u, ~ In (lit "NO_COLOR", u) (w_vars w)) <-> match var_os (w_vars w) (lit "NO_COLOR") with Some _ => true | None => false end = false).
  { rewrite <- var_os_none. destruct (var_os _ _); split; congruence. }
  rewrite A. split.
  - intros [H|[H|(H1 & H2 & H3 & t & H4 & H5)]]; auto. right. right. repeat (split; [assumption|]). exists t. split; [now apply var_os_iff|assumption].
  - intros [H|[H|(H1 & H2 & H3 & t & H4 & H5)]]; auto. right. right. repeat (split; [assumption|]). exists t. split; [now apply var_os_iff|assumption].
Qed.
(* What the terminal shows, down to the bytes. *)
Theorem C81_screen : forall p w file pr ws l st op s ls, w_cli_profile w = ProfGlobal -> uses_file w file -> uses_profile w pr ->
  written ws l -> no_information l -> acceptable l -> in_force (outside_layers (w_vars w) pr file l) (w_tty w) st ->
  said l (OptOperation op) [s] -> text64 p s -> sheet (set_masking st) (set_sort st) op s ls -> fits p (deepest ls) ->
  exists v c, decided (outside_layers (w_vars w) pr file l) "cli_colour" v /\ colour_value v c
    /\ (colours_wanted w c -> terminal_shows (outside_stdout p w ws) (dressed (render ls)))
    /\ (~ colours_wanted w c -> outside_stdout p w ws = utf8 (flat_map (fun l => line_text l ++ [10]) ls)
          /\ terminal_shows (outside_stdout p w ws) (undressed (render ls)) /\ ~ In 27 (outside_stdout p w ws)).
Proof.
  intros p w file pr ws l st op s ls P F Up W N A I S T H Ft. destruct (parse_exact l N) as [(_ & m & E & D)|[X _]]; [|contradiction].
  assert (Fe : e_file (environment_of w) = Some file) by now apply C80_file. pose proof (outside_in_force w file pr l st Up I) as I'.
  assert (L : load_settings (environment_of w) m = Ok st) by now apply (program_settings (environment_of w) file l).
  assert (C : chosen m op s) by (apply only_chosen; now apply (described_only l m)).
  destruct I as (v1 & _ & _ & c & D1 & V1 & Sc & _). exists v1, c. split; [assumption|]. split; [assumption|].
  unfold outside_stdout. rewrite (parse_written ws l W), E, L.
  pose proof (C77_when (term_vars_of (w_vars w)) (w_tty w) c) as Wc. rewrite <- Sc in Wc. rewrite <- wanted_iff in Wc. split; intros Q.
  - apply (C77_coloured p (environment_of w) m st op s ls); try assumption. now apply Wc.
  - apply (C77_uncoloured p (environment_of w) m st op s ls); try assumption. destruct (should_attempt_color _ (set_colour st)); [|reflexivity]. exfalso. apply Q. now apply Wc.
Qed.
Example C81_example : let w := mkWorld [(lit "TERM", lit "xterm"); (lit "Pemv_Cli_Colour", lit " always"); (lit "PEMV_PROFILE", lit "shop")] no_files false ProfGlobal in
  let ws := [lit "--9b=80 00"] in let l := [(Long "9b", [lit "80 00"])] in exists st ls,
  uses_file w (fun _ => []) /\ uses_profile w (ProfCustom (lit "shop")) /\ written ws l /\ no_information l /\ acceptable l
  /\ in_force (outside_layers (w_vars w) (ProfCustom (lit "shop")) (fun _ => []) l) (w_tty w) st /\ said l (OptOperation OpTsi) [lit "80 00"] /\ text64 p64 (lit "80 00")
  /\ sheet (set_masking st) (set_sort st) OpTsi (lit "80 00") ls /\ fits p64 (deepest ls)
  /\ colours_wanted w CAlways /\ ~ colours_wanted w CAuto
  /\ outside_stdout p64 w ws = [27; 91; 48; 109; 27; 91; 49; 109] ++ lit "10000000 00000000" ++ [10; 27; 91; 48; 109]
       ++ [0xE2; 0x94; 0x94; 32; 27; 91; 48; 109] ++ lit "Offline data authentication was performed" ++ [10; 27; 91; 48; 109].
Proof.
  intros w ws l. assert (SB : spells (OptOperation OpTsi) (Long "9b")) by (apply spells_spelt; reflexivity).
  assert (N : no_information l) by (constructor; [cbn [fst]; split; intros X; discriminate (spells_one _ _ _ SB X)|constructor]).
  assert (W : written ws l) by (apply (written_long (OptOperation OpTsi) "9b" (lit "80 00") [] []); [assumption|constructor]).
  assert (A : acceptable l /\ exists m, cli_parse l = CliOk m) by (destruct (parse_exact l N) as [(A & m & E & _)|[_ E]]; [eauto|vm_compute in E; discriminate E]).
  destruct A as (A & m & E). assert (Ew : words_parse ws = CliOk m) by now rewrite (parse_written ws l W).
  assert (F : uses_file w (fun _ => [])) by (apply C80_file; vm_compute; reflexivity).
  assert (Up : uses_profile w (ProfCustom (lit "shop"))) by (apply C80_profile; vm_compute; reflexivity).
  eexists (mkSettings TAlways [42] true), _. split; [assumption|]. split; [assumption|]. split; [assumption|]. split; [assumption|]. split; [assumption|].
  split. { apply (C81_settings w _ _ ws l m); try assumption; [reflexivity|]. vm_compute in E. injection E as <-. vm_compute. reflexivity. }
  split; [exists (Long "9b"); split; [now left|assumption]|]. split; [split; [reflexivity|vm_compute; reflexivity]|].
  split; [apply (sheet_value _ _ _ _ (bits_picture 2 tsi_bits tsi_used)); [cbn; tauto|vm_compute; reflexivity]|]. split; [intros _; vm_compute; reflexivity|].
  split; [now left|]. split; [intros [X|[X|(_ & X & _)]]; discriminate X|]. vm_compute. reflexivity.
Qed.
