(** Lemmas about the environment variables. *)

From Coq Require Import NArith List String Ascii Bool PeanoNat Lia ZifyN ZifyBool ZifyNat.
From Verif Require Import Base ModelUtil SpecUtil ProofsUtil ProofsValues ModelMain SpecMain ModelEnv SpecEnv.
Import ListNotations.
Local Open Scope N_scope.

(** ** White space around *)

Lemma white_false c : is_whitespace c = false <-> ~ is_white_space c.
Proof. rewrite <- is_whitespace_spec. destruct (is_whitespace c); split; congruence. Qed.
Lemma no_ws_ends_iff m : no_ws_ends m <-> no_space_around m.
Proof.
  unfold no_ws_ends, no_space_around. split.
  - intros [H1 H2]. split.
    + intros c r ->. now apply white_false.
    + intros c r ->. rewrite rev_app_distr in H2. now apply white_false.
  - intros [H1 H2]. split.
    + destruct m as [|c r]; [exact I|]. apply white_false. now apply (H1 c r).
    + destruct (rev m) as [|c r] eqn:E; [exact I|]. apply white_false. apply (H2 c (rev r)).
      rewrite <- (rev_involutive m), E. reflexivity.
Qed.
Lemma trim_start_blank ws : Forall is_white_space ws -> trim_start ws = [].
Proof. induction 1 as [|c ws H _ IH]; [reflexivity|]. cbn. apply is_whitespace_spec in H. now rewrite H. Qed.
Lemma trim_start_head s : match trim_start s with [] => True | c :: _ => is_whitespace c = false end.
Proof. induction s as [|c s IH]; [exact I|]. cbn. destruct (is_whitespace c) eqn:E; [exact IH|exact E]. Qed.
Lemma trim_start_ends s : no_ws_ends s -> no_ws_ends (trim_start s).
Proof. intros H. rewrite trim_start_id; [exact H|apply H]. Qed.
Lemma trim_ends s : no_ws_ends (trim s).
Proof.
  unfold trim. set (u := trim_start s). pose proof (trim_start_head s) as Hu. fold u in Hu.
  split; [|rewrite rev_involutive; apply trim_start_head].
  destruct (trim_start_split (rev u)) as (ws & E & F). destruct (trim_start (rev u)) as [|c r] eqn:T; [exact I|].
  assert (U : u = rev (c :: r) ++ rev ws) by (rewrite <- rev_app_distr, <- E, rev_involutive; reflexivity).
  destruct (rev (c :: r)) as [|x y] eqn:R; [exact I|]. rewrite U in Hu. exact Hu.
Qed.
Lemma trim_stripped s t : trim s = t <-> stripped s t.
Proof.
  split.
  - intros <-. split; [apply no_ws_ends_iff, trim_ends|]. destruct (trim_split s) as (a & b & E & A & B). eauto.
  - intros [N (a & b & -> & A & B)]. destruct t as [|c t].
    + unfold trim. cbn [app]. rewrite trim_start_app by assumption. rewrite (trim_start_blank b B). reflexivity.
    + apply trim_unique; try assumption; [discriminate|now apply no_ws_ends_iff].
Qed.

(** ** Names *)

Lemma lower_idem c : ascii_lower (ascii_lower c) = ascii_lower c.
Proof. unfold ascii_lower. destruct ((65 <=? c) && (c <=? 90)) eqn:E; [|now rewrite E]. destruct ((65 <=? c + 32) && (c + 32 <=? 90)) eqn:E'; [lia|reflexivity]. Qed.
Lemma same_letters_iff s t : map ascii_lower t = t -> (same_letters s t <-> map ascii_lower s = t).
Proof.
  intros L. split.
  - intros H. induction H as [|c x s t H _ IH]; [reflexivity|]. cbn in *. injection L as Lx Lt. rewrite (IH Lt). f_equal.
    destruct H as [->|(H1 & H2 & H3)]; [assumption|]. unfold ascii_lower. destruct ((65 <=? c) && (c <=? 90)) eqn:E; lia.
  - revert t L. induction s as [|c s IH]; intros t L H; cbn in H; subst t; constructor.
    + unfold upper_or_lower, ascii_lower. destruct ((65 <=? c) && (c <=? 90)) eqn:E; [right; lia|now left].
    + apply IH; [|reflexivity]. rewrite map_map. apply map_ext. intros. apply lower_idem.
Qed.
Lemma uncased_iff s n m : map ascii_lower (lit n) = lit m -> map ascii_lower (lit m) = lit m -> (uncased_eqb s (lit n) = true <-> same_letters s (lit m)).
Proof. intros E L. unfold uncased_eqb. rewrite E, leqb_eq, (same_letters_iff s (lit m) L). reflexivity. Qed.
Lemma strip_iff prefix s k : uncased_strip prefix s = Some k <-> exists p, s = p ++ k /\ map ascii_lower p = map ascii_lower prefix.
Proof.
  revert s. induction prefix as [|a prefix IH]; intros s; cbn [uncased_strip map].
  - split; [intros [= ->]; exists []; auto|intros (p & -> & E)]. now destruct p.
  - destruct s as [|b s].
    + split; [discriminate|]. intros (p & E & M). destruct p; discriminate.
    + destruct (ascii_lower a =? ascii_lower b) eqn:E.
      * apply N.eqb_eq in E. rewrite IH. split.
        -- intros (p & -> & M). exists (b :: p). cbn. split; [reflexivity|congruence].
        -- intros (p & S & M). destruct p as [|x p]; [discriminate|]. cbn in S, M. injection S as -> ->. injection M as _ M. eauto.
      * split; [discriminate|]. intros (p & S & M). destruct p as [|x p]; [discriminate|]. cbn in S, M. injection S as -> ->. injection M as M _. lia.
Qed.
Lemma lower_white c : is_whitespace (ascii_lower c) = is_whitespace c.
Proof.
  unfold ascii_lower. destruct ((65 <=? c) && (c <=? 90)) eqn:E; [|reflexivity].
  assert (K : forall x, 65 <= x <= 122 -> is_whitespace x = false).
  { intros x H. apply white_false. unfold is_white_space, white_space_chars. cbn [In]. intros K. repeat (destruct K as [K|K]; [lia|]). exact K. }
  rewrite !K by lia. reflexivity.
Qed.
Lemma lower_trim_start s : trim_start (map ascii_lower s) = map ascii_lower (trim_start s).
Proof. induction s as [|c s IH]; [reflexivity|]. cbn. rewrite lower_white. now destruct (is_whitespace c). Qed.
Lemma lower_trim s : trim (map ascii_lower s) = map ascii_lower (trim s).
Proof. unfold trim. now rewrite lower_trim_start, <- map_rev, lower_trim_start, map_rev. Qed.

Lemma split_dots_spec s : forall a r, split_dots s = (a, r) <-> s = a ++ flat_map (cons 46) r /\ Forall (fun x => ~ In 46 x) (a :: r).
Proof.
  assert (H1 : forall s, let '(a, r) := split_dots s in s = a ++ flat_map (cons 46) r /\ Forall (fun x => ~ In 46 x) (a :: r)).
  { clear. induction s as [|c s IH]; [split; [reflexivity|repeat constructor; intros []]|]. cbn [split_dots]. destruct (split_dots s) as [a r]. destruct IH as [E F].
    destruct (c =? 46) eqn:D.
    - apply N.eqb_eq in D. subst c. cbn [app flat_map]. split; [now f_equal|]. constructor; [intros []|exact F].
    - inversion F as [|? ? Fa Fr]; subst. split; [reflexivity|]. constructor; [|assumption]. intros [K|K]; [lia|contradiction]. }
  assert (H2 : forall a r, Forall (fun x => ~ In 46 x) (a :: r) -> split_dots (a ++ flat_map (cons 46) r) = (a, r)).
  { clear. intros a r. revert a. induction r as [|x r IH].
    - intros a F. cbn [flat_map]. rewrite app_nil_r. induction a as [|c a IHa]; [reflexivity|]. cbn [split_dots]. inversion F as [|? ? Fc _]; subst.
      rewrite IHa by (repeat constructor; intros K; apply Fc; now right). destruct (c =? 46) eqn:D; [|reflexivity]. exfalso. apply Fc. left. now apply N.eqb_eq.
    - intros a F. inversion F as [|? ? Fa Fr]; subst. induction a as [|c a IHa].
      + cbn [app flat_map split_dots]. rewrite (IH x Fr). reflexivity.
      + cbn [app split_dots]. rewrite IHa; [|constructor; [intros K; apply Fa; now right|assumption]|intros K; apply Fa; now right].
        destruct (c =? 46) eqn:D; [|reflexivity]. exfalso. apply Fa. left. now apply N.eqb_eq. }
  intros a r. split; [intros E; specialize (H1 s); now rewrite E in H1|intros [-> F]; now apply H2].
Qed.
Lemma dotted_iff t : dotted t <-> exists r, r <> [] /\ t = flat_map (cons 46) r /\ Forall (fun x => x <> [] /\ ~ In 46 x) r.
Proof.
  split.
  - induction 1 as [part NE ND|part t NE ND _ (r & Hr & -> & F)].
    + exists [part]. split; [discriminate|]. split; [cbn; now rewrite app_nil_r|]. repeat constructor; assumption.
    + exists (part :: r). split; [discriminate|]. split; [reflexivity|]. constructor; [split; assumption|assumption].
  - intros (r & Hr & -> & F). induction F as [|x r [NE ND] F IH]; [congruence|]. destruct r as [|y r].
    + cbn. rewrite app_nil_r. now constructor.
    + change (flat_map (cons 46) (x :: y :: r)) with (46 :: x ++ flat_map (cons 46) (y :: r)). apply dotted_more; try assumption. apply IH. discriminate.
Qed.

Lemma prefixed_iff name rest : prefixed name rest <-> uncased_strip env_prefix (trim name) = Some rest.
Proof.
  rewrite strip_iff. unfold prefixed. split.
  - intros (p & S & L). apply trim_stripped in S. apply same_letters_iff in L; [|reflexivity]. exists p. split; [assumption|]. rewrite L. reflexivity.
  - intros (p & S & L). exists p. split; [now apply trim_stripped|]. apply same_letters_iff; [reflexivity|]. rewrite L. reflexivity.
Qed.

(* The names of settings are small letters and underscores, and nothing else is looked for. *)
Definition plain_key (k : string) : Prop := map ascii_lower (lit k) = lit k /\ ~ In 46 (lit k) /\ lit k <> [] /\ lit k <> lit "config" /\ lit k <> lit "profile"
  /\ setting_of_key (lit k) = Some k.
Lemma keys_plain k : In k setting_keys -> plain_key k.
Proof.
  assert (K : Forall plain_key setting_keys).
  { repeat constructor; cbn; try discriminate; intros K; repeat (destruct K as [K|K]; [discriminate|]); exact K. }
  rewrite Forall_forall in K. apply K.
Qed.
Lemma setting_of_key_inv s k : setting_of_key s = Some k -> s = lit k /\ In k setting_keys.
Proof.
  unfold setting_of_key. destruct (leqb s (lit "cli_colour")) eqn:E1; [apply leqb_eq in E1; intros [= <-]; split; [assumption|cbn; auto]|].
  destruct (leqb s (lit "masking_characters")) eqn:E2; [apply leqb_eq in E2; intros [= <-]; split; [assumption|cbn; auto]|].
  destruct (leqb s (lit "sort_parsed_tags")) eqn:E3; [apply leqb_eq in E3; intros [= <-]; split; [assumption|cbn; auto]|discriminate].
Qed.

(* The ignored names are none of the settings. *)
Lemma not_ignored rest s t k : plain_key k -> stripped rest (s ++ t) -> same_letters s (lit k) -> (t = [] \/ dotted t) ->
  uncased_eqb rest env_file_name_override || uncased_eqb rest env_profile = false.
Proof.
  intros (L & ND & NE & NC & NP & _) S H T. apply trim_stripped in S. apply same_letters_iff in H; [|assumption].
  assert (G : forall n : string, map ascii_lower (lit n) = lit n -> ~ In 46 (lit n) -> trim (lit n) = lit n -> lit k <> lit n -> map ascii_lower rest <> lit n).
  { intros n Ln Dn Tn Kn E. apply (f_equal trim) in E. rewrite lower_trim, S, Tn, map_app, H in E.
    destruct T as [-> |D]; [cbn in E; rewrite app_nil_r in E; contradiction|].
    apply Dn. rewrite <- E. apply in_or_app. right. apply in_map_iff. exists 46. split; [reflexivity|]. destruct D; now left. }
  apply orb_false_iff. split; unfold uncased_eqb; (destruct (leqb _ _) eqn:E; [|reflexivity]); apply leqb_eq in E; exfalso.
  - apply (G "config"%string); try reflexivity; try assumption. cbn. intros K. repeat (destruct K as [K|K]; [discriminate|]). exact K.
  - apply (G "profile"%string); try reflexivity; try assumption. cbn. intros K. repeat (destruct K as [K|K]; [discriminate|]). exact K.
Qed.
Lemma no_nil_iff a (r : list str) : existsb is_nil (a :: r) = false <-> Forall (fun x => x <> []) (a :: r).
Proof.
  split.
  - intros H. apply Forall_forall. intros x I ->. rewrite <- Bool.not_true_iff_false in H. apply H. apply existsb_exists. exists []. auto.
  - intros H. apply Bool.not_true_iff_false. intros K. apply existsb_exists in K. destruct K as (x & I & E). rewrite Forall_forall in H. specialize (H x I). now destruct x.
Qed.
Lemma env_key_sound name k r : In k setting_keys -> env_key name = Some (lit k, r) -> match r with [] => setting_name name k | _ => table_name name k end.
Proof.
  intros J. pose proof (keys_plain k J) as (L & ND & NE & NC & NP & _). unfold env_key. destruct (uncased_strip env_prefix (trim name)) as [rest|] eqn:P; [|discriminate].
  apply prefixed_iff in P. destruct (_ || _); [discriminate|]. destruct (split_dots (trim rest)) as [a r'] eqn:D. destruct (existsb is_nil (a :: r')) eqn:Z; [discriminate|].
  intros [= A ->]. apply split_dots_spec in D. destruct D as [T F]. apply trim_stripped in T. apply no_nil_iff in Z.
  assert (A' : same_letters a (lit k)) by now apply same_letters_iff. inversion F as [|? ? Fa Fr]; inversion Z as [|? ? Za Zr]; subst. destruct r as [|x r].
  - exists rest, a. cbn [flat_map] in T. rewrite app_nil_r in T. auto.
  - exists rest, a, (flat_map (cons 46) (x :: r)). repeat (split; [assumption|]). apply dotted_iff. exists (x :: r). split; [discriminate|]. split; [reflexivity|].
    apply Forall_forall. intros y I. rewrite Forall_forall in Fr, Zr. auto.
Qed.
Lemma env_key_setting name k : In k setting_keys -> setting_name name k -> env_key name = Some (lit k, []).
Proof.
  intros J (rest & s & P & S & H). pose proof (keys_plain k J) as Pk. pose proof Pk as (L & ND & NE & _). unfold env_key. apply prefixed_iff in P. rewrite P.
  rewrite (not_ignored rest s [] k Pk); [|now rewrite app_nil_r|assumption|now left]. apply trim_stripped in S. rewrite S. apply same_letters_iff in H; [|assumption].
  assert (ND' : ~ In 46 s) by (intros K; apply ND; rewrite <- H; apply in_map_iff; exists 46; auto).
  rewrite (proj2 (split_dots_spec s s [])); [|split; [cbn; now rewrite app_nil_r|repeat constructor; assumption]].
  cbn [existsb]. destruct s as [|c s]; [cbn in H; congruence|]. cbn [is_nil orb]. now rewrite H.
Qed.
Lemma env_key_table name k : In k setting_keys -> table_name name k -> exists x r, env_key name = Some (lit k, x :: r).
Proof.
  intros J (rest & s & t & P & S & H & D). pose proof (keys_plain k J) as Pk. pose proof Pk as (L & ND & NE & _). unfold env_key. apply prefixed_iff in P. rewrite P.
  rewrite (not_ignored rest s t k Pk S H (or_intror D)). apply trim_stripped in S. rewrite S. apply same_letters_iff in H; [|assumption].
  assert (ND' : ~ In 46 s) by (intros K; apply ND; rewrite <- H; apply in_map_iff; exists 46; auto).
  apply dotted_iff in D. destruct D as (r & Hr & -> & F). destruct r as [|x r]; [congruence|]. exists x, r.
  rewrite (proj2 (split_dots_spec _ s (x :: r))); [|split; [reflexivity|constructor; [assumption|]; apply Forall_forall; intros y I; rewrite Forall_forall in F; now apply F]].
  assert (Z : existsb is_nil (s :: x :: r) = false).
  { apply no_nil_iff. constructor; [intros ->; cbn in H; congruence|]. apply Forall_forall. intros y I. rewrite Forall_forall in F. now apply F. }
  match goal with |- (if ?b then _ else _) = _ => replace b with false by (symmetry; exact Z) end. now rewrite H.
Qed.

(** ** The dictionary of the variables *)

Lemma entry_setting name text k : In k setting_keys -> setting_name name k -> env_entry (name, text) = [(k, value_of_text text)].
Proof. intros J H. unfold env_entry. cbn [fst snd]. rewrite (env_key_setting name k J H). destruct (keys_plain k J) as (_ & _ & _ & _ & _ & ->). reflexivity. Qed.
Lemma entry_table name text k : In k setting_keys -> table_name name k -> env_entry (name, text) = [(k, COther)].
Proof. intros J H. unfold env_entry. cbn [fst snd]. destruct (env_key_table name k J H) as (x & r & ->). destruct (keys_plain k J) as (_ & _ & _ & _ & _ & ->). reflexivity. Qed.
Lemma entry_other var k : ~ concerns (fst var) k -> dict_get (env_entry var) k = None.
Proof.
  intros N. unfold env_entry. destruct (env_key (fst var)) as [[a r]|] eqn:E; [|reflexivity]. destruct (setting_of_key a) as [k'|] eqn:S; [|reflexivity].
  cbn [dict_get]. destruct (String.eqb k' k) eqn:K; [|reflexivity]. apply String.eqb_eq in K. subst k'. exfalso. apply N.
  apply setting_of_key_inv in S. destruct S as [-> J]. pose proof (env_key_sound _ k r J E) as X. destruct r; [now left|now right].
Qed.
Lemma concerns_dec (var : str * str) k : In k setting_keys -> concerns (fst var) k \/ ~ concerns (fst var) k.
Proof.
  intros J. destruct (env_key (fst var)) as [[a r]|] eqn:E.
  - destruct (leqb a (lit k)) eqn:A.
    + apply leqb_eq in A. subst a. left. pose proof (env_key_sound _ k r J E) as X. destruct r; [now left|now right].
    + right. intros [K|K]; [rewrite (env_key_setting _ k J K) in E; injection E as <- <-|destruct (env_key_table _ k J K) as (x & r' & E'); rewrite E' in E; injection E as <- <-];
        (assert (T : leqb (lit k) (lit k) = true) by now apply leqb_eq); congruence.
  - right. intros [K|K]; [rewrite (env_key_setting _ k J K) in E|destruct (env_key_table _ k J K) as (x & r' & E'); rewrite E' in E]; discriminate.
Qed.
Lemma concerns_not_both name k : In k setting_keys -> setting_name name k -> ~ table_name name k.
Proof. intros J S T. apply (env_key_setting _ k J) in S. destruct (env_key_table _ k J T) as (x & r & E). congruence. Qed.
Lemma env_dict_snoc vars x : env_dict (vars ++ [x]) = env_entry x ++ env_dict vars.
Proof. unfold env_dict. now rewrite fold_left_app. Qed.
Lemma dict_get_app a b k : dict_get (a ++ b) k = match dict_get a k with Some v => Some v | None => dict_get b k end.
Proof. induction a as [|[k' v] a IH]; [reflexivity|]. cbn. now destruct (String.eqb k' k). Qed.
Lemma env_dict_keys vars k v : dict_get (env_dict vars) k = Some v -> In k setting_keys.
Proof.
  induction vars as [|x vars IH] using rev_ind; [discriminate|]. rewrite env_dict_snoc, dict_get_app. destruct (dict_get (env_entry x) k) as [u|] eqn:E; [|exact IH].
  intros _. unfold env_entry in E. destruct (env_key (fst x)) as [[a r]|]; [|discriminate]. destruct (setting_of_key a) as [k'|] eqn:S; [|discriminate].
  apply setting_of_key_inv in S. cbn [dict_get] in E. destruct (String.eqb k' k) eqn:K; [|discriminate]. apply String.eqb_eq in K. subst k'. apply S.
Qed.

Lemma keys_not_both vars k v : assigns vars k v -> In k setting_keys.
Proof. now destruct 1. Qed.

(** ** The file and the profile *)

Lemma named_iff name n m : map ascii_lower (lit m) = lit n -> map ascii_lower (lit n) = lit n -> (uncased_eqb (trim name) (lit m) = true <-> named name n).
Proof.
  intros E L. rewrite (uncased_iff _ m n E L). unfold named. split.
  - intros H. exists (trim name). split; [now apply trim_stripped|assumption].
  - intros (s & S & H). apply trim_stripped in S. now rewrite S.
Qed.
Lemma variable_iff vars n m d t : map ascii_lower (lit m) = lit n -> map ascii_lower (lit n) = lit n ->
  (env_var_or vars (lit m) (lit d) = t <-> variable_or vars n d t).
Proof.
  intros E L. unfold env_var_or, variable_or. induction vars as [|[name text] vars IH]; cbn [env_var].
  - split.
    + intros <-. right. split; [constructor|reflexivity].
    + intros [(b & x & y & a & K & _)|[_ ->]]; [destruct b; discriminate|reflexivity].
  - destruct (uncased_eqb (trim name) (lit m)) eqn:U.
    + apply (named_iff name n m E L) in U. split.
      * intros <-. left. exists [], name, text, vars. split; [reflexivity|]. split; [assumption|]. split; [now apply trim_stripped|constructor].
      * intros [(b & x & y & a & K & Nx & S & F)|[F _]].
        -- destruct b as [|z b]; cbn [app] in K; inversion K; subst; [now apply trim_stripped|]. inversion F; subst. contradiction.
        -- inversion F; subst. contradiction.
    + assert (NN : ~ named name n) by (intros K; apply (named_iff name n m E L) in K; congruence). rewrite IH. split.
      * intros [(b & x & y & a & K & Nx & S & F)|[F ->]].
        -- left. exists ((name, text) :: b), x, y, a. split; [cbn [app]; congruence|]. split; [assumption|]. split; [assumption|]. now constructor.
        -- right. split; [now constructor|reflexivity].
      * intros [(b & x & y & a & K & Nx & S & F)|[F ->]].
        -- destruct b as [|z b]; cbn [app] in K; inversion K; subst; [contradiction|]. inversion F; subst. left. exists b, x, y, a. auto.
        -- inversion F; subst. right. auto.
Qed.
Lemma lower_rel s n : map ascii_lower s = n <-> Forall2 (fun c x => 65 <= c <= 90 /\ x = c + 32 \/ ~ 65 <= c <= 90 /\ x = c) s n.
Proof.
  split.
  - intros <-. induction s as [|c s IH]; constructor; [|assumption]. unfold ascii_lower. destruct ((65 <=? c) && (c <=? 90)) eqn:E; [left|right]; split; lia.
  - induction 1 as [|c x s n H _ IH]; [reflexivity|]. cbn. rewrite IH. f_equal. unfold ascii_lower. destruct ((65 <=? c) && (c <=? 90)) eqn:E; lia.
Qed.
Lemma profile_iff s pr : profile_named s = pr <-> profile_called s pr.
Proof.
  unfold profile_named.
  assert (D : uncased_eqb s (lit "default") = true <-> same_letters s (lit "default")) by (apply uncased_iff; reflexivity).
  assert (G : uncased_eqb s (lit "global") = true <-> same_letters s (lit "global")) by (apply uncased_iff; reflexivity).
  assert (X : same_letters s (lit "default") -> ~ same_letters s (lit "global")).
  { intros A B. apply same_letters_iff in A, B; try reflexivity. rewrite A in B. discriminate. }
  destruct (uncased_eqb s (lit "default")); [|destruct (uncased_eqb s (lit "global"))].
  - split; [intros <-; now apply D|]. destruct pr; cbn [profile_called]; [reflexivity|intros K; now elim X; [apply D|]|intros (_ & K & _); now elim K; apply D].
  - split; [intros <-; now apply G|]. destruct pr; cbn [profile_called]; [intros K; now elim X; [|apply G]|reflexivity|intros (_ & _ & K); now elim K; apply G].
  - split.
    + intros <-. cbn [profile_called]. split; [now apply lower_rel|]. split; intros K; [apply D in K|apply G in K]; discriminate.
    + destruct pr; cbn [profile_called]; [intros K; apply D in K; discriminate|intros K; apply G in K; discriminate|intros (K & _)]. apply lower_rel in K. now rewrite K.
Qed.

(** ** Texts: words and numbers *)

Lemma span_spec p s a b : span p s = (a, b) <-> s = a ++ b /\ Forall (fun c => p c = true) a /\ (forall c r, b = c :: r -> p c = false).
Proof.
  split.
  - revert a b. induction s as [|c s IH]; intros a b; cbn [span].
    + intros [= <- <-]. split; [reflexivity|]. split; [constructor|discriminate].
    + destruct (p c) eqn:P.
      * destruct (span p s) as [x y]. intros [= <- <-]. destruct (IH x y eq_refl) as (-> & F & H). split; [reflexivity|]. split; [now constructor|assumption].
      * intros [= <- <-]. split; [reflexivity|]. split; [constructor|]. intros ? ? [= <- <-]. exact P.
  - intros (-> & F & H). induction F as [|c a P F IH]; cbn [app span].
    + destruct b as [|c b]; [reflexivity|]. cbn [span]. now rewrite (H c b eq_refl).
    + now rewrite P, IH.
Qed.
Lemma is_digit_iff c : is_digit c = true <-> is_dec_digit c.
Proof. unfold is_digit, is_dec_digit. lia. Qed.
Lemma digits_iff d : Forall (fun c => is_digit c = true) d <-> digits d.
Proof. unfold digits. split; intros F; eapply Forall_impl; try eassumption; cbn; intros c; apply is_digit_iff. Qed.
Lemma is_nil_iff s : is_nil s = true <-> s = [].
Proof. destruct s; cbn; split; congruence. Qed.
Lemma is_nil_false s : is_nil s = false <-> s <> [].
Proof. destruct s; cbn; split; congruence. Qed.

Lemma digits_no_sign d r : d <> [] -> digits d -> strip_sign (d ++ r) = d ++ r.
Proof. intros NE F. destruct d as [|c d]; [congruence|]. inversion F as [|? ? H]; subst. unfold is_dec_digit in H. cbn. destruct ((c =? 43) || (c =? 45)) eqn:E; [lia|reflexivity]. Qed.
Lemma strip_sign_app g s : sign g -> strip_sign s = s -> (forall c r, s = c :: r -> c <> 43 /\ c <> 45) -> strip_sign (g ++ s) = s.
Proof. intros [->|[->| ->]] E H; [exact E|reflexivity|reflexivity]. Qed.
Lemma strip_sign_split s : exists g, sign g /\ s = g ++ strip_sign s.
Proof.
  destruct s as [|c s]; [exists []; split; [now left|reflexivity]|]. cbn. destruct ((c =? 43) || (c =? 45)) eqn:E.
  - exists [c]. split; [|reflexivity]. apply orb_true_iff in E. destruct E as [E|E]; apply N.eqb_eq in E; subst; [right; now left|right; now right].
  - exists []. split; [now left|reflexivity].
Qed.
Lemma exponent_iff s : is_exponent s = true <-> exponent s.
Proof.
  unfold is_exponent, exponent. destruct s as [|c t]; [split; [now left|reflexivity]|]. split.
  - intros H. apply andb_true_iff in H. destruct H as [Hc H]. right. destruct (span is_digit (strip_sign t)) as [a b] eqn:S. apply span_spec in S. destruct S as (E & F & _).
    apply andb_true_iff in H. destruct H as [Ha Hb]. apply negb_true_iff, is_nil_false in Ha. apply is_nil_iff in Hb. subst b. rewrite app_nil_r in E.
    destruct (strip_sign_split t) as (g & G & T). exists c, g, a. rewrite T at 1. rewrite E. split; [reflexivity|]. split; [lia|]. split; [assumption|]. split; [assumption|]. now apply digits_iff.
  - intros [K|(c' & g & d & K & Hc & G & NE & D)]; [discriminate|]. injection K as <- ->. apply andb_true_iff. split; [lia|].
    assert (S : strip_sign (g ++ d) = d).
    { apply strip_sign_app; [assumption| |].
      - pose proof (digits_no_sign d [] NE D) as X. now rewrite app_nil_r in X.
      - intros x r ->. inversion D as [|? ? H]; subst. unfold is_dec_digit in H. lia. }
    rewrite S. rewrite (proj2 (span_spec is_digit d d [])); [|split; [now rewrite app_nil_r|split; [now apply digits_iff|discriminate]]].
    destruct d; [congruence|reflexivity].
Qed.
Lemma exponent_head e : exponent e -> forall c r, e = c :: r -> is_digit c = false /\ c <> 46.
Proof. intros [->|(c & g & d & -> & H & _)] x r E; [discriminate|]. injection E as <- _. unfold is_digit. lia. Qed.
Lemma decimal_iff u : is_decimal u = true <->
  (exists d e, u = d ++ e /\ d <> [] /\ digits d /\ exponent e)
  \/ (exists d d' e, u = d ++ 46 :: d' ++ e /\ digits d /\ digits d' /\ d ++ d' <> [] /\ exponent e).
Proof.
  unfold is_decimal. destruct (span is_digit u) as [a r] eqn:S. pose proof S as S0. apply span_spec in S. destruct S as (E & F & H). apply digits_iff in F. split.
  - destruct r as [|c t].
    + intros K. apply negb_true_iff, is_nil_false in K. left. exists a, []. split; [assumption|]. split; [assumption|]. split; [assumption|now left].
    + destruct (c =? 46) eqn:D.
      * apply N.eqb_eq in D. subst c. destruct (span is_digit t) as [b e] eqn:S'. apply span_spec in S'. destruct S' as (E' & F' & _). apply digits_iff in F'.
        intros K. apply andb_true_iff in K. destruct K as [K1 K2]. right. exists a, b, e. split; [now rewrite E, E'|]. split; [assumption|]. split; [assumption|].
        split; [|now apply exponent_iff]. apply negb_true_iff in K1. intros Z. apply app_eq_nil in Z. destruct Z as [-> ->]. discriminate.
      * intros K. apply andb_true_iff in K. destruct K as [K1 K2]. apply negb_true_iff, is_nil_false in K1. left. exists a, (c :: t). split; [assumption|]. split; [assumption|].
        split; [assumption|]. now apply exponent_iff.
  - intros [(d & e & U & NE & D & X)|(d & d' & e & U & D & D' & NE & X)].
    + assert (K : span is_digit u = (d, e)).
      { apply span_spec. split; [assumption|]. split; [now apply digits_iff|]. intros c r' Er. now apply (exponent_head e X c r'). }
      rewrite K in S0. injection S0 as <- <-. destruct e as [|c t]; [destruct d; [congruence|reflexivity]|].
      destruct (exponent_head _ X c t eq_refl) as [_ N46]. destruct (c =? 46) eqn:Z; [lia|]. apply andb_true_iff. split; [destruct d; [congruence|reflexivity]|]. now apply exponent_iff.
    + assert (K : span is_digit u = (d, 46 :: d' ++ e)).
      { apply span_spec. split; [assumption|]. split; [now apply digits_iff|]. intros c r' Er. injection Er as <- _. reflexivity. }
      rewrite K in S0. injection S0 as <- <-. change (46 =? 46) with true. cbv iota.
      rewrite (proj2 (span_spec is_digit (d' ++ e) d' e)); [|split; [reflexivity|split; [now apply digits_iff|intros c r' Er; now apply (exponent_head e X c r')]]].
      apply andb_true_iff. split; [|now apply exponent_iff]. destruct d, d'; try reflexivity. now elim NE.
Qed.
Lemma number_iff s : is_number s = true <-> numeral s.
Proof.
  unfold is_number. assert (W : forall u, uncased_eqb u (lit "inf") || uncased_eqb u (lit "infinity") || uncased_eqb u (lit "nan") = true
    <-> exists n, In n ["inf"; "infinity"; "nan"]%string /\ same_letters u (lit n)).
  { intros u. rewrite !orb_true_iff, (uncased_iff u "inf" "inf"), (uncased_iff u "infinity" "infinity"), (uncased_iff u "nan" "nan") by reflexivity. cbn [In]. split.
    - intros [[K|K]|K]; eexists; (split; [|exact K]); auto.
    - intros (n & [<-|[<-|[<-|[]]]] & K); auto. }
  rewrite orb_true_iff, W, decimal_iff. destruct (strip_sign_split s) as (g & G & E). split.
  - intros [(n & J & L)|[(d & e & U & NE & D & X)|(d & d' & e & U & D & D' & NE & X)]]; rewrite E.
    + now apply (numeral_word g _ n).
    + rewrite U. now apply numeral_whole.
    + rewrite U. now apply numeral_point.
  - clear g G E. intros K. destruct K as [g d e G NE D X|g d d' e G D D' NE X|g w n G J L].
    + assert (S : strip_sign (g ++ d ++ e) = d ++ e).
      { apply strip_sign_app; [assumption|now apply digits_no_sign|]. intros c r Z. destruct d as [|y d]; [congruence|]. injection Z as <- _. inversion D as [|? ? H]; subst. unfold is_dec_digit in H. lia. }
      rewrite S. right. left. eauto 7.
    + assert (S : strip_sign (g ++ d ++ 46 :: d' ++ e) = d ++ 46 :: d' ++ e).
      { assert (Hd : forall c r, d ++ 46 :: d' ++ e = c :: r -> c <> 43 /\ c <> 45).
        { intros c r Z. destruct d as [|y d]; [injection Z as <- _; split; discriminate|]. injection Z as <- _. inversion D as [|? ? H]; subst. unfold is_dec_digit in H. lia. }
        apply strip_sign_app; [assumption| |assumption]. destruct (d ++ 46 :: d' ++ e) as [|c r] eqn:Z; [reflexivity|]. destruct (Hd c r eq_refl). cbn. destruct ((c =? 43) || (c =? 45)) eqn:Y; [lia|reflexivity]. }
      rewrite S. right. right. exists d, d', e. auto.
    + assert (Hw : forall c r, w = c :: r -> c <> 43 /\ c <> 45).
      { intros c r ->. cbn [In] in J. destruct J as [<-|[<-|[<-|[]]]]; inversion L as [|? ? ? ? Hc]; subst; unfold upper_or_lower in Hc; lia. }
      assert (S : strip_sign (g ++ w) = w).
      { apply strip_sign_app; [assumption| |assumption]. destruct w as [|c r]; [reflexivity|]. destruct (Hw c r eq_refl). cbn. destruct ((c =? 43) || (c =? 45)) eqn:Y; [lia|reflexivity]. }
      rewrite S. left. eauto.
Qed.
Lemma fold_dec d : forall a, fold_left (fun a c => a * 10 + (c - 48)) d a = a * 10 ^ N.of_nat (List.length d) + dec_value d.
Proof.
  induction d as [|c d IH]; intros a; cbn [fold_left dec_value List.length]; [change (10 ^ N.of_nat 0) with 1; lia|].
  rewrite IH, Nnat.Nat2N.inj_succ, N.pow_succ_r'. nia.
Qed.
Lemma number_u32_iff w n : number_u32 w = Some n <-> whole w n.
Proof.
  unfold number_u32. cbn zeta. destruct (strip_sign_split w) as (g & G & E). split.
  - destruct (forallb is_digit (strip_sign w) && negb (is_nil (strip_sign w))) eqn:T; [|discriminate]. apply andb_true_iff in T. destruct T as [D NE]. apply negb_true_iff, is_nil_false in NE.
    rewrite forallb_forall in D. rewrite fold_dec. set (m := 0 * _ + _). destruct ((m <? 2 ^ 32) && _) eqn:B; [|discriminate]. intros K. injection K as <-. apply andb_true_iff in B. destruct B as [B1 B2].
    exists g, (strip_sign w). split; [exact E|]. split; [exact G|]. split; [exact NE|]. split; [apply digits_iff, Forall_forall; exact D|]. split; [unfold m; lia|]. split; [now apply N.ltb_lt|].
    intros ->. rewrite E in B2. change (([45] ++ strip_sign w)) with (45 :: strip_sign w) in B2. cbn in B2. now apply N.eqb_eq.
  - clear g G E. intros (g & d & -> & G & NE & D & -> & B & M).
    assert (S : strip_sign (g ++ d) = d).
    { apply strip_sign_app; [assumption| |].
      - pose proof (digits_no_sign d [] NE D) as X. now rewrite app_nil_r in X.
      - intros x r ->. inversion D as [|? ? H]; subst. unfold is_dec_digit in H. lia. }
    rewrite S. assert (F : forallb is_digit d = true) by (apply forallb_forall; apply Forall_forall; now apply digits_iff). rewrite F. rewrite (proj2 (is_nil_false d) NE). cbn [negb andb].
    rewrite fold_dec. replace (0 * 10 ^ N.of_nat (List.length d) + dec_value d) with (dec_value d) by lia. rewrite (proj2 (N.ltb_lt _ _) B). cbn [andb].
    assert (X : negb match g ++ d with c :: _ => c =? 45 | [] => false end || (dec_value d =? 0) = true); [|now rewrite X].
    destruct G as [->|[->| ->]]; [|reflexivity|rewrite (M eq_refl); apply orb_true_r]. destruct d as [|x d]; [congruence|]. inversion D as [|? ? H]; subst. unfold is_dec_digit in H. cbn [app]. destruct (N.eqb_spec x 45); [lia|reflexivity].
Qed.
Lemma number_value_iff w v : match number_u32 w with Some n => CNum n | None => COther end = v <-> number_value w v.
Proof.
  unfold number_value. split.
  - intros <-. destruct (number_u32 w) as [n|] eqn:E; [left; exists n; split; [now apply number_u32_iff|reflexivity]|]. right. split; [|reflexivity]. intros n K. apply number_u32_iff in K. congruence.
  - intros [(n & W & ->)|[W ->]]; [apply number_u32_iff in W; now rewrite W|]. destruct (number_u32 w) as [n|] eqn:E; [|reflexivity]. apply number_u32_iff in E. now elim (W n).
Qed.
Lemma bare_iff s v : bare_value s = v <-> exists w, stripped s w /\ word_value w v.
Proof.
  unfold bare_value. set (w := trim s).
  assert (T : leqb w (lit "true") = true <-> w = lit "true") by apply leqb_eq.
  assert (Fa : leqb w (lit "false") = true <-> w = lit "false") by apply leqb_eq.
  pose proof (number_iff w) as Nw.
  assert (NT : ~ numeral (lit "true")) by (rewrite <- number_iff; discriminate).
  assert (NF : ~ numeral (lit "false")) by (rewrite <- number_iff; discriminate).
  assert (U : (exists w', stripped s w' /\ word_value w' v) <-> word_value w v).
  { split; [intros (w' & S & H); apply trim_stripped in S; unfold w; now rewrite S|intros H; exists w; split; [now apply trim_stripped|assumption]]. }
  rewrite U. unfold word_value. destruct (leqb w (lit "true")).
  - assert (E : w = lit "true") by now apply T. rewrite E. split; [intros <-; left; auto|].
    intros [[_ ->]|[[K _]|[[K _]|(K & _)]]]; [reflexivity|discriminate|contradiction|congruence].
  - assert (E1 : w <> lit "true") by (intros K; apply T in K; discriminate). destruct (leqb w (lit "false")).
    + assert (E : w = lit "false") by now apply Fa. rewrite E. split; [intros <-; right; left; auto|].
      intros [[K _]|[[_ ->]|[[K _]|(_ & K & _)]]]; [discriminate|reflexivity|contradiction|congruence].
    + assert (E2 : w <> lit "false") by (intros K; apply Fa in K; discriminate). destruct (is_number w).
      * assert (E3 : numeral w) by now apply Nw. rewrite number_value_iff. split; [auto|]. intros [[K _]|[[K _]|[[_ K]|(_ & _ & K & _)]]]; [contradiction|contradiction|exact K|contradiction].
      * assert (E3 : ~ numeral w) by (intros K; apply Nw in K; discriminate). split; [intros <-; auto 7|].
        intros [[K _]|[[K _]|[[K _]|(_ & _ & _ & ->)]]]; [contradiction|contradiction|contradiction|reflexivity].
Qed.

(** ** Texts: the grammar *)

Lemma blank_iff c : is_ascii_whitespace c = true <-> blank_char c.
Proof. unfold is_ascii_whitespace, blank_char. cbn [In]. lia. Qed.
Lemma blanks_iff s : Forall (fun c => is_ascii_whitespace c = true) s <-> Forall blank_char s.
Proof. split; intros F; eapply Forall_impl; try eassumption; cbn; intros c; apply blank_iff. Qed.
Lemma separator_iff c : is_not_separator c = true <-> ~ separator c.
Proof. unfold is_not_separator, separator. cbn [In]. lia. Qed.
Lemma skip_split s : exists a, s = a ++ skip_blanks s /\ Forall blank_char a /\ (forall c r, skip_blanks s = c :: r -> ~ blank_char c).
Proof.
  unfold skip_blanks. destruct (span is_ascii_whitespace s) as [a b] eqn:E. apply span_spec in E. destruct E as (-> & F & H). exists a. cbn [snd]. split; [reflexivity|].
  split; [now apply blanks_iff|]. intros c r Z K. apply blank_iff in K. rewrite (H c r Z) in K. discriminate.
Qed.
Lemma skip_app a s : Forall blank_char a -> (forall c r, s = c :: r -> ~ blank_char c) -> skip_blanks (a ++ s) = s.
Proof.
  intros F H. unfold skip_blanks. rewrite (proj2 (span_spec is_ascii_whitespace (a ++ s) a s)); [reflexivity|]. split; [reflexivity|]. split; [now apply blanks_iff|].
  intros c r Z. destruct (is_ascii_whitespace c) eqn:E; [|reflexivity]. apply blank_iff in E. now elim (H c r Z).
Qed.
Lemma quoted_iff s : forall a b, quoted_text s = Some (a, b) <-> s = a ++ 34 :: b /\ Forall text_char a.
Proof.
  induction s as [|c s IH]; intros a b; cbn [quoted_text].
  - split; [discriminate|]. intros [K _]. destruct a; discriminate.
  - destruct (c =? 34) eqn:Q.
    + apply N.eqb_eq in Q. subst c. split.
      * intros [= <- <-]. split; [reflexivity|constructor].
      * intros [K F]. destruct a as [|x a]; cbn [app] in K; inversion K; subst; [reflexivity|]. inversion F as [|? ? [H _]]; subst. congruence.
    + destruct ((c =? 92) || (c <? 32) && negb (c =? 9) || (c =? 127)) eqn:B.
      * split; [discriminate|]. intros [K F]. exfalso. destruct a as [|x a]; cbn [app] in K; inversion K; subst; [lia|]. inversion F as [|? ? H]; subst. unfold text_char in H. lia.
      * split.
        -- destruct (quoted_text s) as [[x y]|]; [|discriminate]. intros [= <- <-]. destruct (proj1 (IH x y) eq_refl) as [-> F]. split; [reflexivity|].
           constructor; [unfold text_char; lia|assumption].
        -- intros [K F]. destruct a as [|x a]; cbn [app] in K; inversion K; subst; [lia|]. inversion F as [|? ? _ F']; subst. rewrite (proj2 (IH a b)); [reflexivity|auto].
Qed.
Lemma ident_iff c : is_ident_char c = true <-> ident_char c.
Proof. unfold is_ident_char, ident_char, is_dec_digit. lia. Qed.
Lemma table_key_iff s t : table_key s = Some t <-> exists a k b, s = a ++ k ++ b ++ 61 :: t /\ Forall blank_char a /\ key_text k /\ Forall blank_char b.
Proof.
  unfold table_key. split.
  - destruct (skip_split s) as (a & E & A & _). remember (skip_blanks s) as s' eqn:Es. clear Es. intros H.
    assert (K : exists k r, s' = k ++ r /\ key_text k /\ match skip_blanks r with c :: t => if c =? 61 then Some t else None | [] => None end = Some t).
    { destruct s' as [|c u]; [discriminate|]. destruct (c =? 34) eqn:Q.
      - apply N.eqb_eq in Q. subst c. destruct (quoted_text u) as [[x y]|] eqn:T; [|discriminate]. apply quoted_iff in T. destruct T as [-> F]. cbn [option_map snd] in H.
        exists (34 :: x ++ [34]), y. split; [cbn; now rewrite <- app_assoc|]. split; [now constructor|assumption].
      - destruct (span is_ident_char (c :: u)) as [[|x k] r] eqn:S; [discriminate|]. apply span_spec in S. destruct S as (S & F & _). exists (x :: k), r. split; [assumption|].
        split; [|assumption]. constructor; [discriminate|]. eapply Forall_impl; [|exact F]. intros y. apply ident_iff. }
    destruct K as (k & r & -> & Kk & R). destruct (skip_split r) as (b & Er & B & _). destruct (skip_blanks r) as [|c u] eqn:Sr; [discriminate|].
    destruct (c =? 61) eqn:Q; [|discriminate]. apply N.eqb_eq in Q. injection R as ->. subst c. exists a, k, b. split; [rewrite E, Er; reflexivity|auto].
  - intros (a & k & b & -> & A & K & B).
    assert (H61 : forall c r, 61 :: t = c :: r -> ~ blank_char c) by (intros c r [= <- _]; unfold blank_char; cbn [In]; lia).
    destruct K as [k NE F|k F].
    + assert (Hk : forall c r, k ++ b ++ 61 :: t = c :: r -> ~ blank_char c /\ (c =? 34) = false).
      { intros c r Z. destruct k as [|x k]; [congruence|]. injection Z as <- _. inversion F as [|? ? H]; subst. unfold ident_char, is_dec_digit in H. unfold blank_char. cbn [In]. lia. }
      rewrite skip_app; [|assumption|intros c r Z; now apply (Hk c r)].
      destruct (k ++ b ++ 61 :: t) as [|c u] eqn:Z; [destruct k; [congruence|discriminate]|]. destruct (Hk c u eq_refl) as [_ ->]. rewrite <- Z.
      rewrite (proj2 (span_spec is_ident_char (k ++ b ++ 61 :: t) k (b ++ 61 :: t))).
      * destruct k as [|x k]; [congruence|]. rewrite (skip_app b _ B H61). reflexivity.
      * split; [reflexivity|]. split; [eapply Forall_impl; [|exact F]; intros y; apply ident_iff|]. intros x r Y. destruct b as [|y b]; [injection Y as <- _; reflexivity|].
        injection Y as <- _. inversion B as [|? ? H]; subst. unfold blank_char in H. cbn [In] in H. unfold is_ident_char. lia.
    + rewrite skip_app; [|assumption|intros c r [= <- _]; unfold blank_char; cbn [In]; lia]. cbn [app]. change (34 =? 34) with true. cbv iota.
      rewrite (proj2 (quoted_iff _ k (b ++ 61 :: t))); [|split; [now rewrite <- app_assoc|assumption]]. cbn [option_map snd]. rewrite (skip_app b _ B H61). reflexivity.
Qed.

Scheme literal_mut := Induction for literal Sort Prop
with items_mut := Induction for items Sort Prop
with entries_mut := Induction for entries Sort Prop
with entry_mut := Induction for entry Sort Prop.
Combined Scheme texts_ind from literal_mut, items_mut, entries_mut, entry_mut.

Lemma word_literal a s : Forall blank_char a -> Forall (fun c => ~ separator c) s -> (forall c r, s = c :: r -> ~ blank_char c /\ c <> 34 /\ c <> 39) ->
  literal (a ++ s) (bare_value s).
Proof. intros A S H. destruct (proj1 (bare_iff s _) eq_refl) as (w & W & V). now apply (literal_word a s w). Qed.
Lemma skip_id s : (forall c r, s = c :: r -> ~ blank_char c) -> skip_blanks s = s.
Proof. intros H. apply (skip_app [] s); [constructor|assumption]. Qed.

Lemma parse_sound f :
  (forall s v rest, parse_value f s = Some (v, rest) -> exists a, s = a ++ rest /\ literal a v)
  /\ (forall s l rest, parse_items f false s = Some (l, rest) -> exists a, s = a ++ 93 :: rest /\ items a l)
  /\ (forall s l rest, parse_items f true s = Some (l, rest) -> exists a, s = a ++ 125 :: rest /\ entries a).
Proof.
  induction f as [|f (IV & II & IT)]; [split; [|split]; discriminate|]. split; [|split].
  - intros s v rest H. cbn [parse_value] in H. destruct (skip_split s) as (a & E & A & Hb). remember (skip_blanks s) as s' eqn:Es. clear Es.
    match type of H with (match ?r with _ => _ end) = _ => destruct r as [[v' r']|] eqn:R; [|discriminate] end. injection H as -> <-.
    destruct (skip_split r') as (b & E' & B & Hr). remember (skip_blanks r') as rest eqn:Er.
    destruct s' as [|c t].
    { injection R as <- <-. cbn in Er. subst rest. exists a. rewrite E. split; [reflexivity|]. rewrite <- (app_nil_r a). apply word_literal; [assumption|constructor|discriminate]. }
    destruct (c =? 123) eqn:C1.
    { apply N.eqb_eq in C1. subst c. destruct (parse_items f true t) as [[l r]|] eqn:P; [|discriminate]. injection R as <- <-. destruct (IT _ _ _ P) as (x & -> & X).
      exists (a ++ 123 :: x ++ 125 :: b). split; [rewrite E, E', <- app_assoc; cbn; rewrite <- app_assoc; reflexivity|now constructor]. }
    destruct (c =? 91) eqn:C2.
    { apply N.eqb_eq in C2. subst c. destruct (parse_items f false t) as [[l r]|] eqn:P; [|discriminate]. injection R as <- <-. destruct (II _ _ _ P) as (x & -> & X).
      exists (a ++ 91 :: x ++ 93 :: b). split; [rewrite E, E', <- app_assoc; cbn; rewrite <- app_assoc; reflexivity|now constructor]. }
    destruct (c =? 34) eqn:C3.
    { apply N.eqb_eq in C3. subst c. destruct (quoted_text t) as [[x y]|] eqn:P; [|discriminate]. injection R as <- <-. apply quoted_iff in P. destruct P as (-> & X).
      exists (a ++ 34 :: x ++ 34 :: b). split; [rewrite E, E', <- app_assoc; cbn; rewrite <- app_assoc; reflexivity|now constructor]. }
    destruct (c =? 39) eqn:C4.
    { apply N.eqb_eq in C4. subst c. destruct t as [|x [|q u]]; try discriminate. destruct (q =? 39) eqn:Q; [|discriminate]. apply N.eqb_eq in Q. subst q. injection R as <- <-.
      exists (a ++ 39 :: x :: 39 :: b). split; [rewrite E, E', <- app_assoc; reflexivity|now constructor]. }
    destruct (span is_not_separator (c :: t)) as [x y] eqn:S. injection R as <- <-. apply span_spec in S. destruct S as (S & F & Hy).
    assert (Y : rest = y).
    { rewrite Er. apply skip_id. intros z r -> K. specialize (Hy z r eq_refl). unfold blank_char in K. cbn [In] in K. unfold is_not_separator in Hy. lia. }
    rewrite Y. exists (a ++ x). split; [rewrite E, S, <- app_assoc; reflexivity|]. apply word_literal; [assumption|eapply Forall_impl; [|exact F]; intros z; apply separator_iff|].
    intros z r ->. injection S as <- _. split; [now apply (Hb c t)|lia].
  - intros s l rest H. cbn [parse_items] in H.
    match type of H with match s with [] => ?i | _ => _ end = _ => assert (G : (exists t, s = 93 :: t /\ l = [] /\ rest = t) \/ ((forall t, s <> 93 :: t) /\ i = Some (l, rest))) end.
    { destruct s as [|c t]; [right; split; [discriminate|exact H]|]. destruct (c =? 93) eqn:C; [left; apply N.eqb_eq in C; subst c; injection H as <- <-; eauto|right].
      split; [intros t' [= -> _]; lia|exact H]. }
    destruct G as [(t & -> & -> & ->)|(N & G)]; [exists []; split; [reflexivity|constructor]|].
    destruct (parse_value f s) as [[v [|c t]]|] eqn:P; try discriminate. destruct (IV _ _ _ P) as (a & Ea & La). destruct (c =? 44) eqn:C.
    + apply N.eqb_eq in C. subst c. destruct (parse_items f false t) as [[l' r']|] eqn:Q; [|discriminate]. injection G as <- <-. destruct (II _ _ _ Q) as (b & -> & Lb).
      exists (a ++ 44 :: b). split; [rewrite Ea, <- app_assoc; reflexivity|now constructor].
    + destruct (c =? 93) eqn:C'; [|discriminate]. apply N.eqb_eq in C'. subst c. injection G as <- <-. exists a. split; [assumption|]. constructor; [|assumption].
      intros ->. now apply (N t).
  - intros s l rest H. cbn [parse_items] in H.
    match type of H with match s with [] => ?i | _ => _ end = _ => assert (G : (exists t, s = 125 :: t /\ l = [] /\ rest = t) \/ i = Some (l, rest)) end.
    { destruct s as [|c t]; [right; exact H|]. destruct (c =? 125) eqn:C; [left; apply N.eqb_eq in C; subst c; injection H as <- <-; eauto|right; exact H]. }
    destruct G as [(t & -> & -> & ->)|G]; [exists []; split; [reflexivity|constructor]|].
    destruct (table_key s) as [s1|] eqn:T; [|discriminate]. apply table_key_iff in T. destruct T as (x & k & y & -> & X & K & Y).
    destruct (parse_value f s1) as [[v [|c t]]|] eqn:P; try discriminate. destruct (IV _ _ _ P) as (a & -> & La).
    assert (En : entry (x ++ k ++ y ++ 61 :: a)) by now apply (entry_of x k y a v). destruct (c =? 44) eqn:C.
    + apply N.eqb_eq in C. subst c. destruct (parse_items f true t) as [[l' r']|] eqn:Q; [|discriminate]. injection G as <- <-. destruct (IT _ _ _ Q) as (b & -> & Lb).
      exists ((x ++ k ++ y ++ 61 :: a) ++ 44 :: b). split; [rewrite <- !app_assoc; cbn; rewrite <- ?app_assoc; reflexivity|now constructor].
    + destruct (c =? 125) eqn:C'; [|discriminate]. apply N.eqb_eq in C'. subst c. injection G as <- <-. exists (x ++ k ++ y ++ 61 :: a).
      split; [rewrite <- !app_assoc; cbn; rewrite <- ?app_assoc; reflexivity|now constructor].
Qed.

(* What may come after a value. *)
Definition ends_value (s : str) : Prop := s = [] \/ exists c t, s = c :: t /\ (c = 44 \/ c = 93 \/ c = 125).
Lemma ends_not_blank s : ends_value s -> forall c r, s = c :: r -> ~ blank_char c.
Proof. intros [->|(c & t & -> & H)] x r E; [discriminate|]. injection E as <- _. unfold blank_char. cbn [In]. lia. Qed.
Lemma literal_head s v : literal s v -> forall c r, s = c :: r -> c <> 44 /\ c <> 93 /\ c <> 125.
Proof.
  assert (Bl : forall a u, Forall blank_char a -> (forall c r, u = c :: r -> c <> 44 /\ c <> 93 /\ c <> 125) -> forall c r, a ++ u = c :: r -> c <> 44 /\ c <> 93 /\ c <> 125).
  { intros a u A H c r E. destruct a as [|x a]; [now apply (H c r)|]. injection E as <- _. inversion A as [|? ? K]; subst. unfold blank_char in K. cbn [In] in K. lia. }
  destruct 1 as [a s w v A S H W V|a c b A B|a s b A S B|a s vs b A S B|a s b A S B]; apply Bl; try assumption; intros x r E; try (injection E as <- _; lia).
  subst s. inversion S as [|? ? K]; subst. unfold separator in K. cbn [In] in K. lia.
Qed.
Lemma entry_head s : entry s -> forall c r, s = c :: r -> c <> 125.
Proof.
  destruct 1 as [a k b s v A K B L]. intros c r E. destruct a as [|x a].
  - destruct K as [k NE F|k F]; [destruct k as [|x k]; [congruence|]; injection E as <- _; inversion F as [|? ? H]; subst; unfold ident_char, is_dec_digit in H; lia|].
    injection E as <- _. lia.
  - injection E as <- _. inversion A as [|? ? H]; subst. unfold blank_char in H. cbn [In] in H. lia.
Qed.
Lemma len_app {A} (a b : list A) : List.length (a ++ b) = (List.length a + List.length b)%nat.
Proof. apply app_length. Qed.

Lemma parse_complete :
  (forall s v, literal s v -> forall f rest, (2 * List.length s + 2 <= f)%nat -> ends_value rest -> parse_value f (s ++ rest) = Some (v, rest))
  /\ (forall s l, items s l -> forall f rest, (2 * List.length s + 3 <= f)%nat -> parse_items f false (s ++ 93 :: rest) = Some (l, rest))
  /\ (forall s, entries s -> forall f rest, (2 * List.length s + 3 <= f)%nat -> exists l, parse_items f true (s ++ 125 :: rest) = Some (l, rest))
  /\ (forall s, entry s -> forall f rest, (2 * List.length s + 2 <= f)%nat -> ends_value rest ->
        exists s1 v, table_key (s ++ rest) = Some s1 /\ parse_value f s1 = Some (v, rest)).
Proof.
  apply texts_ind.
  - intros a s w v A S H W V f rest Hf Er. destruct f as [|f]; [lia|]. cbn [parse_value]. rewrite <- app_assoc.
    assert (Hh : forall c r, s ++ rest = c :: r -> ~ blank_char c /\ c <> 123 /\ c <> 91 /\ c <> 34 /\ c <> 39).
    { intros c r E. destruct s as [|x s].
      - cbn [app] in E. subst rest. split; [now apply (ends_not_blank _ Er c r)|]. destruct Er as [K|(c' & t & K & Hc)]; [discriminate|]. injection K as <- _. lia.
      - injection E as <- _. destruct (H x s eq_refl) as (H1 & H2 & H3). inversion S as [|? ? K]; subst. unfold separator in K. cbn [In] in K. split; [assumption|]. lia. }
    rewrite skip_app; [|assumption|intros c r E; now apply (Hh c r)].
    assert (Sp : span is_not_separator (s ++ rest) = (s, rest)).
    { apply span_spec. split; [reflexivity|]. split; [eapply Forall_impl; [|exact S]; intros z; apply separator_iff|]. intros c r ->.
      destruct Er as [K|(c' & t & K & Hc)]; [discriminate|]. injection K as <- _. unfold is_not_separator. lia. }
    assert (Bv : bare_value s = v) by (apply bare_iff; eauto).
    destruct (s ++ rest) as [|c t] eqn:Z.
    + apply app_eq_nil in Z. destruct Z as [-> ->]. rewrite Bv. reflexivity.
    + destruct (Hh c t eq_refl) as (_ & H1 & H2 & H3 & H4). rewrite (proj2 (N.eqb_neq c 123) H1), (proj2 (N.eqb_neq c 91) H2), (proj2 (N.eqb_neq c 34) H3), (proj2 (N.eqb_neq c 39) H4).
      rewrite Sp, Bv. rewrite skip_id; [reflexivity|now apply ends_not_blank].
  - intros a c b A B f rest Hf Er. destruct f as [|f]; [lia|]. cbn [parse_value]. rewrite <- app_assoc. cbn [app].
    rewrite skip_app; [|assumption|intros x r [= <- _]; unfold blank_char; cbn [In]; lia]. cbn -[skip_blanks]. rewrite skip_app; [reflexivity|assumption|now apply ends_not_blank].
  - intros a s b A S B f rest Hf Er. destruct f as [|f]; [lia|]. cbn [parse_value]. rewrite <- app_assoc. cbn [app].
    rewrite skip_app; [|assumption|intros x r [= <- _]; unfold blank_char; cbn [In]; lia]. change (34 =? 123) with false. change (34 =? 91) with false. change (34 =? 34) with true. cbv iota.
    rewrite <- app_assoc. cbn [app]. rewrite (proj2 (quoted_iff _ s (b ++ rest))); [|now split]. rewrite skip_app; [reflexivity|assumption|now apply ends_not_blank].
  - intros a s vs b A S IH B f rest Hf Er. destruct f as [|f]; [lia|]. cbn [parse_value]. rewrite <- app_assoc. cbn [app].
    rewrite skip_app; [|assumption|intros x r [= <- _]; unfold blank_char; cbn [In]; lia]. change (91 =? 123) with false. change (91 =? 91) with true. cbv iota.
    rewrite <- app_assoc. cbn [app]. rewrite IH; [rewrite skip_app; [reflexivity|assumption|now apply ends_not_blank]|].
    rewrite !len_app in Hf. cbn [List.length] in Hf. rewrite !len_app in Hf. cbn [List.length] in Hf. lia.
  - intros a s b A S IH B f rest Hf Er. destruct f as [|f]; [lia|]. cbn [parse_value]. rewrite <- app_assoc. cbn [app].
    rewrite skip_app; [|assumption|intros x r [= <- _]; unfold blank_char; cbn [In]; lia]. change (123 =? 123) with true. cbv iota.
    rewrite <- app_assoc. cbn [app]. destruct (IH f (b ++ rest)) as [l ->]; [|rewrite skip_app; [reflexivity|assumption|now apply ends_not_blank]].
    rewrite !len_app in Hf. cbn [List.length] in Hf. rewrite !len_app in Hf. cbn [List.length] in Hf. lia.
  - intros f rest Hf. destruct f as [|f]; [cbn in Hf; lia|]. reflexivity.
  - intros s v NE L IH f rest Hf. destruct f as [|f]; [lia|]. cbn [parse_items].
    assert (E : parse_value f (s ++ 93 :: rest) = Some (v, 93 :: rest)) by (apply IH; [lia|right; exists 93, rest; auto]). rewrite E.
    destruct s as [|c s]; [congruence|]. destruct (literal_head _ _ L c s eq_refl) as (_ & H & _). cbn [app]. rewrite (proj2 (N.eqb_neq c 93) H). reflexivity.
  - intros s v t vs L IH I IHt f rest Hf. rewrite len_app in Hf. cbn [List.length] in Hf. destruct f as [|f]; [lia|]. cbn [parse_items]. rewrite <- app_assoc. cbn [app].
    assert (E : parse_value f (s ++ 44 :: t ++ 93 :: rest) = Some (v, 44 :: t ++ 93 :: rest)) by (apply IH; [lia|right; eexists _, _; split; [reflexivity|now left]]). rewrite E.
    change (44 =? 44) with true. cbv iota. rewrite IHt by lia. destruct s as [|c s]; [reflexivity|]. destruct (literal_head _ _ L c s eq_refl) as (_ & H & _).
    cbn [app]. rewrite (proj2 (N.eqb_neq c 93) H). reflexivity.
  - intros f rest Hf. destruct f as [|f]; [cbn in Hf; lia|]. exists []. reflexivity.
  - intros s L IH f rest Hf. destruct f as [|f]; [lia|]. cbn [parse_items].
    destruct (IH f (125 :: rest)) as (s1 & v & T & P); [lia|right; exists 125, rest; auto|]. rewrite T, P. exists [v].
    destruct s as [|c s]; [discriminate T|]. pose proof (entry_head _ L c s eq_refl) as H. cbn [app]. rewrite (proj2 (N.eqb_neq c 125) H). reflexivity.
  - intros s t L IH I IHt f rest Hf. rewrite len_app in Hf. cbn [List.length] in Hf. destruct f as [|f]; [lia|]. cbn [parse_items]. rewrite <- app_assoc. cbn [app].
    destruct (IH f (44 :: t ++ 125 :: rest)) as (s1 & v & T & P); [lia|right; eexists _, _; split; [reflexivity|now left]|]. rewrite T, P.
    change (44 =? 44) with true. cbv iota. destruct (IHt f rest) as [l ->]; [lia|]. exists (v :: l). destruct s as [|c s]; [reflexivity|].
    pose proof (entry_head _ L c s eq_refl) as H. cbn [app]. rewrite (proj2 (N.eqb_neq c 125) H). reflexivity.
  - intros a k b s v A K B L IH f rest Hf Er. exists (s ++ rest), v. split; [apply table_key_iff; exists a, k, b; split; [rewrite <- !app_assoc; reflexivity|auto]|].
    apply IH; [|assumption]. rewrite !len_app in Hf. cbn [List.length] in Hf. lia.
Qed.

Lemma literal_value s v : literal s v -> value_of_text s = v.
Proof.
  intros L. unfold value_of_text. pose proof (proj1 parse_complete s v L (S (S (2 * List.length s))) []) as P. rewrite app_nil_r in P. rewrite P; [reflexivity|lia|now left].
Qed.
Lemma value_iff s v : value_of_text s = v <-> stands_for s v.
Proof.
  assert (D : (exists v', literal s v') \/ (forall v', ~ literal s v') /\ value_of_text s = CStr s).
  { unfold value_of_text. destruct (parse_value (S (S (2 * List.length s))) s) as [[v' [|c r]]|] eqn:P.
    - left. destruct (proj1 (parse_sound _) _ _ _ P) as (a & -> & L). rewrite app_nil_r. eauto.
    - right. split; [|reflexivity]. intros v'' L. pose proof (proj1 parse_complete s v'' L (S (S (2 * List.length s))) []) as Q. rewrite app_nil_r, P in Q.
      specialize (Q ltac:(lia) ltac:(now left)). discriminate.
    - right. split; [|reflexivity]. intros v'' L. pose proof (proj1 parse_complete s v'' L (S (S (2 * List.length s))) []) as Q. rewrite app_nil_r, P in Q.
      specialize (Q ltac:(lia) ltac:(now left)). discriminate. }
  unfold stands_for. split.
  - intros <-. destruct D as [(v' & L)|D]; [left; now rewrite (literal_value s v' L)|right; exact D].
  - intros [L|[N ->]]; [now apply literal_value|]. destruct D as [(v' & L)|[_ E]]; [now elim (N v')|assumption].
Qed.
Lemma env_dict_iff vars k v : dict_get (env_dict vars) k = Some v <-> assigns vars k v.
Proof.
  split.
  - intros H. pose proof (env_dict_keys vars k v H) as J. revert v H. induction vars as [|[name text] vars IH] using rev_ind; intros v H; [discriminate|].
    rewrite env_dict_snoc, dict_get_app in H. destruct (concerns_dec (name, text) k J) as [[C|C]|C].
    + rewrite (entry_setting name text k J C) in H. cbn [dict_get] in H. rewrite String.eqb_refl in H. injection H as <-.
      apply (assigns_value _ vars name text []); try assumption; [reflexivity|now apply value_iff|constructor].
    + rewrite (entry_table name text k J C) in H. cbn [dict_get] in H. rewrite String.eqb_refl in H. injection H as <-.
      apply (assigns_table _ vars name text []); try assumption; [reflexivity|constructor].
    + rewrite (entry_other _ k C) in H. specialize (IH v H). destruct IH as [b n t a k v E J' S T F|b n t a k E J' S F].
      * apply (assigns_value _ b n t (a ++ [(name, text)])); try assumption; [now rewrite E, <- app_assoc|]. apply Forall_app. split; [assumption|]. repeat constructor. exact C.
      * apply (assigns_table _ b n t (a ++ [(name, text)])); try assumption; [now rewrite E, <- app_assoc|]. apply Forall_app. split; [assumption|]. repeat constructor. exact C.
  - assert (K : forall k after vars u, Forall (fun x : str * str => ~ concerns (fst x) k) after -> dict_get (env_dict vars) k = u -> dict_get (env_dict (vars ++ after)) k = u).
    { clear. intros k after vars u F. revert vars. induction F as [|x a C F IH]; intros vars U; [now rewrite app_nil_r|]. change (x :: a) with ([x] ++ a). rewrite app_assoc. apply IH.
      rewrite env_dict_snoc, dict_get_app, (entry_other x k C). exact U. }
    intros [b n t a k' v' E J S T F|b n t a k' E J S F]; subst vars; change ((n, t) :: a) with ([(n, t)] ++ a); rewrite app_assoc; (apply K; [assumption|]); rewrite env_dict_snoc, dict_get_app.
    + rewrite (entry_setting n t k' J S). cbn [dict_get]. rewrite String.eqb_refl. f_equal. now apply value_iff.
    + rewrite (entry_table n t k' J S). cbn [dict_get]. now rewrite String.eqb_refl.
Qed.
