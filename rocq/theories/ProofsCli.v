(** Lemmas about the command line. *)

From Coq Require Import NArith List String Ascii Bool Lia ZifyN ZifyBool ZifyNat Permutation.
From Verif Require Import Base ModelUtil ModelTlv ModelProcess ProofsValues ModelCli SpecCli ModelMain SpecMain ProofsMain.
Import ListNotations.
Local Open Scope N_scope.

(** ** The table of options *)

Definition id_of (n : option_name) : string :=
  match n with
  | OptHelp => "help" | OptVersion => "version" | OptColour => "colour" | OptMasking => "masking-character"
  | OptSort => "sort-parsed-tags" | OptNoSort => "no-sort-parsed-tags"
  | OptOperation OpTvr => "tvr" | OptOperation OpIad => "ccd-iad" | OptOperation OpCvr => "ccd-cvr"
  | OptOperation OpTsi => "tsi" | OptOperation OpCvmResults => "cvm-results" | OptOperation OpCvmList => "cvm-list"
  | OptOperation OpIdentify => "identify" | OptOperation OpAuto => "auto-tlv" | OptOperation OpBer => "ber-tlv"
  | OptOperation OpIngenico => "ingenico-tlv" | OptOperation OpServiceCode => "service-code"
  end.
Definition no_arg : arg := mkArg "" [] [] [] 0 None [] [] ActSet NonEmpty [] [].
Definition arg_of (n : option_name) : arg :=
  match find (fun a => String.eqb (a_id a) (id_of n)) cli_args with Some a => a | None => no_arg end.
Definition all_names : list option_name := map fst spellings.

Lemma all_names_all n : In n all_names.
Proof. destruct n as [| | | | | |[]]; cbn; tauto. Qed.
Lemma name_dec (a b : option_name) : {a = b} + {a <> b}.
Proof. decide equality. decide equality. Qed.
Lemma id_inj a b : id_of a = id_of b -> a = b.
Proof. intros H. destruct a as [| | | | | |[]], b as [| | | | | |[]]; try reflexivity; discriminate H. Qed.
Lemma arg_id n : a_id (arg_of n) = id_of n.
Proof. destruct n as [| | | | | |[]]; reflexivity. Qed.
Lemma args_names : cli_args = map arg_of [OptHelp; OptVersion; OptColour; OptMasking; OptSort; OptNoSort;
  OptOperation OpIdentify; OptOperation OpAuto; OptOperation OpBer; OptOperation OpIngenico; OptOperation OpTvr;
  OptOperation OpIad; OptOperation OpCvr; OptOperation OpTsi; OptOperation OpCvmResults; OptOperation OpCvmList; OptOperation OpServiceCode].
Proof. reflexivity. Qed.
Lemma in_args a : In a cli_args <-> exists n, a = arg_of n.
Proof.
  rewrite args_names, in_map_iff. split.
  - intros (n & <- & _). eauto.
  - intros (n & ->). exists n. split; [reflexivity|]. destruct n as [| | | | | |[]]; cbn; tauto.
Qed.

Lemma member_in s l : member s l = true <-> In s l.
Proof.
  unfold member. rewrite existsb_exists. split.
  - intros (x & I & E). apply String.eqb_eq in E. now subst.
  - intros I. exists s. split; [assumption|apply String.eqb_refl].
Qed.
Lemma spelt_in sp a : spelt sp a = true <-> match sp with Short s => In s (a_shorts a) | Long s => In s (a_longs a) end.
Proof. destruct sp; apply member_in. Qed.

(* [spells] and the declaration agree. *)
Lemma spells_spelt n sp : spells n sp <-> spelt sp (arg_of n) = true.
Proof.
  rewrite spelt_in. split.
  - intros (l & I & J). cbn in I.
    repeat (destruct I as [I|I]; [injection I as <- <-; cbn in J; repeat (destruct J as [<-|J]; [cbn; tauto|]); destruct J|]). destruct I.
  - intros H. destruct sp as [s|s]; destruct n as [| | | | | |[]]; cbn in H; repeat (destruct H as [<-|H]; [eexists; split; [cbn; tauto|cbn; tauto]|]); destruct H.
Qed.
Lemma spells_one n n' sp : spells n sp -> spells n' sp -> n = n'.
Proof.
  intros (l & I & J) H. cbn in I.
  repeat (destruct I as [I|I]; [injection I as <- <-; cbn in J;
    repeat (destruct J as [<-|J]; [apply spells_spelt in H; destruct n' as [| | | | | |[]]; first [reflexivity|discriminate H]|]); destruct J|]). destruct I.
Qed.
Lemma find_spells n sp : spells n sp -> find (spelt sp) cli_args = Some (arg_of n).
Proof.
  intros H. destruct (find (spelt sp) cli_args) as [a|] eqn:F.
  - apply find_some in F. destruct F as [I S]. apply in_args in I. destruct I as (n' & ->). apply spells_spelt in S. now rewrite (spells_one n n' sp H S).
  - exfalso. apply spells_spelt in H. rewrite (find_none _ _ F (arg_of n)) in H; [discriminate|apply in_args; eauto].
Qed.
Lemma find_spelt sp a : find (spelt sp) cli_args = Some a -> exists n, a = arg_of n /\ spells n sp.
Proof. intros F. apply find_some in F. destruct F as [I S]. apply in_args in I. destruct I as (n & ->). exists n. split; [reflexivity|now apply spells_spelt]. Qed.
Lemma spells_dec n sp : {spells n sp} + {~ spells n sp}.
Proof. destruct (spelt sp (arg_of n)) eqn:E; [left|right; intros H]; [now apply spells_spelt|apply spells_spelt in H; congruence]. Qed.

(** ** One occurrence *)

(* The values stored for an occurrence. *)
Definition stored (n : option_name) (vs : list str) : list str :=
  match vs with [] => map lit (a_missing (arg_of n)) | _ :: _ => vs end.
(* clap's checks of the number of values and of the values. *)
Definition fine (n : option_name) (vs : list str) : bool :=
  negb ((len vs <? a_min (arg_of n)) || match a_max (arg_of n) with Some m => m <? len vs | None => false end)
  && match n with OptHelp | OptVersion => true | _ => forallb (value_ok (a_parser (arg_of n))) (stored n vs) end.
Definition informs (n : option_name) : bool := match n with OptHelp | OptVersion => true | _ => false end.

Lemma fine_takes n vs : fine n vs = true <-> takes n vs.
Proof.
  assert (One : forall l, len (l : list str) = 0 /\ l = [] \/ (exists v, l = [v] /\ len l = 1) \/ (exists v w t, l = v :: w :: t /\ 2 <= len l)).
  { intros [|v [|w t]]; [left; auto|right; left; eauto|right; right; exists v, w, t; split; [reflexivity|]]. unfold len. cbn [List.length]. lia. }
  assert (Op : forall op, fine (OptOperation op) vs = (len vs =? 1) && forallb (value_ok NonEmpty) vs).
  { intros op. replace (fine (OptOperation op) vs) with (negb ((len vs <? 1) || (1 <? len vs)) && forallb (value_ok NonEmpty) (stored (OptOperation op) vs)) by (destruct op; reflexivity).
    destruct (One vs) as [[E ->]|[(v & -> & E)|(v & w & t & -> & E)]]; try reflexivity. replace (1 <? len (v :: w :: t)) with true by lia. replace (len (v :: w :: t) =? 1) with false by lia. now rewrite orb_true_r. }
  assert (Bo : forall n, n = OptSort \/ n = OptNoSort -> (fine n vs = true <-> vs = [] \/ vs = [lit "true"] \/ vs = [lit "false"])).
  { intros n' Hn. replace (fine n' vs) with (negb ((len vs <? 0) || (1 <? len vs)) && forallb (value_ok OneBool) (stored n' vs)) by (destruct Hn; subst; reflexivity).
    destruct (One vs) as [[E ->]|[(v & -> & E)|(v & w & t & -> & E)]].
    - destruct Hn; subst; cbn; tauto.
    - cbn -[lit leqb]. rewrite andb_true_r, orb_true_iff, !leqb_eq. split; [intros [->| ->]; auto|]. intros [K|[K|K]]; [discriminate|injection K as ->; auto..].
    - replace (1 <? len (v :: w :: t)) with true by lia. rewrite orb_true_r. split; [discriminate|]. intros [K|[K|K]]; discriminate. }
  destruct n as [| | | | | |op].
  - destruct vs as [|l vs]; [cbn; tauto|]. split; discriminate.
  - destruct vs as [|l vs]; [cbn; tauto|]. split; discriminate.
  - replace (fine OptColour vs) with (negb ((len vs <? 1) || (1 <? len vs)) && forallb (value_ok (AnyOf ["auto"; "always"; "ansi"; "never"]%string)) (stored OptColour vs)) by reflexivity.
    destruct (One vs) as [[E ->]|[(v & -> & E)|(v & w & t & -> & E)]].
    + split; [discriminate|]. intros (v & c & x & K & _). discriminate.
    + cbn -[lit leqb]. rewrite andb_true_r, orb_false_r, !orb_true_iff, !leqb_eq. split.
      * intros [->|[->|[->| ->]]]; eexists; eexists; eexists; (split; [reflexivity|]); (split; [|reflexivity]); cbn; tauto.
      * intros (v' & c & x & K & I & ->). injection K as ->. cbn in I. repeat (destruct I as [I|I]; [injection I as <- <-; tauto|]). destruct I.
    + replace (1 <? len (v :: w :: t)) with true by lia. rewrite orb_true_r. split; [discriminate|]. intros (v' & c & x & K & _). discriminate.
  - replace (fine OptMasking vs) with (negb ((len vs <? 1) || false) && forallb (value_ok OneChar) (stored OptMasking vs)) by reflexivity.
    destruct vs as [|v t]; [split; [discriminate|]; intros [K _]; congruence|]. cbn [stored takes]. rewrite orb_false_r.
    replace (len (v :: t) <? 1) with false by (unfold len; cbn [List.length]; lia). cbn [negb andb]. rewrite forallb_forall, Forall_forall. split.
    + intros H. split; [discriminate|]. intros x I. apply H in I. cbn [value_ok] in I. apply N.eqb_eq in I. destruct x as [|c [|d u]]; [discriminate|eauto|unfold len in I; cbn [List.length] in I; lia].
    + intros [_ H] x I. destruct (H x I) as (c & ->). reflexivity.
  - apply Bo. auto.
  - apply Bo. auto.
  - rewrite Op. cbn [takes]. destruct (One vs) as [[E ->]|[(v & -> & E)|(v & w & t & -> & E)]].
    + split; [discriminate|]. intros (v & K & _). discriminate.
    + rewrite E. cbn [forallb value_ok]. rewrite andb_true_r. split.
      * intros H. exists v. split; [reflexivity|]. intros ->. discriminate.
      * intros (v' & K & N). injection K as <-. destruct v; [congruence|reflexivity].
    + replace (len (v :: w :: t) =? 1) with false by lia. split; [discriminate|]. intros (v' & K & _). discriminate.
Qed.

Lemma step_known g n sp vs : spells n sp -> cli_step g (sp, vs) =
  if fine n vs then
    match n with
    | OptHelp => CliHelp
    | OptVersion => CliVersion
    | OptMasking => CliOk ((id_of n, match given_values g (id_of n) with Some v => v | None => [] end ++ stored n vs) :: g)
    | _ => if is_given g (id_of n) then CliError else CliOk ((id_of n, stored n vs) :: g)
    end
  else CliError.
Proof.
  intros H. unfold cli_step. cbn [fst snd]. rewrite (find_spells n sp H), arg_id. unfold fine, stored.
  destruct ((len vs <? a_min (arg_of n)) || _); [reflexivity|]. cbn [negb andb].
  assert (A : a_action (arg_of n) = match n with OptHelp => ActHelp | OptVersion => ActVersion | OptMasking => ActAppend | _ => ActSet end) by (destruct n as [| | | | | |[]]; reflexivity).
  rewrite A. destruct n; try reflexivity; destruct (forallb _ _); reflexivity.
Qed.
Lemma step_unknown g sp vs : (forall n, ~ spells n sp) -> cli_step g (sp, vs) = CliError.
Proof. intros H. unfold cli_step. cbn [fst]. destruct (find (spelt sp) cli_args) as [a|] eqn:F; [|reflexivity]. apply find_spelt in F. destruct F as (n & _ & S). now apply H in S. Qed.
Lemma spells_some_dec sp : {n | spells n sp} + {forall n, ~ spells n sp}.
Proof.
  destruct (find (fun n => if spells_dec n sp then true else false) all_names) as [n|] eqn:F.
  - left. exists n. apply find_some in F. destruct F as [_ F]. now destruct (spells_dec n sp).
  - right. intros n H. pose proof (find_none _ _ F n (all_names_all n)) as K. cbn in K. destruct (spells_dec n sp); [discriminate|contradiction].
Qed.

(** ** All occurrences *)

Lemma steps_app l1 l2 : forall g, cli_steps g (l1 ++ l2) =
  match cli_steps g l1 with CliOk g' => cli_steps g' l2 | CliHelp => CliHelp | CliVersion => CliVersion | CliError => CliError | CliNothing => CliNothing end.
Proof. induction l1 as [|o t IH]; intros g; [reflexivity|]. cbn [app cli_steps]. destruct (cli_step g o); auto. Qed.

(* The occurrences of one option. *)
Definition about (n : option_name) (o : occurrence) : bool := if spells_dec n (fst o) then true else false.
Definition occ (n : option_name) (l : list occurrence) : list occurrence := filter (about n) l.
Lemma about_iff n o : about n o = true <-> spells n (fst o).
Proof. unfold about. destruct (spells_dec n (fst o)); split; intros; congruence. Qed.
Lemma occ_present n l : occ n l <> [] <-> present l n.
Proof.
  split.
  - intros H. destruct (occ n l) as [|o t] eqn:E; [congruence|]. assert (I : In o (occ n l)) by (rewrite E; left; reflexivity).
    apply filter_In in I. destruct I as [I A]. apply about_iff in A. exists (snd o), (fst o). split; [now destruct o|assumption].
  - intros (vs & sp & I & S) E. assert (K : In (sp, vs) (occ n l)) by (apply filter_In; split; [assumption|now apply about_iff]). rewrite E in K. destruct K.
Qed.
Definition gathered (n : option_name) (l : list occurrence) : option (list str) :=
  match occ n l with [] => None | os => Some (flat_map (fun o => stored n (snd o)) os) end.
Lemma gathered_snoc n l o : gathered n (l ++ [o]) =
  if about n o then Some (match gathered n l with Some v => v | None => [] end ++ stored n (snd o)) else gathered n l.
Proof.
  unfold gathered, occ. rewrite filter_app. cbn [filter]. destruct (about n o).
  - destruct (filter (about n) l) as [|x t] eqn:E; cbn [app flat_map]; [now rewrite app_nil_r|]. now rewrite flat_map_app, <- app_assoc; cbn [flat_map]; rewrite app_nil_r, <- ?app_assoc.
  - now rewrite app_nil_r.
Qed.

Definition orderly (l : list occurrence) : Prop :=
  (forall o, In o l -> exists n, spells n (fst o) /\ takes n (snd o) /\ informs n = false)
  /\ (forall n, n <> OptMasking -> (List.length (occ n l) <= 1)%nat).
Definition holds (g : given_args) (l : list occurrence) : Prop := forall n, given_values g (id_of n) = gathered n l.

Lemma given_cons k v g n : given_values ((id_of k, v) :: g) (id_of n) = if name_dec k n then Some v else given_values g (id_of n).
Proof.
  cbn [given_values]. destruct (name_dec k n) as [->|N]; [now rewrite String.eqb_refl|].
  destruct (String.eqb_spec (id_of k) (id_of n)) as [E|E]; [apply id_inj in E; contradiction|reflexivity].
Qed.
Lemma orderly_snoc l o : orderly (l ++ [o]) <-> orderly l /\ exists n, spells n (fst o) /\ takes n (snd o) /\ informs n = false /\ (n <> OptMasking -> occ n l = []).
Proof.
  unfold orderly, occ. split.
  - intros [H1 H2]. split; [split|].
    + intros x I. apply H1, in_or_app. auto.
    + intros n N. specialize (H2 n N). rewrite filter_app, app_length in H2. lia.
    + destruct (H1 o) as (n & S & T & I); [apply in_or_app; right; left; reflexivity|]. exists n. repeat (split; [assumption|]). intros N. specialize (H2 n N).
      rewrite filter_app, app_length in H2. cbn [filter] in H2. rewrite (proj2 (about_iff n o) S) in H2. cbn [List.length] in H2. destruct (filter (about n) l); [reflexivity|cbn in H2; lia].
  - intros [[H1 H2] (n & S & T & I & O)]. split.
    + intros x J. apply in_app_or in J. destruct J as [J|[<-|[]]]; [now apply H1|exists n; auto].
    + intros k K. rewrite filter_app, app_length. specialize (H2 k K). cbn [filter]. destruct (about k o) eqn:A; [|cbn; lia]. apply about_iff in A.
      assert (k = n) by (eapply spells_one; eauto). subst k. rewrite (O K). cbn. lia.
Qed.

Lemma gathered_none n l : gathered n l = None <-> occ n l = [].
Proof. unfold gathered. destruct (occ n l); split; intros; congruence. Qed.
Lemma steps_exact l : forall g, (cli_steps [] l = CliOk g -> orderly l /\ holds g l) /\ (orderly l -> exists g', cli_steps [] l = CliOk g').
Proof.
  induction l as [|o l IH] using rev_ind; intros g.
  - split; [intros E; injection E as <-; split; [split; [intros o []|intros n _; cbn; lia]|intros n; reflexivity]|].
    intros _. exists []. reflexivity.
  - rewrite steps_app. destruct o as [sp vs]. split.
    + destruct (cli_steps [] l) as [g0| | | |] eqn:E; try discriminate. cbn [cli_steps]. destruct (IH g0) as [IH1 _]. destruct (IH1 eq_refl) as [O H].
      destruct (spells_some_dec sp) as [[n S]|U]; [|rewrite (step_unknown g0 sp vs U); discriminate].
      rewrite (step_known g0 n sp vs S). destruct (fine n vs) eqn:F; [|discriminate]. apply fine_takes in F.
      assert (R : forall w, (n <> OptMasking -> occ n l = []) -> informs n = false -> w = match gathered n l with Some v => v | None => [] end ++ stored n vs -> CliOk ((id_of n, w) :: g0) = CliOk g -> orderly (l ++ [(sp, vs)]) /\ holds g (l ++ [(sp, vs)])).
      { intros w Hm Hi Hw Eg. injection Eg as <-. split; [apply orderly_snoc; split; [assumption|exists n; auto]|]. intros k. rewrite given_cons, gathered_snoc. cbn [snd].
        destruct (name_dec n k) as [<-|N].
        - now rewrite (proj2 (about_iff n (sp, vs)) S), Hw.
        - destruct (about k (sp, vs)) eqn:A; [|apply H]. apply about_iff in A. exfalso. apply N. eapply spells_one; eauto. }
      assert (G : is_given g0 (id_of n) = false -> occ n l = []).
      { unfold is_given. rewrite (H n). intros K. apply gathered_none. destruct (gathered n l); [discriminate|reflexivity]. }
      destruct n; try discriminate.
      2: { intros Eg. refine (R _ _ eq_refl _ Eg); [intros K; congruence|]. now rewrite (H OptMasking). }
      all: destruct (is_given g0 _) eqn:Gi; [discriminate|]; intros Eg; refine (R _ (fun _ => G eq_refl) eq_refl _ Eg); rewrite (proj2 (gathered_none _ l) (G eq_refl)); reflexivity.
    + intros O. apply orderly_snoc in O. destruct O as [O (n & S & T & I & Oc)]. cbn [fst snd] in *. destruct (IH []) as [_ IH2]. destruct (IH2 O) as [g0 E]. rewrite E. cbn [cli_steps].
      destruct (IH g0) as [IH1 _]. destruct (IH1 E) as [_ H]. rewrite (step_known g0 n sp vs S), (proj2 (fine_takes n vs) T).
      assert (G : n <> OptMasking -> is_given g0 (id_of n) = false) by (intros N; unfold is_given; rewrite (H n), (proj2 (gathered_none n l) (Oc N)); reflexivity).
      destruct n; try discriminate; try (rewrite G by discriminate); eauto.
Qed.

(** ** Validation *)

Lemma excludes_iff a b : excludes (arg_of a) (arg_of b) = true <->
  a <> b /\ ((exists op op', a = OptOperation op /\ b = OptOperation op') \/ a = OptSort /\ b = OptNoSort \/ a = OptNoSort /\ b = OptSort).
Proof.
  split.
  - intros H. destruct a as [| | | | | |op], b as [| | | | | |op'];
      try (destruct op; discriminate H); try (destruct op'; discriminate H); try discriminate H; (split; [try discriminate|try tauto]).
    + intros E. injection E as <-. destruct op; discriminate H.
    + left. eauto.
  - intros (N & [(op & op' & -> & ->)|[[-> ->]|[-> ->]]]); try reflexivity. destruct op, op'; first [reflexivity|congruence].
Qed.
Lemma requires_iff n r : In r (a_requires (arg_of n)) <-> r = "tlv-parsers"%string /\ (n = OptMasking \/ n = OptSort \/ n = OptNoSort).
Proof.
  destruct n as [| | | | | |[]]; cbn; split; try tauto; try (intros [<-|[]]; tauto); try (intros [-> _]; tauto);
    intros [_ [H|[H|H]]]; discriminate.
Qed.
Lemma named_tlv n : named "tlv-parsers" (arg_of n) = true <-> exists op, tlv_operation op /\ n = OptOperation op.
Proof.
  unfold tlv_operation. split.
  - intros H. destruct n as [| | | | | |op]; try discriminate H. exists op. split; [|reflexivity]. destruct op; try discriminate H; auto.
  - intros (op & [->|[->| ->]] & ->); reflexivity.
Qed.

Definition consistent (l : list occurrence) : Prop :=
  (forall op op', present l (OptOperation op) -> present l (OptOperation op') -> op = op')
  /\ ~ (present l OptSort /\ present l OptNoSort)
  /\ (forall n, n = OptMasking \/ n = OptSort \/ n = OptNoSort -> present l n -> exists op, tlv_operation op /\ present l (OptOperation op)).

Lemma holds_given g l n : holds g l -> (is_given g (id_of n) = true <-> present l n).
Proof.
  intros H. unfold is_given. rewrite (H n), <- occ_present. unfold gathered. destruct (occ n l); split; intros; congruence.
Qed.
Lemma present_args g l a : holds g l -> (In a (filter (fun a => is_given g (a_id a)) cli_args) <-> exists n, a = arg_of n /\ present l n).
Proof.
  intros H. rewrite filter_In, in_args. split.
  - intros ((n & ->) & G). exists n. split; [reflexivity|]. rewrite arg_id in G. now apply (holds_given g l n H).
  - intros (n & -> & P). split; [eauto|]. rewrite arg_id. now apply (holds_given g l n H).
Qed.
Lemma valid_iff g l : holds g l -> (cli_valid g = true <-> consistent l).
Proof.
  intros H. unfold cli_valid. rewrite andb_true_iff, !forallb_forall. split.
  - intros [X R].
    assert (E : forall a b, present l a -> present l b -> excludes (arg_of a) (arg_of b) = false).
    { intros a b Pa Pb. assert (Ia : In (arg_of a) (filter (fun a => is_given g (a_id a)) cli_args)) by (apply (present_args g l _ H); eauto).
      assert (Ib : In (arg_of b) (filter (fun a => is_given g (a_id a)) cli_args)) by (apply (present_args g l _ H); eauto).
      apply X in Ia. rewrite forallb_forall in Ia. apply Ia in Ib. now destruct (excludes _ _). }
    split; [|split].
    + intros op op' P P'. assert (D : {op = op'} + {op <> op'}) by decide equality. destruct D as [D|D]; [assumption|]. exfalso.
      assert (K : excludes (arg_of (OptOperation op)) (arg_of (OptOperation op')) = true) by (apply excludes_iff; split; [congruence|left; eauto]). rewrite E in K; [discriminate|assumption|assumption].
    + intros [P P']. specialize (E OptSort OptNoSort P P'). discriminate E.
    + intros n N P. assert (I : In (arg_of n) (filter (fun a => is_given g (a_id a)) cli_args)) by (apply (present_args g l _ H); eauto).
      apply R in I. rewrite forallb_forall in I. specialize (I "tlv-parsers"%string). rewrite existsb_exists in I. destruct I as (b & Ib & Nb); [now apply requires_iff|].
      apply (present_args g l _ H) in Ib. destruct Ib as (k & -> & Pk). apply named_tlv in Nb. destruct Nb as (op & T & ->). eauto.
  - intros (C1 & C2 & C3). split.
    + intros a Ia. apply (present_args g l _ H) in Ia. destruct Ia as (a' & -> & Pa). rewrite forallb_forall. intros b Ib. apply (present_args g l _ H) in Ib. destruct Ib as (b' & -> & Pb).
      destruct (excludes (arg_of a') (arg_of b')) eqn:E; [|reflexivity]. exfalso. apply excludes_iff in E. destruct E as (N & [(op & op' & -> & ->)|[[-> ->]|[-> ->]]]).
      * apply N. f_equal. now apply C1.
      * now apply C2.
      * now apply C2.
    + intros a Ia. apply (present_args g l _ H) in Ia. destruct Ia as (a' & -> & Pa). rewrite forallb_forall. intros r Ir. apply requires_iff in Ir. destruct Ir as [-> Hn].
      destruct (C3 a' Hn Pa) as (op & T & P). rewrite existsb_exists. exists (arg_of (OptOperation op)). split; [apply (present_args g l _ H); eauto|]. apply named_tlv. eauto.
Qed.

(* No option but the masking characters twice. *)
Lemma once_iff n (l : list occurrence) :
  (List.length (occ n l) <= 1)%nat <-> forall l1 o l2 o' l3, l = l1 ++ o :: l2 ++ o' :: l3 -> spells n (fst o) -> ~ spells n (fst o').
Proof.
  split.
  - intros H l1 o l2 o' l3 -> S S'. unfold occ in H. rewrite filter_app in H. cbn [filter] in H. rewrite filter_app in H. cbn [filter] in H.
    rewrite (proj2 (about_iff n o) S), (proj2 (about_iff n o') S') in H. rewrite app_length in H. cbn [List.length] in H. rewrite app_length in H. cbn [List.length] in H. lia.
  - induction l as [|o l IH]; intros H; [cbn; lia|]. unfold occ in *. cbn [filter].
    assert (IH' : (List.length (filter (about n) l) <= 1)%nat).
    { apply IH. intros l1 x l2 x' l3 E. apply (H (o :: l1) x l2 x' l3). now rewrite E. }
    destruct (about n o) eqn:A; [|assumption]. apply about_iff in A. cbn [List.length]. destruct (filter (about n) l) as [|x t] eqn:F; [cbn; lia|]. exfalso.
    assert (I : In x (filter (about n) l)) by (rewrite F; left; reflexivity). apply filter_In in I. destruct I as [I Sx]. apply about_iff in Sx.
    apply in_split in I. destruct I as (l2 & l3 & ->). exact (H [] o l2 x l3 eq_refl A Sx).
Qed.
Lemma no_information_iff l : no_information l <-> forall o n, In o l -> spells n (fst o) -> informs n = false.
Proof.
  unfold no_information. rewrite Forall_forall. split.
  - intros H o n I S. destruct (H o I) as [Hh Hv]. destruct n; try reflexivity; contradiction.
  - intros H o I. split; intros S; apply (H o _ I) in S; discriminate.
Qed.
Lemma acceptable_iff l : acceptable l /\ no_information l <-> l <> [] /\ orderly l /\ consistent l.
Proof.
  rewrite no_information_iff. split.
  - intros [[A1 A2 A3 A4 A5 A6] N]. split; [assumption|]. split; [|exact (conj A4 (conj A5 A6))]. split.
    + intros o I. destruct (A2 o I) as (n & S & T). exists n. repeat (split; [assumption|]). now apply (N o n I).
    + intros n Hn. apply once_iff. intros l1 o l2 o' l3 E S S'. apply Hn. eapply A3; eauto.
  - intros (A1 & [O1 O2] & A4 & A5 & A6). split; [split; try assumption|].
    + intros o I. destruct (O1 o I) as (n & S & T & _). eauto.
    + intros l1 o l2 o' l3 n E S S'. destruct (name_dec n OptMasking) as [|N]; [assumption|]. exfalso. apply (proj1 (once_iff n l) (O2 n N) l1 o l2 o' l3 E S S').
    + intros o n I S. destruct (O1 o I) as (n' & S' & _ & F). now rewrite (spells_one n n' (fst o) S S').
Qed.

(** ** The matches *)

Lemma typed_cl {A} (a b : A) : typed (Some (a, SrcCommandLine)) b <-> a = b.
Proof. split; [intros (src & E & _); injection E as -> _; reflexivity|intros ->; exists SrcCommandLine; split; [reflexivity|discriminate]]. Qed.
Lemma typed_default {A} (a b : A) : ~ typed (Some (a, SrcDefault)) b.
Proof. intros (src & E & N). injection E as _ <-. congruence. Qed.
Lemma typed_none {A} (b : A) : ~ typed None b.
Proof. intros (src & E & _). discriminate. Qed.

Lemma lookup_given g l n v : holds g l -> gathered n l = Some v -> lookup g (id_of n) = Some (v, SrcCommandLine).
Proof. intros H G. unfold lookup. now rewrite (H n), G. Qed.
Lemma lookup_default g l n : holds g l -> gathered n l = None ->
  lookup g (id_of n) = match a_default (arg_of n) with [] => None | d => Some (map lit d, SrcDefault) end.
Proof. intros H G. unfold lookup. rewrite (H n), G. destruct n as [| | | | | |[]]; reflexivity. Qed.

(* With one occurrence at most, what is gathered is what was said. *)
Lemma gathered_once l n : orderly l -> n <> OptMasking ->
  gathered n l = None /\ (forall vs, ~ said l n vs)
  \/ exists vs, said l n vs /\ (forall vs', said l n vs' -> vs' = vs) /\ takes n vs /\ gathered n l = Some (stored n vs).
Proof.
  intros [O1 O2] N. specialize (O2 n N). destruct (occ n l) as [|o [|o' t]] eqn:E; [left|right|cbn in O2; lia].
  - split; [now apply gathered_none|]. intros vs S. apply (proj2 (occ_present n l)); [exists vs; exact S|assumption].
  - assert (I : In o (occ n l)) by (rewrite E; left; reflexivity). apply filter_In in I. destruct I as [I A]. apply about_iff in A. exists (snd o).
    split; [exists (fst o); split; [now destruct o|assumption]|]. split; [|split].
    + intros vs (sp & J & S). assert (K : In (sp, vs) (occ n l)) by (apply filter_In; split; [assumption|now apply about_iff]). rewrite E in K. destruct K as [->|[]]. reflexivity.
    + destruct (O1 o I) as (n' & S & T & _). now rewrite (spells_one n n' (fst o) A S).
    + unfold gathered. rewrite E. cbn [flat_map]. now rewrite app_nil_r.
Qed.
Lemma masks_gathered l : orderly l -> (gathered OptMasking l = None <-> ~ present l OptMasking)
  /\ forall v, gathered OptMasking l = Some v -> forall cs, masks_typed l cs <-> cs = List.concat v.
Proof.
  intros O. split; [rewrite gathered_none, <- occ_present; destruct (occ OptMasking l); split; intros; try congruence; exfalso; apply H; discriminate|].
  assert (G : forall l, (forall o, In o l -> exists n, spells n (fst o) /\ takes n (snd o) /\ informs n = false) ->
    forall cs, masks_typed l cs <-> cs = List.concat (flat_map (fun o => stored OptMasking (snd o)) (occ OptMasking l))).
  { clear l O. induction l as [|[sp vs] l IH]; intros O cs.
    - cbn. split; [intros H; now inversion H|intros ->; constructor].
    - unfold occ in *. cbn [filter]. destruct (about OptMasking (sp, vs)) eqn:A.
      + apply about_iff in A. cbn [fst] in A. cbn [flat_map snd]. rewrite concat_app.
        assert (Sv : stored OptMasking vs = vs).
        { destruct (O (sp, vs)) as (n & S & T & _); [left; reflexivity|]. cbn [fst snd] in S, T. rewrite (spells_one n OptMasking sp S A) in T. destruct T as [T _]. destruct vs; [congruence|reflexivity]. }
        rewrite Sv. split.
        * intros H. inversion H as [|sp' vs' l' cs' S M|o l' cs' N M]; subst; [|contradiction]. apply IH in M; [|intros; apply O; right; assumption]. now subst.
        * intros ->. constructor; [assumption|]. apply IH; [intros; apply O; right; assumption|reflexivity].
      + assert (NA : ~ spells OptMasking (fst (sp, vs))) by (intros S; apply about_iff in S; congruence). split.
        * intros H. inversion H as [|sp' vs' l' cs' S M|o l' cs' N M]; subst; [contradiction|]. apply IH in M; [assumption|intros; apply O; right; assumption].
        * intros ->. apply masks_other; [assumption|]. apply IH; [intros; apply O; right; assumption|reflexivity]. }
  intros v E cs. destruct O as [O _]. rewrite (G l O cs). unfold gathered in E. destruct (occ OptMasking l); [discriminate|]. injection E as <-. reflexivity.
Qed.

Lemma matches_describe g l : holds g l -> orderly l -> describes l (cli_matches g).
Proof.
  intros H O. split.
  - assert (T : forall op, given (cli_matches g) op = get_text g (id_of (OptOperation op))) by (intros []; reflexivity).
    intros op s. rewrite T. unfold get_text. destruct (gathered_once l (OptOperation op) O) as [[G N]|(vs & S & U & Tk & G)]; [discriminate| |].
    + rewrite (lookup_default g l _ H G). replace (a_default (arg_of (OptOperation op))) with (@nil string) by (destruct op; reflexivity). split; [discriminate|]. intros K. now apply N in K.
    + rewrite (lookup_given g l _ _ H G). destruct Tk as (v & -> & _). cbn [stored]. split.
      * intros E. injection E as <-. assumption.
      * intros K. apply U in K. injection K as ->. reflexivity.
  - intros s. replace (m_colour (cli_matches g)) with (get_sourced g (id_of OptColour)) by reflexivity. unfold get_sourced.
    destruct (gathered_once l OptColour O) as [[G N]|(vs & S & U & Tk & G)]; [discriminate| |].
    + rewrite (lookup_default g l _ H G). split; [intros K; now apply typed_default in K|intros K; now apply N in K].
    + rewrite (lookup_given g l _ _ H G). destruct Tk as (v & c & x & -> & _). cbn [stored]. rewrite typed_cl. split; [intros ->; assumption|intros K; apply U in K; now injection K].
  - intros cs. replace (m_masking (cli_matches g)) with (get_chars g (id_of OptMasking)) by reflexivity. unfold get_chars. destruct (masks_gathered l O) as [M1 M2].
    destruct (gathered OptMasking l) as [v|] eqn:G.
    + rewrite (lookup_given g l _ _ H G), typed_cl, (M2 v eq_refl). assert (P : present l OptMasking) by (apply occ_present; intros K; apply gathered_none in K; congruence).
      split; [intros ->; auto|intros [_ ->]; reflexivity].
    + rewrite (lookup_default g l _ H G). cbn [a_default arg_of]. split; [intros K; now apply typed_default in K|]. intros [P _]. now apply M1 in P.
  - intros b. replace (m_sort (cli_matches g)) with (get_bool g (id_of OptSort)) by reflexivity. unfold get_bool, switch.
    destruct (gathered_once l OptSort O) as [[G N]|(vs & S & U & Tk & G)]; [discriminate| |].
    + rewrite (lookup_default g l _ H G). split; [intros K; now apply typed_default in K|]. destruct b; [intros [K|K]|intros K]; now apply N in K.
    + rewrite (lookup_given g l _ _ H G). destruct Tk as [->|[->| ->]]; [change (stored OptSort []) with [lit "true"]|change (stored OptSort [lit "true"]) with [lit "true"]|change (stored OptSort [lit "false"]) with [lit "false"]]; cbn [option_map]; rewrite typed_cl; destruct b; split; intros K; try discriminate K; auto;
        try reflexivity; try (destruct K as [K|K]; apply U in K; discriminate K); try (apply U in K; discriminate K).
  - intros b. replace (m_no_sort (cli_matches g)) with (get_bool g (id_of OptNoSort)) by reflexivity. unfold get_bool, switch.
    destruct (gathered_once l OptNoSort O) as [[G N]|(vs & S & U & Tk & G)]; [discriminate| |].
    + rewrite (lookup_default g l _ H G). split; [intros K; now apply typed_default in K|]. destruct b; [intros [K|K]|intros K]; now apply N in K.
    + rewrite (lookup_given g l _ _ H G). destruct Tk as [->|[->| ->]]; [change (stored OptNoSort []) with [lit "true"]|change (stored OptNoSort [lit "true"]) with [lit "true"]|change (stored OptNoSort [lit "false"]) with [lit "false"]]; cbn [option_map]; rewrite typed_cl; destruct b; split; intros K; try discriminate K; auto;
        try reflexivity; try (destruct K as [K|K]; apply U in K; discriminate K); try (apply U in K; discriminate K).
Qed.

Lemma steps_info l : no_information l -> forall g, (exists g', cli_steps g l = CliOk g') \/ cli_steps g l = CliError.
Proof.
  unfold no_information. induction 1 as [|[sp vs] l [Hh Hv] F IH]; intros g; [left; exists g; reflexivity|]. cbn [cli_steps]. cbn [fst] in Hh, Hv.
  assert (K : (exists g', cli_step g (sp, vs) = CliOk g') \/ cli_step g (sp, vs) = CliError).
  { destruct (spells_some_dec sp) as [[n S]|U]; [|right; now apply step_unknown]. rewrite (step_known g n sp vs S). destruct (fine n vs); [|auto].
    destruct n; try contradiction; try (destruct (is_given _ _)); eauto. }
  destruct K as [[g' ->]| ->]; [apply IH|auto].
Qed.
Lemma parse_exact l : no_information l ->
  (acceptable l /\ exists m, cli_parse l = CliOk m /\ describes l m)
  \/ ~ acceptable l /\ cli_parse l = match l with [] => CliNothing | _ => CliError end.
Proof.
  intros N. unfold cli_parse. destruct (steps_info l N []) as [[g E]|E]; rewrite E.
  - destruct (steps_exact l g) as [H _]. destruct (H E) as [O Hg]. destruct g as [|x g].
    + right. assert (l = []) as ->.
      { destruct l as [|o l]; [reflexivity|]. exfalso. destruct O as [O _]. destruct (O o) as (n & S & _); [left; reflexivity|]. specialize (Hg n). cbn [given_values] in Hg. symmetry in Hg.
        apply gathered_none in Hg. unfold occ in Hg. cbn [filter] in Hg. rewrite (proj2 (about_iff n o) S) in Hg. discriminate. }
      split; [|reflexivity]. intros [A _ _ _ _ _]. congruence.
    + assert (NE : l <> []) by (intros ->; discriminate E). destruct (cli_valid (x :: g)) eqn:V.
      * left. split; [apply acceptable_iff; split; [assumption|]; split; [assumption|]; now apply (valid_iff _ l Hg)|]. eexists. split; [reflexivity|]. now apply matches_describe.
      * right. split; [|destruct l; [congruence|reflexivity]]. intros A. assert (C : consistent l) by (apply (proj1 (acceptable_iff l)); auto). apply (valid_iff _ l Hg) in C. congruence.
  - right. split; [|destruct l; [discriminate|reflexivity]]. intros A. assert (O : orderly l) by (apply (proj1 (acceptable_iff l)); auto).
    destruct (steps_exact l []) as [_ H]. destruct (H O) as [g' K]. congruence.
Qed.

(** ** Equal requests *)

Definition same_masks (a b : list N) : Prop := forall c, In c a <-> In c b.
Definition same_typed {A : Type} (a b : option (A * value_source)) : Prop := forall x, typed a x <-> typed b x.
Definition same_request (m m' : matches) : Prop :=
  (forall op, given m op = given m' op) /\ same_typed (m_colour m) (m_colour m') /\ same_typed (m_sort m) (m_sort m') /\ same_typed (m_no_sort m) (m_no_sort m')
  /\ (not_typed (m_masking m) /\ not_typed (m_masking m') \/ exists a b, typed (m_masking m) a /\ typed (m_masking m') b /\ same_masks a b).

Lemma bind_ext {A B} (r : res A) (f g : A -> res B) : (forall a, f a = g a) -> bind r f = bind r g.
Proof. intros H. destruct r; cbn; auto. Qed.
Lemma masked_u8_same d a b : same_masks a b -> is_masked_u8 d a = is_masked_u8 d b.
Proof.
  intros H. unfold is_masked_u8. destruct (len d <? masking_char_minimum); [reflexivity|]. apply eq_true_iff_eq. rewrite !existsb_exists. split; intros (x & I & K); exists x; split; auto; now apply H.
Qed.
Lemma masked_str_same d a b : same_masks a b -> is_masked_str d a = is_masked_str d b.
Proof.
  intros H. unfold is_masked_str. destruct (str_len d <? masking_char_minimum); [reflexivity|]. apply eq_true_iff_eq. rewrite !existsb_exists. split; intros (x & I & K); exists x; split; auto; now apply H.
Qed.
Lemma child_ext f g t d : (forall x, f x = g x) -> get_child_block f t d = get_child_block g t d.
Proof. intros H. unfold get_child_block. destruct t, d; try reflexivity; now rewrite H. Qed.
Lemma ber_loop_same p a b : same_masks a b -> forall f bytes i ns, ber_loop f p a bytes i ns = ber_loop f p b bytes i ns.
Proof.
  intros H. induction f as [|f IH]; intros bytes i ns; [reflexivity|]. cbn [ber_loop]. destruct (i <? len bytes); [|reflexivity].
  do 4 (apply bind_ext; intros ?). destruct (len bytes <=? _); [reflexivity|]. apply bind_ext. intros [length di]. do 2 (apply bind_ext; intros ?). destruct (_ <=? _); [reflexivity|].
  do 2 (apply bind_ext; intros ?). unfold from_u8_check_for_masked. rewrite (masked_u8_same _ a b H). rewrite (child_ext _ (fun d => ber_loop f p b d 0 [])) by (intros; apply IH).
  do 3 (apply bind_ext; intros ?). apply IH.
Qed.
Lemma ber_parse_same p a b d : same_masks a b -> ber_parse p a d = ber_parse p b d.
Proof. intros H. now apply ber_loop_same. Qed.
Lemma ingenico_data_same p a b d n i : same_masks a b -> ingenico_data p a d n i = ingenico_data p b d n i.
Proof.
  intros H. unfold ingenico_data. apply bind_ext. intros fm. destruct (fm =? data_format_ascii); [|destruct (fm =? data_format_hex); [|reflexivity]].
  - do 2 (apply bind_ext; intros ?). destruct (_ <? _); [reflexivity|]. do 3 (apply bind_ext; intros ?). now rewrite (masked_str_same _ a b H).
  - do 3 (apply bind_ext; intros ?). destruct (_ <? _); [reflexivity|]. do 3 (apply bind_ext; intros ?). now rewrite (masked_str_same _ a b H).
Qed.
Lemma ingenico_loop_same p a b : same_masks a b -> forall f data i ns, ingenico_loop f p a data i ns = ingenico_loop f p b data i ns.
Proof.
  intros H. induction f as [|f IH]; intros data i ns; [reflexivity|]. cbn [ingenico_loop]. destruct (i <? len data); [|reflexivity].
  do 2 (apply bind_ext; intros ?). destruct (_ <=? _); [reflexivity|]. do 4 (apply bind_ext; intros ?). destruct (_ || _); [reflexivity|].
  do 5 (apply bind_ext; intros ?). destruct (4 <? _); [reflexivity|]. do 2 (apply bind_ext; intros ?). destruct (_ <=? _); [reflexivity|].
  rewrite (ingenico_data_same p a b _ _ _ H). apply bind_ext. intros [td j]. apply bind_ext. intros k. destruct (negb _); [apply IH|].
  rewrite (child_ext _ (ber_parse p b)) by (intros; now apply ber_parse_same). apply bind_ext. intros c. apply IH.
Qed.
Lemma ingenico_parse_same p a b d : same_masks a b -> ingenico_parse p a d = ingenico_parse p b d.
Proof. intros H. unfold ingenico_parse. destruct (negb _); [reflexivity|]. now apply ingenico_loop_same. Qed.
Lemma auto_parse_same p a b d : same_masks a b -> auto_parse p a d = auto_parse p b d.
Proof. intros H. unfold auto_parse. destruct d; [reflexivity|]. now rewrite (ingenico_parse_same p a b _ H), (ber_parse_same p a b _ H). Qed.

Lemma typed_cases {A} (o : option (A * value_source)) : (exists x, typed o x) \/ not_typed o.
Proof.
  destruct o as [[x []]|].
  - right. intros y. apply typed_default.
  - left. exists x, SrcEnv. split; [reflexivity|discriminate].
  - left. exists x, SrcCommandLine. split; [reflexivity|discriminate].
  - right. intros y. apply typed_none.
Qed.
Lemma typed_value {A B} (o : option (A * value_source)) x (d : B) (f : A -> B) : typed o x ->
  match o with Some (a, src) => if is_default_source src then d else f a | None => d end = f x.
Proof. intros (src & -> & N). destruct src; [congruence|reflexivity..]. Qed.
Lemma not_typed_value {A B} (o : option (A * value_source)) (d : B) (f : A -> B) : not_typed o ->
  match o with Some (a, src) => if is_default_source src then d else f a | None => d end = d.
Proof.
  intros N. destruct o as [[a []]|]; try reflexivity; exfalso; eapply N; eexists; (split; [reflexivity|discriminate]).
Qed.
Lemma same_typed_value {A B} (o o' : option (A * value_source)) (d : B) (f : A -> B) : same_typed o o' ->
  match o with Some (a, src) => if is_default_source src then d else f a | None => d end
  = match o' with Some (a, src) => if is_default_source src then d else f a | None => d end.
Proof.
  intros H. destruct (typed_cases o) as [[x T]|N].
  - rewrite (typed_value o x d f T). symmetry. apply typed_value. now apply H.
  - rewrite (not_typed_value o d f N). symmetry. apply not_typed_value. intros x T. apply H in T. now apply N in T.
Qed.

(* Dictionaries that differ in the order of masking characters only. *)
Definition near_entry (a b : list N) (x y : string * cvalue) : Prop :=
  x = y \/ x = ("masking_characters"%string, CArr (map CChar a)) /\ y = ("masking_characters"%string, CArr (map CChar b)).
Definition near_dict (a b : list N) : dict -> dict -> Prop := Forall2 (near_entry a b).
Definition near_figment (a b : list N) (f f' : figment) : Prop :=
  fg_profile f = fg_profile f' /\ match fg_values f, fg_values f' with
                                  | Some v, Some w => forall q, near_dict a b (v q) (w q) | None, None => True | _, _ => False end.
Lemma near_refl a b d : near_dict a b d d.
Proof. induction d; constructor; [left; reflexivity|assumption]. Qed.
Lemma near_app a b d1 d1' d2 d2' : near_dict a b d1 d1' -> near_dict a b d2 d2' -> near_dict a b (d1 ++ d2) (d1' ++ d2').
Proof. apply Forall2_app. Qed.
Lemma near_merge a b f f' pr d d' : near_figment a b f f' -> near_dict a b d d' -> near_figment a b (fg_merge f pr d) (fg_merge f' pr d').
Proof.
  intros [P V] D. split; [exact P|]. cbn [fg_merge fg_values]. destruct (fg_values f), (fg_values f'); cbn [option_map]; try contradiction; [|exact I].
  intros q. destruct (profile_eqb q pr); [|apply V]. apply near_app; [assumption|apply V].
Qed.
Lemma near_figment_refl a b f : near_figment a b f f.
Proof. split; [reflexivity|]. destruct (fg_values f); [|exact I]. intros q. apply near_refl. Qed.
Lemma near_get a b d d' k : near_dict a b d d' -> dict_get d k = dict_get d' k
  \/ k = "masking_characters"%string /\ dict_get d k = Some (CArr (map CChar a)) /\ dict_get d' k = Some (CArr (map CChar b)).
Proof.
  induction 1 as [|[k1 v1] [k2 v2] d d' N F IH]; [left; reflexivity|]. cbn [dict_get]. destruct N as [N|[N1 N2]].
  - injection N as <- <-. destruct (String.eqb k1 k); [left; reflexivity|exact IH].
  - injection N1 as -> ->. injection N2 as -> ->. destruct (String.eqb_spec "masking_characters" k) as [<-|]; [right; auto|exact IH].
Qed.
Lemma extract_typed cs : extract_chars (map CChar cs) = Some cs.
Proof. induction cs as [|c cs IH]; [reflexivity|]. cbn [map extract_chars extract_char]. now rewrite IH. Qed.

Definition same_settings (r r' : res settings) : Prop :=
  r = r' \/ exists c k k' s, r = Ok (mkSettings c k s) /\ r' = Ok (mkSettings c k' s) /\ same_masks k k'.
Lemma load_same e m m' : same_request m m' -> same_settings (load_settings e m) (load_settings e m').
Proof.
  intros (_ & C & S & NS & M). unfold load_settings, apply_cli_arguments.
  assert (EC : apply_colour (e_cli_profile e) (config_figment e) m = apply_colour (e_cli_profile e) (config_figment e) m') by (apply same_typed_value; exact C).
  rewrite EC. clear EC. destruct (apply_colour (e_cli_profile e) (config_figment e) m') as [f| | |]; cbn [bind]; try (left; reflexivity).
  assert (ES : cli_sort_preference m = cli_sort_preference m').
  { unfold cli_sort_preference. rewrite (same_typed_value (m_sort m) (m_sort m') None (fun b => Some b) S). apply (same_typed_value (m_no_sort m) (m_no_sort m') _ (fun b => Some (negb b)) NS). }
  unfold apply_sort. rewrite ES. clear ES.
  destruct M as [[N N']|(a & b & T & T' & Sm)].
  - unfold apply_masking. rewrite (not_typed_value _ f _ N), (not_typed_value _ f _ N'). left. reflexivity.
  - assert (F : near_figment a b (apply_masking (e_cli_profile e) f m) (apply_masking (e_cli_profile e) f m')).
    { unfold apply_masking. rewrite (typed_value _ a f _ T), (typed_value _ b f _ T'). apply near_merge; [apply near_figment_refl|]. constructor; [right; split; reflexivity|constructor]. }
    set (g := apply_masking (e_cli_profile e) f m) in *. set (g' := apply_masking (e_cli_profile e) f m') in *.
    set (h := match cli_sort_preference m' with Some b0 => fg_merge g (e_cli_profile e) [("sort_parsed_tags"%string, CBool b0)] | None => g end).
    set (h' := match cli_sort_preference m' with Some b0 => fg_merge g' (e_cli_profile e) [("sort_parsed_tags"%string, CBool b0)] | None => g' end).
    assert (Fh : near_figment a b h h') by (subst h h'; destruct (cli_sort_preference m'); [apply near_merge; [assumption|apply near_refl]|assumption]).
    assert (D : fg_merged h = None /\ fg_merged h' = None \/ exists d d', fg_merged h = Some d /\ fg_merged h' = Some d' /\ near_dict a b d d').
    { destruct Fh as [P V]. unfold fg_merged. rewrite <- P. destruct (fg_values h), (fg_values h'); cbn [option_map]; try contradiction; [|auto]. right. eexists. eexists. split; [reflexivity|]. split; [reflexivity|].
      destruct (fg_profile h); unfold dict_merge; repeat apply near_app; apply V. }
    destruct D as [[-> ->]|(d & d' & -> & -> & D)]; cbn [unwrap bind]; [left; reflexivity|].
    assert (K : forall k, k <> "masking_characters"%string -> dict_get d k = dict_get d' k) by (intros k Hk; destruct (near_get a b d d' k D) as [E|[E _]]; [assumption|contradiction]).
    rewrite (K "cli_colour"%string), (K "sort_parsed_tags"%string) by discriminate.
    destruct (near_get a b d d' "masking_characters" D) as [->|(_ & -> & ->)]; [left; reflexivity|].
    destruct (extract_colour (dict_get d' "cli_colour")) as [c|]; cbn [unwrap bind]; [|left; reflexivity]. cbn [extract_masking]. rewrite !extract_typed. cbn [unwrap bind].
    destruct (extract_bool (dict_get d' "sort_parsed_tags")) as [s|]; cbn [unwrap bind]; [|left; reflexivity]. right. repeat eexists; apply Sm.
Qed.
Lemma run_same p e m m' : same_request m m' -> run_main p e m = run_main p e m'.
Proof.
  intros H. pose proof (load_same e m m' H) as L. destruct H as (G & _). unfold run_main.
  pose proof (G OpTvr : m_tvr m = m_tvr m') as E1. pose proof (G OpIad : m_ccd_iad m = m_ccd_iad m') as E2. pose proof (G OpCvr : m_ccd_cvr m = m_ccd_cvr m') as E3.
  pose proof (G OpTsi : m_tsi m = m_tsi m') as E4. pose proof (G OpCvmResults : m_cvm_results m = m_cvm_results m') as E5. pose proof (G OpCvmList : m_cvm_list m = m_cvm_list m') as E6.
  pose proof (G OpIdentify : m_identify m = m_identify m') as E7. pose proof (G OpAuto : m_auto_tlv m = m_auto_tlv m') as E8. pose proof (G OpBer : m_ber_tlv m = m_ber_tlv m') as E9.
  pose proof (G OpIngenico : m_ingenico_tlv m = m_ingenico_tlv m') as E10. pose proof (G OpServiceCode : m_service_code m = m_service_code m') as E11.
  rewrite E1, E2, E3, E4, E5, E6, E7, E8, E9, E10, E11. destruct L as [->|(c & k & k' & s & -> & -> & S)]; [reflexivity|]. cbn [set_masking set_sort].
  destruct (m_tvr m'); [reflexivity|].
  destruct (m_ccd_iad m'); [reflexivity|].
  destruct (m_ccd_cvr m'); [reflexivity|].
  destruct (m_tsi m'); [reflexivity|].
  destruct (m_cvm_results m'); [reflexivity|].
  destruct (m_cvm_list m'); [reflexivity|].
  destruct (m_identify m'); [reflexivity|].
  destruct (m_auto_tlv m') as [x|]; [now rewrite (auto_parse_same p k k' _ S)|]. destruct (m_ber_tlv m') as [x|]; [now rewrite (ber_parse_same p k k' _ S)|].
  destruct (m_ingenico_tlv m') as [x|]; [now rewrite (ingenico_parse_same p k k' _ S)|]. reflexivity.
Qed.

(** ** Order *)

Lemma permutation_filter {A} (f : A -> bool) l l' : Permutation l l' -> Permutation (filter f l) (filter f l').
Proof.
  induction 1 as [|x l l' P IH|x y l|l l1 l2 P1 IH1 P2 IH2]; cbn [filter].
  - constructor.
  - destruct (f x); [now constructor|assumption].
  - destruct (f x), (f y); try reflexivity. constructor.
  - now transitivity (filter f l1).
Qed.
Lemma said_perm l l' n vs : Permutation l l' -> said l n vs -> said l' n vs.
Proof. intros P (sp & I & S). exists sp. split; [now apply (Permutation_in _ P)|assumption]. Qed.
Lemma present_perm l l' n : Permutation l l' -> present l n -> present l' n.
Proof. intros P (vs & S). exists vs. now apply (said_perm l). Qed.
Lemma acceptable_perm l l' : Permutation l l' -> no_information l -> acceptable l -> acceptable l'.
Proof.
  intros P N A. assert (N' : no_information l') by (unfold no_information in *; rewrite Forall_forall in *; intros o I; apply N; now apply (Permutation_in _ (Permutation_sym P))).
  apply acceptable_iff. assert (K : l <> [] /\ orderly l /\ consistent l) by (now apply acceptable_iff). destruct K as (K & [O1 O2] & C1 & C2 & C3). split; [|split; [split|split; [|split]]].
  - intros ->. apply Permutation_sym, Permutation_nil in P. contradiction.
  - intros o I. apply O1. now apply (Permutation_in _ (Permutation_sym P)).
  - intros n Hn. unfold occ. rewrite <- (Permutation_length (permutation_filter (about n) _ _ P)). now apply O2.
  - intros op op' H H'. apply C1; now apply (present_perm l' l _ (Permutation_sym P)).
  - intros [H H']. apply C2. split; now apply (present_perm l' l _ (Permutation_sym P)).
  - intros n Hn H. destruct (C3 n Hn (present_perm l' l n (Permutation_sym P) H)) as (op & T & Po). exists op. split; [assumption|now apply (present_perm l)].
Qed.
Lemma masks_perm l l' : Permutation l l' -> forall cs, masks_typed l cs -> exists cs', masks_typed l' cs' /\ Permutation cs cs'.
Proof.
  induction 1 as [|o l l' P IH|o o' l|l l1 l2 P1 IH1 P2 IH2]; intros cs H.
  - inversion H; subst. exists []. split; constructor.
  - inversion H as [|sp vs l0 cs0 S M|o0 l0 cs0 S M]; subst; destruct (IH _ M) as (cs' & M' & Pc).
    + eexists. split; [now constructor; [|eassumption]|]. now apply Permutation_app_head.
    + exists cs'. split; [now apply masks_other|assumption].
  - inversion H as [|sp vs l0 cs0 S M|o0 l0 cs0 S M]; subst; inversion M as [|sp' vs' l0' cs0' S' M'|o0' l0' cs0' S' M']; subst.
    + exists (List.concat vs' ++ List.concat vs ++ cs0'). split; [now repeat constructor|]. rewrite !app_assoc. apply Permutation_app_tail, Permutation_app_comm.
    + exists (List.concat vs ++ cs0). split; [apply masks_other; [assumption|now constructor]|reflexivity].
    + exists (List.concat vs' ++ cs0'). split; [constructor; [assumption|now apply masks_other]|reflexivity].
    + exists cs. split; [now repeat apply masks_other|reflexivity].
  - destruct (IH1 cs H) as (c1 & H1 & Q1). destruct (IH2 c1 H1) as (c2 & H2 & Q2). exists c2. split; [assumption|now transitivity c1].
Qed.
Lemma describes_same l l' m m' : Permutation l l' -> describes l m -> describes l' m' -> same_request m m'.
Proof.
  intros P [D1 D2 D3 D4 D5] [E1 E2 E3 E4 E5]. assert (Q : Permutation l' l) by (now apply Permutation_sym).
  assert (SW : forall n b, switch l n b <-> switch l' n b).
  { intros n b. unfold switch. destruct b; split; intros K; try (destruct K as [K|K]; [left|right]); first [exact (said_perm l l' _ _ P K)|exact (said_perm l' l _ _ Q K)]. }
  repeat split.
  - intros op. destruct (given m op) as [s|] eqn:G.
    + symmetry. apply E1. apply (said_perm l); [assumption|]. now apply D1.
    + destruct (given m' op) as [s|] eqn:G'; [|reflexivity]. apply E1 in G'. apply (said_perm l' l _ _ Q) in G'. apply D1 in G'. congruence.
  - intros K. apply E2. apply (said_perm l); [assumption|]. now apply D2.
  - intros K. apply D2. apply (said_perm l'); [assumption|]. now apply E2.
  - intros K. apply E4, SW, D4. assumption.
  - intros K. apply D4, SW, E4. assumption.
  - intros K. apply E5, SW, D5. assumption.
  - intros K. apply D5, SW, E5. assumption.
  - destruct (typed_cases (m_masking m)) as [[a T]|N].
    + right. pose proof T as T0. apply D3 in T0. destruct T0 as [Pr M]. destruct (masks_perm l l' P a M) as (b & M' & Pb). exists a, b. split; [assumption|]. split.
      * apply E3. split; [now apply (present_perm l)|assumption].
      * intros c. split; intros I; [now apply (Permutation_in _ Pb)|now apply (Permutation_in _ (Permutation_sym Pb))].
    + left. split; [assumption|]. intros b T'. apply E3 in T'. destruct T' as [Pr M]. destruct (masks_perm l' l Q b M) as (a & M' & _). apply (N a). apply D3. split; [now apply (present_perm l')|assumption].
Qed.

(** ** Settings *)

Lemma decided_ext ls ls' : Forall2 (fun (a b : layer) => forall k v, a k v <-> b k v) ls ls' -> forall k v, decided ls k v -> decided ls' k v.
Proof.
  intros F k v D. revert ls' F. induction D as [l ls k v H|l ls k v S D IH]; intros ls' F; inversion F as [|x y t t' E F']; subst.
  - apply decided_here. now apply E.
  - apply decided_later; [|now apply IH]. intros w K. apply E in K. now apply S in K.
Qed.
Lemma in_force_ext ls ls' tty st : Forall2 (fun (a b : layer) => forall k v, a k v <-> b k v) ls ls' -> in_force ls tty st -> in_force ls' tty st.
Proof.
  intros F (v1 & v2 & v3 & c & D1 & C & S & D2 & M & D3 & B). exists v1, v2, v3, c.
  repeat split; try assumption; now apply (decided_ext ls ls' F).
Qed.
Lemma colour_lit_same c n c' n' : In (c, n) colour_names -> In (c', n') colour_names -> same_letters (lit n) (lit n') -> n = n'.
Proof.
  intros I I' S. assert (K : colour_choice_try_from (lit n) = Ok c') by (apply colour_try_iff; eauto).
  cbn in I, I'. repeat (destruct I as [I|I]; [injection I as <- <-|]); try destruct I; repeat (destruct I' as [I'|I']; [injection I' as <- <-|]); try destruct I'; first [reflexivity|vm_compute in K; discriminate K].
Qed.
Lemma same_letters_refl s : same_letters s s.
Proof. induction s; constructor; [left; reflexivity|assumption]. Qed.
Lemma requests_asks l m : acceptable l -> describes l m -> forall k v, requests l k v <-> asks m k v.
Proof.
  intros A D k v. assert (CN : forall s, said l OptColour [s] -> exists c n, In (c, n) colour_names /\ s = lit n).
  { intros s (sp & I & S). destruct (acc_known l A _ I) as (n & S' & T). cbn [fst snd] in S', T. rewrite (spells_one n OptColour sp S' S) in T. destruct T as (v' & c & x & E & J & ->). injection E as ->. eauto. }
  split.
  - intros [c n I S|cs P M|b S|b S].
    + apply (asks_colour m (lit n) c n); [now apply (des_colour l m D)|assumption|apply same_letters_refl].
    + constructor. now apply (des_masking l m D).
    + apply asks_sort; [|now apply (des_sort l m D)]. intros b' T. apply (des_no_sort l m D) in T. apply (acc_sort l A).
      split; unfold switch in *; [destruct b; [destruct S as [S|S]|]|destruct b'; [destruct T as [T|T]|]]; eexists; eassumption.
    + apply asks_no_sort. now apply (des_no_sort l m D).
  - intros [s c n T I L|cs T|b N T|b T].
    + apply (des_colour l m D) in T. destruct (CN s T) as (c' & n' & I' & ->). rewrite (colour_lit_same c' n' c n I' I L) in *. now apply (requests_colour l c n).
    + apply (des_masking l m D) in T. now constructor.
    + apply requests_sort. now apply (des_sort l m D).
    + apply requests_no_sort. now apply (des_no_sort l m D).
Qed.
Lemma colour_described l m : acceptable l -> describes l m -> colour_typed_ok m.
Proof.
  intros A D s T. apply (des_colour l m D) in T. destruct T as (sp & I & S). destruct (acc_known l A _ I) as (n & S' & T). cbn [fst snd] in S', T. rewrite (spells_one n OptColour sp S' S) in T.
  destruct T as (v' & c & x & E & J & ->). injection E as ->. exists c, x. split; [assumption|apply same_letters_refl].
Qed.
Lemma described_only l m op s : acceptable l -> describes l m -> said l (OptOperation op) [s] -> only m op s.
Proof.
  intros A D S. split; [now apply (des_operations l m D)|]. intros o N. destruct (given m o) as [s'|] eqn:G; [|reflexivity]. exfalso. apply N.
  apply (des_operations l m D) in G. apply (acc_one_operation l A); eexists; eassumption.
Qed.
