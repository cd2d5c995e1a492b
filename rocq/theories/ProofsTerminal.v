(** Proofs about the terminal, and about what a build with overflow checks has printed when
    it stops. *)

From Coq Require Import ZArith NArith List String Ascii Bool Lia ZifyN ZifyBool ZifyNat Permutation.
From Verif Require Import Base ModelUtil ModelEnums ModelBitflag ModelSchemas ModelTags ModelTlv ModelValues ModelProcess ModelDisplay
  SpecUtil SpecCodes SpecValues SpecTlv SpecIngenico SpecTags SpecProcess SpecDisplay
  ProofsUtil PropertiesUtil ProofsDisplay ProofsScreens ProofsLayout PropertiesDisplay
  ModelMain SpecMain ProofsMain PropertiesMain ModelTerminal SpecTerminal.
Import ListNotations.
Local Open Scope N_scope.

(** ** A terminal reading what termcolor writes *)

Lemma receives_app t a b : receives t (a ++ b) = receives (receives t a) b.
Proof. unfold receives. apply fold_left_app. Qed.

Lemma receives_char l cells c : is_scalar c -> c <> 27 ->
  receives (mkTerm Ground l cells) (utf8_char c) = mkTerm Ground l (cells ++ [(l, c)]).
Proof.
  intros S E. unfold is_scalar in S.
  pose proof (N.div_mod c 64 ltac:(lia)) as D1. pose proof (N.mod_lt c 64 ltac:(lia)) as M1.
  pose proof (N.div_mod (c / 64) 64 ltac:(lia)) as D2. pose proof (N.mod_lt (c / 64) 64 ltac:(lia)) as M2.
  pose proof (N.div_mod (c / 4096) 64 ltac:(lia)) as D3. pose proof (N.mod_lt (c / 4096) 64 ltac:(lia)) as M3.
  assert (Q1 : c / 64 / 64 = c / 4096) by (rewrite N.div_div by lia; reflexivity).
  assert (Q2 : c / 4096 / 64 = c / 262144) by (rewrite N.div_div by lia; reflexivity).
  rewrite Q1 in D2. rewrite Q2 in D3. unfold utf8_char.
  set (m1 := c mod 64) in *. set (m2 := (c / 64) mod 64) in *. set (m3 := (c / 4096) mod 64) in *.
  set (d1 := c / 64) in *. set (d2 := c / 4096) in *. set (d3 := c / 262144) in *. clearbody m1 m2 m3 d1 d2 d3. clear Q1 Q2.
  destruct (c <? 0x80) eqn:C1.
  { unfold receives; cbn [fold_left]. unfold receive; cbn [t_phase t_look t_cells]. replace (c =? 27) with false by lia. replace (c <? 128) with true by lia. reflexivity. }
  assert (Cont : forall k x m, m < 64 -> receive (mkTerm (Partial k x) l cells) (0x80 + m)
      = if k =? 1 then mkTerm Ground l (cells ++ [(l, x * 64 + m)]) else mkTerm (Partial (k - 1) (x * 64 + m)) l cells).
  { intros k x m Hm. unfold receive; cbn [t_phase]. replace ((128 <=? 0x80 + m) && (0x80 + m <? 192)) with true by lia.
    unfold put, go; cbn [t_look t_cells]. replace (0x80 + m - 128) with m by lia. reflexivity. }
  destruct (c <? 0x800) eqn:C2.
  { unfold receives; cbn [fold_left].
    assert (H : receive (mkTerm Ground l cells) (0xC0 + d1) = mkTerm (Partial 1 d1) l cells).
    { unfold receive; cbn [t_phase]. replace (0xC0 + d1 =? 27) with false by lia. replace (0xC0 + d1 <? 128) with false by lia.
      replace ((192 <=? 0xC0 + d1) && (0xC0 + d1 <? 224)) with true by lia. unfold go; cbn [t_look t_cells]. do 2 f_equal. lia. }
    rewrite H, Cont by assumption. cbn [N.eqb Pos.eqb]. do 4 f_equal. lia. }
  destruct (c <? 0x10000) eqn:C3.
  { unfold receives; cbn [fold_left].
    assert (H : receive (mkTerm Ground l cells) (0xE0 + d2) = mkTerm (Partial 2 d2) l cells).
    { unfold receive; cbn [t_phase]. replace (0xE0 + d2 =? 27) with false by lia. replace (0xE0 + d2 <? 128) with false by lia.
      replace ((192 <=? 0xE0 + d2) && (0xE0 + d2 <? 224)) with false by lia.
      replace ((224 <=? 0xE0 + d2) && (0xE0 + d2 <? 240)) with true by lia. unfold go; cbn [t_look t_cells]. do 2 f_equal. lia. }
    rewrite H, Cont by assumption. change (2 =? 1) with false. change (2 - 1) with 1. cbn iota. rewrite Cont by assumption. change (1 =? 1) with true. cbn iota. do 4 f_equal. clear - D1 D2 D3. lia. }
  { unfold receives; cbn [fold_left].
    assert (H : receive (mkTerm Ground l cells) (0xF0 + d3) = mkTerm (Partial 3 d3) l cells).
    { unfold receive; cbn [t_phase]. replace (0xF0 + d3 =? 27) with false by lia. replace (0xF0 + d3 <? 128) with false by lia.
      replace ((192 <=? 0xF0 + d3) && (0xF0 + d3 <? 224)) with false by lia.
      replace ((224 <=? 0xF0 + d3) && (0xF0 + d3 <? 240)) with false by lia.
      replace ((240 <=? 0xF0 + d3) && (0xF0 + d3 <? 248)) with true by lia. unfold go; cbn [t_look t_cells]. do 2 f_equal. lia. }
    rewrite H, Cont by assumption. change (3 =? 1) with false. change (3 - 1) with 2. cbn iota. rewrite Cont by assumption. change (2 =? 1) with false. change (2 - 1) with 1. cbn iota.
    rewrite Cont by assumption. change (1 =? 1) with true. cbn iota. do 4 f_equal. lia. }
Qed.

Lemma receives_text s : forall l cells, Forall (fun c => is_scalar c /\ c <> 27) s ->
  receives (mkTerm Ground l cells) (utf8 s) = mkTerm Ground l (cells ++ map (pair l) s).
Proof.
  induction s as [|c s IH]; intros l cells F; [cbn; now rewrite app_nil_r|]. inversion F as [|? ? [Sc Ne] F']; subst.
  unfold utf8 in *. cbn [flat_map map]. rewrite receives_app, receives_char by assumption. rewrite IH by assumption. now rewrite <- app_assoc.
Qed.

Lemma receives_reset l cells : receives (mkTerm Ground l cells) write_reset = mkTerm Ground plain_look cells.
Proof. reflexivity. Qed.
Lemma receives_spec l cells c : receives (mkTerm Ground l cells) (write_spec c) = mkTerm Ground (look_of (Some c)) cells.
Proof. destruct c as [[|] [[| |]|]]; reflexivity. Qed.

(* The texts of the events. *)
Definition texts_ok (P : N -> Prop) (l : list event) : Prop := Forall (fun e => match e with Txt s => Forall P s | _ => True end) l.

Lemma receives_events l : forall st cells, texts_ok (fun c => is_scalar c /\ c <> 27) l ->
  receives (mkTerm Ground (look_of st) cells) (write_events true l)
  = mkTerm Ground (look_of (style_after st l)) (cells ++ dressed (screen st l)).
Proof.
  induction l as [|[s|c|] l IH]; intros st cells F; (inversion F as [|? ? F1 F2]; subst); unfold write_events in *; cbn [flat_map write_event screen style_after].
  - cbn. now rewrite app_nil_r.
  - rewrite receives_app, receives_text by assumption. rewrite IH by assumption. f_equal. unfold dressed, ink. rewrite map_app, map_map. cbn [fst snd]. now rewrite app_assoc.
  - rewrite receives_app, receives_spec. now apply IH.
  - rewrite receives_app, receives_reset. change plain_look with (look_of None). now apply IH.
Qed.
Lemma receives_plain l : forall cells, texts_ok (fun c => is_scalar c /\ c <> 27) l ->
  forall st, receives (mkTerm Ground plain_look cells) (write_events false l) = mkTerm Ground plain_look (cells ++ undressed (screen st l)).
Proof.
  induction l as [|[s|c|] l IH]; intros cells F st; (inversion F as [|? ? F1 F2]; subst); unfold write_events in *; cbn [flat_map write_event screen app].
  - cbn. now rewrite app_nil_r.
  - rewrite receives_app, receives_text by assumption. rewrite (IH _ F2 st). f_equal. unfold undressed, ink. rewrite map_app, map_map. cbn [fst snd]. now rewrite app_assoc.
  - now apply IH.
  - now apply IH.
Qed.
Lemma write_plain l : forall st, write_events false l = utf8 (map snd (screen st l)).
Proof.
  unfold write_events. induction l as [|[s|c|] l IH]; intros st; cbn [flat_map write_event screen app]; [reflexivity| |apply IH|apply IH].
  rewrite map_app. unfold utf8 at 2. rewrite flat_map_app. rewrite (IH st). f_equal. unfold ink. rewrite map_map. cbn [snd]. now rewrite map_id.
Qed.
Lemma screen_texts P l : forall st, texts_ok P l <-> Forall P (map snd (screen st l)).
Proof.
  unfold texts_ok. induction l as [|[s|c|] l IH]; intros st; cbn [screen map]; [split; constructor| | |].
  - rewrite map_app, Forall_app. unfold ink. rewrite map_map. cbn [snd]. rewrite map_id. rewrite <- IH. split.
    + intros H. inversion H; subst. split; assumption.
    + intros [H1 H2]. constructor; assumption.
  - rewrite <- IH. split; [intros H; now inversion H|intros H; constructor; trivial].
  - rewrite <- IH. split; [intros H; now inversion H|intros H; constructor; trivial].
Qed.

(** ** The same build without overflow checks *)

Definition unchecked (p : platform) : platform := {| usize_bits := usize_bits p; overflow_checks := false |}.

(* [d] prints a first part of what [d'] prints, and all of it unless it panics. *)
Definition below (d d' : disp) : Prop := (exists rest, evs d' = evs d ++ rest) /\ (dead d = false -> d = d').
Definition rbelow {A : Type} (r r' : res A) : Prop := forall a, r = Ok a -> r' = Ok a.

Lemma below_refl d : below d d.
Proof. split; [exists []; now rewrite app_nil_r|reflexivity]. Qed.
Lemma below_then a a' b b' : below a a' -> below b b' -> below (a >>> b) (a' >>> b').
Proof.
  intros [[ra Pa] Ea] [[rb Pb] Eb]. destruct (dead a) eqn:D.
  - split.
    + unfold dthen. rewrite D. destruct (dead a'); [exists ra; assumption|]. cbn [evs]. exists (ra ++ evs b'). rewrite Pa. now rewrite app_assoc.
    + unfold dthen. rewrite D. intros X. congruence.
  - specialize (Ea eq_refl). subst a'. unfold dthen. rewrite D. split.
    + cbn [evs]. exists rb. rewrite Pb. now rewrite app_assoc.
    + cbn [dead]. intros X. now rewrite (Eb X).
Qed.
Lemma below_let {A} (r r' : res A) k k' : rbelow r r' -> (forall a, below (k a) (k' a)) -> below (dlet r k) (dlet r' k').
Proof.
  intros R K. destruct r as [a|e| |]; [rewrite (R a eq_refl); apply K| | |]; (split; [eexists; reflexivity|discriminate]).
Qed.
Lemma below_for {A} (l : list A) f f' : (forall x, below (f x) (f' x)) -> below (dfor l f) (dfor l f').
Proof. intros H. induction l as [|x l IH]; [apply below_refl|]. cbn [dfor]. now apply below_then. Qed.
Lemma rbelow_bind {A B} (r r' : res A) (k k' : A -> res B) : rbelow r r' -> (forall a, rbelow (k a) (k' a)) -> rbelow (bind r k) (bind r' k').
Proof. intros R K b. destruct r as [a|e| |]; cbn [bind]; try discriminate. rewrite (R a eq_refl). apply K. Qed.
Lemma rbelow_refl {A} (r : res A) : rbelow r r.
Proof. intros a H. exact H. Qed.
Lemma checked_below p n v : rbelow (checked p n v) (checked (unchecked p) n v).
Proof. intros a. unfold checked. destruct (v <? n); [trivial|]. destruct (overflow_checks p); [discriminate|trivial]. Qed.
Lemma u8_add_below p a b : rbelow (u8_add p a b) (u8_add (unchecked p) a b).
Proof. apply checked_below. Qed.
Lemma u8_sub_below p a b : rbelow (u8_sub p a b) (u8_sub (unchecked p) a b).
Proof. intros x. unfold u8_sub. destruct (b <=? a); [trivial|]. destruct (overflow_checks p); [discriminate|trivial]. Qed.
Lemma shl1_below p a : rbelow (shl1_u64 p a) (shl1_u64 (unchecked p) a).
Proof. intros x. unfold shl1_u64. destruct (a <? 64); [trivial|]. destruct (overflow_checks p); [discriminate|trivial]. Qed.
Lemma arm_bits_below p l : forall acc, rbelow (arm_bits p l acc) (arm_bits (unchecked p) l acc).
Proof. induction l as [|r l IH]; intros acc; cbn [arm_bits]; [apply rbelow_refl|]. apply rbelow_bind; [apply shl1_below|intros a; apply IH]. Qed.
Lemma shift_ranges_below p l : rbelow (shift_ranges p l) (shift_ranges (unchecked p) l).
Proof.
  induction l as [|r l IH]; cbn [shift_ranges]; [apply rbelow_refl|]. apply rbelow_bind; [apply u8_add_below|intros a].
  apply rbelow_bind; [exact IH|intros b; apply rbelow_refl].
Qed.

Ltac below_step :=
  lazymatch goal with
  | |- below ?d ?d => apply below_refl
  | |- below (dthen _ _) (dthen _ _) => apply below_then
  | |- below (dlet _ _) (dlet _ _) => apply below_let; [|intros ?]
  | |- below (dfor _ _) (dfor _ _) => apply below_for; intros ?
  | |- below (if ?b then _ else _) _ => destruct b
  | |- rbelow (u8_add _ _ _) _ => apply u8_add_below
  | |- rbelow (u8_sub _ _ _) _ => apply u8_sub_below
  | |- rbelow (checked _ _ _) _ => apply checked_below
  | |- rbelow (shl1_u64 _ _) _ => apply shl1_below
  | |- rbelow (arm_bits _ _ _) _ => apply arm_bits_below
  end.
Lemma header_arms_below p n l : forall c, below (header_arms p n l c) (header_arms (unchecked p) n l c).
Proof. induction l as [|r l IH]; intros c; cbn [header_arms]; repeat below_step; apply IH. Qed.
Lemma display_bits_below p n repr ranges i show : below (display_bits p n repr ranges i show) (display_bits (unchecked p) n repr ranges i show).
Proof. unfold display_bits, explanation_line. repeat below_step; apply header_arms_below. Qed.
Lemma display_cv_rules_below p i l : forall n, below (display_cv_rules p i n l) (display_cv_rules (unchecked p) i n l).
Proof.
  induction l as [|r l IH]; intros n; cbn [display_cv_rules]; [apply below_refl|]. apply below_then; [|apply IH]. unfold display_cv_rule_entry. repeat below_step.
Qed.
Lemma display_value_below p v i show : below (display_value p v i show) (display_value (unchecked p) v i show).
Proof.
  destruct v; cbn [display_value]; try apply below_refl; try apply display_bits_below.
  - unfold display_cvm_results. apply below_let; [|intros a; apply display_bits_below]. unfold cvm_results_ranges.
    apply rbelow_bind; [apply shift_ranges_below|intros a; apply rbelow_refl].
  - unfold display_cvm_list. repeat below_step. apply display_cv_rules_below.
  - unfold display_iad. repeat below_step; apply display_bits_below.
  - unfold display_iac_default. repeat below_step; apply display_bits_below.
  - unfold display_iac_denial. repeat below_step; apply display_bits_below.
  - unfold display_iac_online. repeat below_step; apply display_bits_below.
Qed.
Lemma display_raw_below p t i : below (display_raw_tag p t i) (display_raw_tag (unchecked p) t i).
Proof. unfold display_raw_tag. destruct (rt_data t) as [[|b d]|]; repeat below_step. Qed.
Lemma display_ptag_below p t i show : below (display_ptag p t i show) (display_ptag (unchecked p) t i show).
Proof. destruct t; cbn [display_ptag]; repeat below_step; try apply display_raw_below; apply display_value_below. Qed.
Lemma display_nodes_below f f' l : Forall (fun n => below (f n) (f' n)) l -> forall b, below (display_nodes f b l) (display_nodes f' b l).
Proof.
  induction l as [|n l IH]; intros F b; [apply below_refl|]. inversion F; subst. cbn [display_nodes]. apply below_then; [apply below_refl|]. apply below_then; [assumption|].
  now apply IH.
Qed.
Lemma display_pnode_below p show n : forall i, below (display_pnode p show n i) (display_pnode (unchecked p) show n i).
Proof.
  induction n as [t c IH] using pnode_tree_ind. intros i. cbn [display_pnode]. apply below_then; [apply display_ptag_below|].
  destruct c as [|x c]; [apply below_refl|]. apply below_then; [apply below_refl|]. apply below_let; [apply u8_add_below|intros j].
  apply display_nodes_below. eapply Forall_impl; [|exact IH]. intros m H. apply H.
Qed.
Lemma display_block_below p l i show : below (display_block p l i show) (display_block (unchecked p) l i show).
Proof. apply display_nodes_below. apply Forall_forall. intros n _. apply display_pnode_below. Qed.
