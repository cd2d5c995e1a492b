(** C131: output with colours that is cut behind a line. *)

From Coq Require Import ZArith NArith Ascii String List Bool Lia ZifyN ZifyBool ZifyNat Permutation Sorting.
From Verif Require Import Base ModelUtil ModelEnums ModelBitflag ModelSchemas ModelTags ModelTlv ModelValues ModelProcess ModelDisplay
  SpecUtil SpecCodes SpecValues SpecTlv SpecIngenico SpecTags SpecProcess SpecDisplay
  ProofsUtil ProofsGrammar ProofsBer ProofsIngenico ProofsValues PropertiesValues
  PropertiesBer PropertiesIngenico ProofsProcess PropertiesProcess ProofsDisplay ProofsDiagram ProofsScreens ProofsLayout PropertiesDisplay
  SpecPictures ProofsPictures ModelMain SpecMain ProofsMain PropertiesMain ModelCli SpecCli ProofsCli PropertiesCli PropertiesPictures
  SpecReading PropertiesReading ModelTerminal SpecTerminal ProofsTerminal PropertiesTerminal SpecScope PropertiesScope PropertiesRuns SpecStrip PropertiesStrip.
Import ListNotations.
Local Open Scope N_scope.


(** ** Where a line end stands *)

Lemma text_cut s : forall x y, utf8 s = x ++ 10 :: y -> exists s1 s2, s = s1 ++ 10 :: s2 /\ x = utf8 s1 /\ y = utf8 s2.
Proof.
  induction s as [|c s IH]; intros x y E; [destruct x; discriminate E|]. unfold utf8 in E. cbn [flat_map] in E. fold (utf8 s) in E.
  destruct (N.lt_ge_cases c 128) as [L|L].
  - rewrite (utf8_char_ascii c L) in E. destruct x as [|b x]; cbn [app] in E; injection E as E1 E2.
    + subst c y. exists [], s. auto.
    + subst b. destruct (IH x y E2) as (s1 & s2 & -> & -> & ->). exists (c :: s1), s2. split; [reflexivity|]. split; [|reflexivity]. unfold utf8. cbn [flat_map]. now rewrite (utf8_char_ascii c L).
  - pose proof (utf8_char_high c L) as H. remember (utf8_char c) as w eqn:W. assert (X : exists x', x = w ++ x' /\ utf8 s = x' ++ 10 :: y).
    { clear W. revert x E. induction w as [|b w IHw]; intros x E; [exists x; auto|]. inversion H; subst. destruct x as [|b' x]; cbn [app] in E; injection E as E1 E2; [lia|]. subst b'. destruct (IHw H3 x E2) as (x' & -> & E'). exists x'. auto. }
    destruct X as (x' & -> & E'). destruct (IH x' y E') as (s1 & s2 & -> & -> & ->). exists (c :: s1), s2. split; [reflexivity|]. split; [|reflexivity]. unfold utf8. cbn [flat_map]. now rewrite <- W.
Qed.
Lemma cut_app (w l x y : list N) : w ++ l = x ++ 10 :: y -> (exists y', w = x ++ 10 :: y' /\ y = y' ++ l) \/ (exists x', x = w ++ x' /\ l = x' ++ 10 :: y).
Proof.
  revert x. induction w as [|b w IH]; intros x E; [right; exists x; auto|]. destruct x as [|b' x]; cbn [app] in E; injection E as E1 E2.
  - subst b y. left. exists w. auto.
  - subst b'. destruct (IH x E2) as [(y' & -> & ->)|(x' & -> & ->)]; [left; exists y'; auto|right; exists x'; auto].
Qed.
Lemma events_cut l : forall x y, write_events true l = x ++ 10 :: y -> exists l1 s1 s2 l2, l = l1 ++ Txt (s1 ++ 10 :: s2) :: l2 /\ x = write_events true l1 ++ utf8 s1.
Proof.
  unfold write_events. induction l as [|e l IH]; intros x y E; [destruct x; discriminate E|]. cbn [flat_map] in E. apply cut_app in E. destruct E as [(y' & E & _)|(x' & -> & E)].
  - destruct e as [s|c|]; cbn [write_event] in E.
    + destruct (text_cut s x y' E) as (s1 & s2 & -> & -> & _). exists [], s1, s2, l. auto.
    + exfalso. assert (I : In 10 (write_spec c)) by (rewrite E; apply in_app_iff; right; now left). destruct c as [[|] [[| |]|]]; cbn in I; lia.
    + exfalso. assert (I : In 10 write_reset) by (rewrite E; apply in_app_iff; right; now left). cbn in I. lia.
  - destruct (IH x' y E) as (l1 & s1 & s2 & l2 & -> & ->). exists (e :: l1), s1, s2, l2. split; [reflexivity|]. cbn [flat_map]. now rewrite app_assoc.
Qed.
(* The line ends of rendered lines are those of the lines. *)
Lemma render_cut lo hi ls : Forall (line_between lo hi) ls -> forall u c v, render ls = u ++ (c, 10) :: v -> exists before l after, ls = before ++ l :: after /\ u ++ [(c, 10)] = render (before ++ [l]) /\ c = l_end l.
Proof.
  intros F. induction F as [|l ls L F IH]; intros u c v E; [destruct u; discriminate E|]. unfold render in E. cbn [flat_map] in E. fold (render ls) in E. unfold render_line in E. rewrite !app_assoc in E.
  set (w := ink None (repeat 9 (N.to_nat (l_tabs l mod 256))) ++ flat_map (fun sp => ink (fst sp) (snd sp)) (l_spans l)) in E.
  assert (W : forall a, In a w -> snd a <> 10).
  { assert (V : Forall (fun sp => visible (snd sp)) (l_spans l)) by (destruct L as [->|(_ & _ & V)]; [constructor|exact V]). intros a I. unfold w in I. apply in_app_iff in I. destruct I as [I|I].
    - unfold ink in I. apply in_map_iff in I. destruct I as (b & <- & I). apply repeat_spec in I. subst b. discriminate.
    - apply in_flat_map in I. destruct I as (sp & Is & I). unfold ink in I. apply in_map_iff in I. destruct I as (b & <- & I). rewrite Forall_forall in V. specialize (V sp Is). unfold visible in V. rewrite Forall_forall in V. specialize (V b I). cbn [snd]. lia. }
  assert (R : render_line l = w ++ [(l_end l, 10)]) by (unfold render_line, w; now rewrite app_assoc). clearbody w. rewrite <- app_assoc in E. cbn [app] in E.
  assert (X : (u = w /\ c = l_end l) \/ exists u', u = w ++ (l_end l, 10) :: u' /\ render ls = u' ++ (c, 10) :: v).
  { clear R IH. revert u E. induction w as [|a w IHw]; intros u E.
    - destruct u as [|b u]; cbn [app] in E; injection E as E1 E2; [left; auto|]. right. exists u. subst b. auto.
    - destruct u as [|b u]; cbn [app] in E; injection E as E1 E2; [exfalso; apply (W a (or_introl eq_refl)); now subst a|]. subst b. destruct (IHw (fun z I => W z (or_intror I)) u E2) as [(-> & ->)|(u' & -> & E')]; [left; auto|right; exists u'; auto]. }
  destruct X as [(-> & ->)|(u' & -> & E')].
  - exists [], l, ls. split; [reflexivity|]. split; [|reflexivity]. unfold render. cbn [app flat_map]. now rewrite R, app_nil_r.
  - destruct (IH u' c v E') as (before & l' & after & -> & Eb & C). exists (l :: before), l', after. split; [reflexivity|]. split; [|exact C]. unfold render. cbn [app flat_map]. fold (render (before ++ [l'])). rewrite <- Eb, R, <- !app_assoc. reflexivity.
Qed.
(* Cut behind a line, output with colours shows the lines up to there, and the terminal is left in the style in which this line ends. *)
Theorem C131_head : forall p e m st op s ls v x y, shows p e m st op s ls -> should_attempt_color v (set_colour st) = true -> stdout_bytes v st (run_main p e m) = x ++ 10 :: y ->
  exists before l after, ls = before ++ l :: after /\ receives fresh (x ++ [10]) = mkTerm Ground (look_of (l_end l)) (dressed (render (before ++ [l]))).
Proof.
  intros p e m st op s ls v x y (L & C & T & H & F) W E. destruct (sheet_sendable p e m st op s ls L C T H F) as [(_ & _ & _ & S & _) X]. unfold stdout_bytes in E. rewrite W in E.
  destruct (events_cut _ x y E) as (l1 & s1 & s2 & l2 & El & ->). rewrite El in S, X. assert (B := proj2 (C73_sheet p _ _ op s ls (deepest ls) T) (conj H eq_refl)). pose proof (breakdown_between p _ _ op s ls _ T B) as Bt.
  set (z := l1 ++ [Txt (s1 ++ [10])]).
  assert (Z : texts_ok (fun c => is_scalar c /\ c <> 27) z).
  { unfold texts_ok in *. apply Forall_app in X. destruct X as [X1 X2]. inversion X2 as [|? ? X3 _]; subst. apply Forall_app in X3. destruct X3 as [X3 X4]. inversion X4; subst. apply Forall_app. split; [exact X1|]. constructor; [|constructor]. apply Forall_app. split; [exact X3|]. constructor; [assumption|constructor]. }
  assert (Wz : (write_events true l1 ++ utf8 s1) ++ [10] = write_events true z).
  { unfold z, write_events. rewrite flat_map_app. cbn [flat_map write_event]. unfold utf8. rewrite flat_map_app, app_nil_r, <- app_assoc. reflexivity. }
  rewrite Wz. unfold fresh. change plain_look with (look_of None). rewrite (receives_events z None [] Z). cbn [app].
  assert (A : style_after None z = style_after None l1) by (unfold z; rewrite style_after_app; reflexivity).
  assert (Sz : screen None z = (screen None l1 ++ ink (style_after None l1) s1) ++ [(style_after None l1, 10)]).
  { unfold z. rewrite screen_app. cbn [screen]. unfold ink. rewrite map_app, app_nil_r, <- app_assoc. reflexivity. }
  assert (Sf : render ls = (screen None l1 ++ ink (style_after None l1) s1) ++ (style_after None l1, 10) :: ink (style_after None l1) s2 ++ screen (style_after None l1) l2).
  { rewrite <- S, screen_app. cbn [screen style_after]. unfold ink. rewrite map_app, <- !app_assoc. cbn [map app]. reflexivity. }
  destruct (render_cut 0 _ ls Bt _ _ _ Sf) as (before & l & after & El' & Eb & Ec). exists before, l, after. split; [exact El'|]. now rewrite A, Sz, Eb, Ec.
Qed.
(* The first line of a run with colours ends plain, the second in the style of a heading. *)
Example C131_head_example : exists ls x y, shows p64r plain_env (with_ber (lit "8A023030")) (mkSettings TAuto [42] true) OpBer (lit "8A023030") ls
  /\ stdout_bytes (mkVars (Some (lit "xterm")) false) (mkSettings TAuto [42] true) (run_main p64r plain_env (with_ber (lit "8A023030"))) = x ++ 10 :: y /\ x <> [] /\ y <> [].
Proof.
  destruct (shown_ber (lit "8A023030")) as (ls & W); [split; vm_compute; reflexivity|vm_compute; reflexivity|]. exists ls.
  set (o := stdout_bytes _ _ _). exists (nth 0 (byte_lines o) []), (skipn (List.length (nth 0 (byte_lines o) []) + 1) o). split; [exact W|]. split; [vm_compute; reflexivity|]. split; vm_compute; discriminate.
Qed.
