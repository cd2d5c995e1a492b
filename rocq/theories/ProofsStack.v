(** Lemmas about runs on a limited stack. *)

From Coq Require Import ZArith NArith List String Ascii Bool Lia ZifyN ZifyBool ZifyNat.
From Verif Require Import Base ModelUtil ModelEnums ModelTlv ModelValues ModelProcess ModelDisplay ModelMain ModelCost ModelStack ProofsProcess SpecUtil SpecTlv SpecIngenico SpecMain SpecStack
  ProofsUtil ProofsGrammar ProofsBer ProofsIngenico PropertiesBer SpecCost ProofsCost.
Import ListNotations.
Local Open Scope N_scope.

(** ** How many calls reading needs *)

Lemma nest_cases masks k bytes : nest masks (S k) bytes <->
  exists t v rest, next bytes = Ok (t, v, rest) /\ ((type_of (first_byte t) = Constructed /\ ~ masked masks v /\ nest masks k v) \/ nest masks (S k) rest).
Proof.
  split.
  - intros H. inversion H as [|? ? t v rest O C M N|? ? t v rest O N]; subst; exists t, v, rest; (split; [now apply next_iff|]); [left|right]; auto.
  - intros (t & v & rest & E & [(C & M & H)|H]); apply next_iff in E; [eapply nest_inside; eassumption|eapply nest_after; eassumption].
Qed.
Lemma ber_run_depth p masks : forall fuel pre suf nodes, (List.length suf < fuel)%nat -> bytes_ok suf -> roomy p (len (pre ++ suf)) ->
  forall k, N.of_nat k < snd (snd (ber_run fuel p masks (pre ++ suf) (len pre) nodes)) <-> nest masks k suf.
Proof.
  induction fuel as [|f IH]; intros pre suf nodes Hf Hb Hr k; [lia|].
  assert (One : 1 <= snd (snd (ber_run (S f) p masks (pre ++ suf) (len pre) nodes))) by (now apply (ber_run_lower p masks (S f) pre suf nodes)).
  destruct k as [|k]; [split; [intros _; constructor|lia]|]. rewrite nest_cases. clear One.
  destruct suf as [|b suf].
  { cbn [ber_run]. rewrite app_nil_r, N.ltb_irrefl. cbn [fst snd]. split; [lia|]. intros (t & v & rest & E & _). discriminate E. }
  assert (Fin : fst (ber_run (S f) p masks (pre ++ b :: suf) (len pre) nodes) <> Panic /\ fst (ber_run (S f) p masks (pre ++ b :: suf) (len pre) nodes) <> NoFuel).
  { rewrite ber_run_fst, ber_loop_bp by assumption. destruct (bp_fuel masks (S f) (b :: suf) Hb Hf) as [St _]. destruct (bp (S f) masks (b :: suf)); cbn in *; split; congruence || contradiction. }
  revert Fin. cbn [ber_run]. rewrite (proj2 (N.ltb_lt _ _)) by (rewrite len_app, len_cons; lia). rewrite ber_head_spec by (try assumption; discriminate). intros Fin.
  destruct (next (b :: suf)) as [[[t v] rest]| | |] eqn:En; [|cbn [snd fst] in *; (split; [lia|intros (t & v & rest & E & _); discriminate E])..].
  destruct (next_app _ _ _ _ Hb En) as (l & E & Ht & Hl).
  assert (L : len (b :: suf) = len t + len l + len v + len rest) by (rewrite E, !len_app; lia).
  assert (Ht1 : 1 <= len t) by (destruct t; [congruence|rewrite len_cons; lia]). assert (Hl1 : 1 <= len l) by (destruct l; [congruence|rewrite len_cons; lia]).
  assert (Bb : bytes_ok v /\ bytes_ok rest). { rewrite E in Hb. apply bytes_ok_app in Hb. destruct Hb as [_ Hb]. apply bytes_ok_app in Hb. destruct Hb as [_ Hb]. now apply bytes_ok_app in Hb. }
  destruct Bb as [Bv Br]. cbn [fst snd] in *.
  assert (C : forall j, N.of_nat j < snd (snd (ber_run f p masks v 0 [])) <-> nest masks j v).
  { intros j. apply (IH [] v []); [unfold len in *; lia|assumption|]. apply (roomy_le _ _ _ Hr). cbn [app]. rewrite (len_app pre), L. lia. }
  match type of Fin with context[match ?r with Ok _ => _ | Err _ => _ | Panic => _ | NoFuel => _ end] => destruct r as [n| | |] eqn:N1 end.
  2:{ exfalso. unfold get_child_block in N1. revert N1. destruct (type_of (first_byte t)), (from_u8_check_for_masked v masks) as [x|]; cbn [bind];
        unfold slice_incl, slice; try (destruct (fst (ber_run f p masks x 0 [])) as [?|?| |]; cbn [bind]); try discriminate;
        match goal with |- context[if ?c then _ else _] => destruct c end; cbn [bind]; discriminate. }
  2-3: exfalso; cbn [fst] in Fin; now destruct Fin.
  assert (R : N.of_nat (S k) < snd (snd (ber_run f p masks (pre ++ b :: suf) (len pre + (len (b :: suf) - len rest)) (nodes ++ [n]))) <-> nest masks (S k) rest).
  { replace (len pre + (len (b :: suf) - len rest)) with (len (pre ++ t ++ l ++ v)) by (rewrite !len_app; lia).
    replace (pre ++ b :: suf) with ((pre ++ t ++ l ++ v) ++ rest) in * by (rewrite E, <- !app_assoc; reflexivity). apply IH; [unfold len in *; lia|assumption|assumption]. }
  set (r := ber_run f p masks (pre ++ b :: suf) _ _) in *. clearbody r. unfold nested. cbn [fst snd].
  set (child := match type_of (first_byte t), from_u8_check_for_masked v masks with Constructed, Normal _ => _ | _, _ => _ end).
  assert (Cc : N.of_nat (S k) < 1 + snd child <-> type_of (first_byte t) = Constructed /\ ~ masked masks v /\ nest masks k v).
  { unfold child, from_u8_check_for_masked. destruct (is_masked_u8 v masks) eqn:Mv.
    - apply is_masked_u8_spec in Mv. destruct (type_of (first_byte t)); cbn [snd]; (split; [lia|tauto]).
    - assert (Mv' : ~ masked masks v) by (intros M; apply is_masked_u8_spec in M; congruence).
      destruct (type_of (first_byte t)); [cbn [snd]; split; [lia|intros (K & _); discriminate]|]. rewrite <- C. split; [intros K; repeat split; [assumption|lia]|lia]. }
  clearbody child. rewrite N.max_lt_iff, Cc, R. split.
  - intros H. exists t, v, rest. split; [reflexivity|]. tauto.
  - intros (t' & v' & r' & K & H). injection K as <- <- <-. tauto.
Qed.
Lemma ber_depth p masks bytes : bytes_ok bytes -> roomy p (len bytes) ->
  forall k, N.of_nat k < snd (snd (ber_parse_run p masks bytes)) <-> nest masks k bytes.
Proof. intros Hb Hr k. apply (ber_run_depth p masks _ [] bytes []); [lia|assumption|assumption]. Qed.

Lemma text_nest_cases masks k s : text_nest masks (S k) s <->
  exists e rest, inext masks s = Ok (e, rest)
     /\ ((ie_type e = letter_T /\ type_of (first_byte (ie_tag e)) = Constructed /\ exists v, ie_data e = Normal v /\ nest masks k v)
         \/ exists sep rest', rest = sep :: rest' /\ text_nest masks (S k) rest').
Proof.
  split.
  - intros H. inversion H as [|? f t v rest Fd C N|? f e sep rest Fd N]; subst.
    + exists (mkEntry letter_T t (Normal v)), rest. split; [apply inext_iff; eauto|]. left. split; [reflexivity|]. split; [assumption|]. exists v. auto.
    + exists e, (sep :: rest). split; [apply inext_iff; eauto|]. right. eauto.
  - intros (e & rest & E & [(Ty & C & v & D & H)|(sep & rest' & -> & H)]); apply inext_iff in E; destruct E as (f & -> & Fd).
    + destruct e as [ty t d]. cbn [ie_type ie_tag ie_data] in *. subst. eapply text_nest_inside; eassumption.
    + eapply text_nest_after; eassumption.
Qed.
Lemma ingenico_run_depth p masks : forall fuel pre suf nodes, (List.length suf < fuel)%nat -> ascii_text (pre ++ suf) -> roomy p (len (pre ++ suf)) ->
  forall k, N.of_nat k < snd (snd (ingenico_run fuel p masks (pre ++ suf) (len pre) nodes)) <-> text_nest masks k suf.
Proof.
  induction fuel as [|f IH]; intros pre suf nodes Hf Ha Hr k; [lia|].
  assert (One : 1 <= snd (snd (ingenico_run (S f) p masks (pre ++ suf) (len pre) nodes))) by (now apply (ingenico_run_lower p masks (S f) pre suf nodes)).
  destruct k as [|k]; [split; [intros _; constructor|lia]|]. rewrite text_nest_cases. clear One.
  destruct suf as [|b suf].
  { rewrite ingenico_run_end by (rewrite len_app, len_nil; lia). cbn [fst snd]. split; [lia|]. intros (e & rest & E & _). discriminate E. }
  assert (As : ascii_text (b :: suf)) by now apply ascii_app in Ha.
  assert (Fin : fst (ingenico_run (S f) p masks (pre ++ b :: suf) (len pre) nodes) <> Panic /\ fst (ingenico_run (S f) p masks (pre ++ b :: suf) (len pre) nodes) <> NoFuel).
  { rewrite ingenico_run_fst, ingenico_loop_ip by assumption. destruct (ip_fuel masks (S f) (b :: suf) As Hf) as [St _]. destruct (ip (S f) masks (b :: suf)); cbn in *; split; congruence || contradiction. }
  revert Fin. cbn [ingenico_run]. rewrite (proj2 (N.ltb_lt _ _)) by (rewrite len_app, len_cons; lia). rewrite ingenico_head_spec by (try assumption; discriminate). intros Fin.
  destruct (inext masks (b :: suf)) as [[e rest]| | |] eqn:En; [|cbn [snd fst] in *; (split; [lia|intros (e0 & rest & E & _); discriminate E])..].
  destruct (inext_suffix _ _ _ _ En) as (fl & E & Hfl). assert (L : len (b :: suf) = len fl + len rest) by (rewrite E, !len_app; lia).
  assert (R : forall nodes', N.of_nat (S k) < snd (snd (ingenico_run f p masks (pre ++ b :: suf) (len pre + (len (b :: suf) - len rest) + 1) nodes'))
    <-> exists sep rest', rest = sep :: rest' /\ text_nest masks (S k) rest').
  { intros nodes'. replace (len pre + (len (b :: suf) - len rest) + 1) with (len pre + len fl + 1) by lia. rewrite E in *. destruct rest as [|sep rest].
    - destruct f as [|f]; [rewrite app_length in Hf; cbn in Hf, Hfl; lia|]. rewrite ingenico_run_end by (rewrite app_nil_r, len_app; lia). cbn [snd]. split; [lia|]. intros (sep & rest' & K & _). discriminate K.
    - replace (pre ++ fl ++ sep :: rest) with ((pre ++ fl ++ [sep]) ++ rest) in * by (rewrite <- !app_assoc; reflexivity).
      replace (len pre + len fl + 1) with (len (pre ++ fl ++ [sep])) by (rewrite !len_app; change (len [sep]) with 1; lia).
      rewrite IH; [|unfold len in L; cbn [List.length] in *; lia|assumption|assumption]. split; [intros H; now exists sep, rest|intros (s' & r' & K & H); now injection K as <- <-]. }
  assert (X : forall Q : Prop, ((exists e0 rest0, Ok (e, rest) = Ok (e0, rest0) /\ ((ie_type e0 = letter_T /\ type_of (first_byte (ie_tag e0)) = Constructed /\ exists v, ie_data e0 = Normal v /\ nest masks k v)
      \/ exists sep rest', rest0 = sep :: rest' /\ text_nest masks (S k) rest')) <-> Q)
    <-> ((ie_type e = letter_T /\ type_of (first_byte (ie_tag e)) = Constructed /\ exists v, ie_data e = Normal v /\ nest masks k v) \/ (exists sep rest', rest = sep :: rest' /\ text_nest masks (S k) rest') <-> Q)).
  { intros Q. assert (Z : forall A B : Prop, (A <-> B) -> ((A <-> Q) <-> (B <-> Q))) by tauto. apply Z. split; [intros (e0 & r0 & K & M); now injection K as <- <-|intros K; exists e, rest; now split]. }
  assert (Y : forall P Q : Prop, (Q <-> P) -> (P <-> Q)) by tauto. apply Y, X. clear X. change tag_type_emv with letter_T in *.
  destruct (N.eqb_spec (ie_type e) letter_T) as [Ty|Ty]; cbn [negb fst snd] in *.
  2:{ specialize (R nodes). set (r := ingenico_run f p masks _ _ _) in *. clearbody r. unfold nested. cbn [fst snd]. rewrite N.max_lt_iff, R. split; [intros [(K & _)|K]; [contradiction|now right]|intros [K|K]; [lia|now right]]. }
  set (child := match type_of (first_byte (ie_tag e)), ie_data e with Constructed, Normal _ => _ | _, _ => _ end) in *.
  assert (Cc : N.of_nat (S k) < 1 + snd child <-> type_of (first_byte (ie_tag e)) = Constructed /\ exists v, ie_data e = Normal v /\ nest masks k v).
  { unfold child. destruct (type_of (first_byte (ie_tag e))); [cbn [snd]; split; [lia|intros (K & _); discriminate]|].
    destruct (ie_data e) as [v|] eqn:Dv; [|cbn [snd]; split; [lia|intros (_ & v & K & _); discriminate]].
    destruct (inext_bytes masks _ _ _ v As En Dv) as [Ov Lv]. assert (Rv : roomy p (len v)) by (apply (roomy_le _ _ _ Hr); rewrite len_app; lia).
    pose proof (ber_depth p masks v Ov Rv k) as B. split; [intros K; split; [reflexivity|]; exists v; split; [reflexivity|]; apply B; lia|]. intros (_ & v' & K & M). injection K as <-. apply B in M. lia. }
  match type of Fin with context[match ?r with Ok _ => _ | Err _ => _ | Panic => _ | NoFuel => _ end] => destruct r as [c| | |] eqn:N1 end.
  2:{ exfalso. revert N1. unfold get_child_block. destruct (type_of (first_byte (ie_tag e))); [discriminate|]. destruct (ie_data e) as [x|]; [|discriminate]. destruct (fst (ber_parse_run p masks x)); discriminate. }
  2-3: exfalso; cbn [fst] in Fin; now destruct Fin.
  match goal with |- context[ingenico_run f p masks _ _ ?ns] => specialize (R ns) end. set (r := ingenico_run f p masks _ _ _) in *. clearbody r child. unfold nested. cbn [fst snd]. rewrite N.max_lt_iff, Cc, R. tauto.
Qed.
Lemma ingenico_depth p masks s : roomy p (len s) ->
  forall k, N.of_nat (S k) < snd (snd (ingenico_parse_run p masks s)) <-> ascii_text s /\ text_nest masks (S k) s.
Proof.
  intros Hr k. unfold ingenico_parse_run. destruct (is_ascii s) eqn:A; cbn [negb].
  - apply is_ascii_iff in A. rewrite (ingenico_run_depth p masks (S (List.length s)) [] s []) by (try assumption; lia). tauto.
  - cbn [snd]. split; [lia|]. intros [K _]. apply is_ascii_iff in K. congruence.
Qed.

(** ** Processing, sorting and showing *)

Lemma list_max_in l n : In n l -> (n <= list_max l)%nat.
Proof. intros H. pose proof (proj1 (list_max_le l (list_max l)) (Nat.le_refl _)) as F. rewrite Forall_forall in F. now apply F. Qed.
Lemma process_within_same : forall k l r, process_within k l = Some r -> r = process_block l.
Proof.
  induction k as [|k IH]; intros l r H; [discriminate|]. cbn [process_within] in H. revert r H.
  induction l as [|[t c] l IHl]; intros r H; [now injection H as <-|]. cbn [lmap] in H. unfold process_block in *. cbn [mapM process_node].
  destruct (process_emv_tag t) as [pt|e| |]; cbn [lbind bind] in *; [|now injection H as <-..].
  destruct (process_within k c) as [rc|] eqn:Ec; [|discriminate]. apply IH in Ec. rewrite <- Ec. destruct rc as [cs|e| |]; cbn [lbind bind] in *; [|now injection H as <-..].
  match type of H with context[lbind ?x _] => destruct x as [rl|]; [|discriminate] end. rewrite <- (IHl rl eq_refl). destruct rl as [ns|e| |]; cbn [lbind bind] in *; now injection H as <-.
Qed.
Lemma process_within_room : forall k l, (forest_depth l < k)%nat -> process_within k l <> None.
Proof.
  induction k as [|k IH]; intros l H; [lia|]. cbn [process_within].
  assert (F : forall n, In n l -> (node_depth n <= k)%nat) by (intros n Hn; apply (in_map node_depth) in Hn; apply list_max_in in Hn; unfold forest_depth in H; lia).
  clear H. induction l as [|[t c] l IHl]; [discriminate|]. cbn [lmap]. destruct (process_emv_tag t) as [pt|e| |]; cbn [lbind]; try discriminate.
  assert (Hc : process_within k c <> None) by (apply IH; specialize (F _ (or_introl eq_refl)); cbn [node_depth] in F; unfold forest_depth; lia).
  destruct (process_within k c) as [[cs|e| |]|]; cbn [lbind]; try discriminate; [|congruence].
  assert (Hl := IHl (fun n Hn => F n (or_intror Hn))). cbn [lbind] in Hl. match goal with |- context[lbind ?x _] => destruct x as [[ns|e| |]|] end; cbn [lbind]; try discriminate. congruence.
Qed.
Lemma block_depth_le l m : (forall n, In n l -> (pnode_depth n <= m)%nat) -> (block_depth l <= m)%nat.
Proof. unfold block_depth. induction l as [|x l IH]; cbn [fold_right]; intros H; [lia|]. pose proof (H x (or_introl eq_refl)). pose proof (IH (fun n Hn => H n (or_intror Hn))). lia. Qed.
Lemma process_depth : forall k l b, process_within k l = Some (Ok b) -> (block_depth b <= forest_depth l)%nat.
Proof.
  induction k as [|k IH]; intros l b H; [discriminate|]. cbn [process_within] in H. revert b H.
  induction l as [|[t c] l IHl]; intros b H; [injection H as <-; cbn; lia|]. cbn [lmap] in H.
  destruct (process_emv_tag t) as [pt|e| |]; cbn [lbind] in H; try discriminate. destruct (process_within k c) as [[cs|e| |]|] eqn:Ec; cbn [lbind] in H; try discriminate.
  match type of H with context[lbind ?x _] => destruct x as [[ns|e| |]|] eqn:El end; cbn [lbind] in H; try discriminate. injection H as <-. apply IH in Ec. apply IHl in El.
  unfold block_depth, forest_depth in *. cbn [fold_right map list_max pnode_depth node_depth]. change (fold_right Nat.max 0%nat (map node_depth l)) with (list_max (map node_depth l)). lia.
Qed.

Lemma child_depth n l k : In n l -> (block_depth l <= S k)%nat -> (block_depth (pnode_children n) <= k)%nat.
Proof. intros Hn D. apply ProofsProcess.block_depth_in in Hn. destruct n as [t c]. cbn [pnode_depth pnode_children] in *. unfold block_depth at 1. lia. Qed.
Lemma sorted_in l n : In n (stable_sort l) -> In n l.
Proof. apply Permutation.Permutation_in, Permutation.Permutation_sym, ProofsProcess.stable_sort_perm. Qed.
Lemma sort_enough : forall f f' l, (block_depth l <= f)%nat -> (block_depth l <= f')%nat -> sort_nodes_fuel f l = sort_nodes_fuel f' l.
Proof.
  induction f as [|f IH]; intros f' l H H'.
  - destruct l as [|[t c] l]; [destruct f'; reflexivity|cbn [block_depth fold_right pnode_depth] in H; lia].
  - destruct f' as [|f']; [destruct l as [|[t c] l]; [reflexivity|cbn [block_depth fold_right pnode_depth] in H'; lia]|]. cbn [sort_nodes_fuel]. apply map_ext_in.
    intros n Hn. apply sorted_in in Hn. f_equal. apply IH; now apply (child_depth n l).
Qed.
Lemma sort_within_fuel : forall k l r, sort_within k l = Some r -> forall f, (block_depth l <= f)%nat -> r = sort_nodes_fuel f l.
Proof.
  induction k as [|k IH]; intros l r H f Hf; [discriminate|]. destruct f as [|f].
  { destruct l as [|[t c] l]; [|cbn [block_depth fold_right pnode_depth] in Hf; lia]. cbn in H. now injection H as <-. }
  cbn [sort_within sort_nodes_fuel] in *. assert (D : forall n, In n (stable_sort l) -> (block_depth (pnode_children n) <= f)%nat) by (intros n Hn; apply sorted_in in Hn; now apply (child_depth n l)).
  clear Hf. revert r H D. induction (stable_sort l) as [|n s IHs]; intros r H D; [now injection H as <-|]. cbn [omap map] in *.
  destruct (sort_within k (pnode_children n)) as [c|] eqn:Ec; cbn [option_map] in H; [|discriminate].
  match type of H with match ?x with _ => _ end = _ => destruct x as [ys|] eqn:Ey; [|discriminate] end. injection H as <-. f_equal.
  - f_equal. apply (IH _ _ Ec). apply D. now left.
  - apply IHs; [reflexivity|]. intros x Hx. apply D. now right.
Qed.
Lemma sort_within_same k l r : sort_within k l = Some r -> r = sort_nodes l.
Proof. intros H. now apply (sort_within_fuel k l r H). Qed.
Lemma sort_within_room : forall k l, (block_depth l < k)%nat -> sort_within k l <> None.
Proof.
  induction k as [|k IH]; intros l H; [lia|]. cbn [sort_within].
  assert (D : forall n, In n (stable_sort l) -> sort_within k (pnode_children n) <> None).
  { intros n Hn. apply sorted_in in Hn. apply IH. apply ProofsProcess.block_depth_in in Hn. destruct n as [t c]. cbn [pnode_depth pnode_children] in *. unfold block_depth at 1. lia. }
  clear H. induction (stable_sort l) as [|n s IHs]; [discriminate|]. cbn [omap]. pose proof (D n (or_introl eq_refl)) as Dn. destruct (sort_within k (pnode_children n)) as [c|]; [|congruence]. cbn [option_map].
  pose proof (IHs (fun x Hx => D x (or_intror Hx))) as Ds. match goal with |- match ?x with _ => _ end <> _ => destruct x; [discriminate|congruence] end.
Qed.
Lemma sort_depth : forall k l r, sort_within k l = Some r -> (block_depth r <= block_depth l)%nat.
Proof.
  induction k as [|k IH]; intros l r H; [discriminate|]. cbn [sort_within] in H.
  assert (D : forall n, In n (stable_sort l) -> (pnode_depth n <= block_depth l)%nat) by (intros n Hn; apply sorted_in in Hn; now apply ProofsProcess.block_depth_in).
  revert r H D. generalize (block_depth l) as m. intros m. induction (stable_sort l) as [|n s IHs]; intros r H D; [injection H as <-; cbn; lia|]. cbn [omap] in H.
  destruct (sort_within k (pnode_children n)) as [c|] eqn:Ec; cbn [option_map] in H; [|discriminate].
  match type of H with match ?x with _ => _ end = _ => destruct x as [ys|] eqn:Ey; [|discriminate] end. injection H as <-. apply IH in Ec.
  pose proof (IHs ys eq_refl (fun x Hx => D x (or_intror Hx))) as Ds. pose proof (D n (or_introl eq_refl)) as Dn. destruct n as [t c']. cbn [pnode_depth pnode_children pnode_tag] in *. unfold block_depth in *. cbn [fold_right pnode_depth]. lia.
Qed.

(* The output of a run that may be killed, and that of one that is not. *)
Definition agrees (d : kdisp) (x : disp) : Prop :=
  if snd d then dead (fst d) = false /\ exists r, evs x = evs (fst d) ++ r else fst d = x.
Lemma agrees_alive x : agrees (alive x) x.
Proof. reflexivity. Qed.
Lemma agrees_killed x : agrees killed x.
Proof. split; [reflexivity|]. now exists (evs x). Qed.
Lemma agrees_then a d x : agrees d x -> agrees (kthen a d) (a >>> x).
Proof.
  unfold agrees, kthen, dthen. destruct d as [d k]. cbn [fst snd]. destruct (dead a) eqn:Da; cbn [fst snd]; [reflexivity|]. destruct k; [|now intros ->].
  intros (D & r & E). cbn [dead evs]. split; [assumption|]. exists r. now rewrite E, app_assoc.
Qed.
Lemma agrees_seq d x d' x' : agrees d x -> agrees d' x' -> agrees (kseq d d') (x >>> x').
Proof.
  intros A A'. unfold kseq. destruct (snd d) eqn:K.
  - unfold agrees in *. rewrite K in *. destruct A as (D & r & E). split; [assumption|]. unfold dthen. destruct (dead x); cbn [evs]; [now exists r|]. exists (r ++ evs x'). now rewrite E, app_assoc.
  - unfold agrees in A. rewrite K in A. rewrite <- A. now apply agrees_then.
Qed.
Lemma kthen_killed a d : snd (kthen a d) = true -> snd d = true.
Proof. unfold kthen. cbn [snd]. destruct (dead a); [discriminate|auto]. Qed.
Lemma kseq_killed d d' : snd (kseq d d') = true -> snd d = true \/ snd d' = true.
Proof. unfold kseq. destruct (snd d) eqn:K; [auto|]. intros H. apply kthen_killed in H. now right. Qed.
Lemma display_agrees : forall k p show l ind, agrees (display_within k p show l ind) (display_block p l ind show).
Proof.
  induction k as [|k IH]; intros p show l ind; [apply agrees_killed|]. cbn [display_within]. unfold display_block.
  match goal with |- agrees (nodes_within ?F _ _) (display_nodes ?G _ _) => cut (forall first, agrees (nodes_within F first l) (display_nodes G first l)); [intros X; apply X|] end.
  induction l as [|[t c] l IHl]; intros first; [apply agrees_alive|]. cbn [nodes_within display_nodes display_pnode].
  apply agrees_then, agrees_seq; [|apply IHl]. apply agrees_then. destruct c as [|c0 c]; [apply agrees_alive|]. apply agrees_then.
  unfold dlet. destruct (u8_add p ind 1) as [ind1| | |]; [apply (IH p show (c0 :: c) ind1)|apply agrees_alive..].
Qed.
Lemma display_room : forall k p show l ind, (block_depth l <= k)%nat -> (1 <= k)%nat -> snd (display_within k p show l ind) = false.
Proof.
  induction k as [|k IH]; intros p show l ind D O; [lia|]. cbn [display_within]. clear O.
  match goal with |- snd (nodes_within ?F _ _) = _ => cut (forall first, snd (nodes_within F first l) = false); [intros X; apply X|] end.
  induction l as [|[t c] l IHl]; intros first; [reflexivity|]. cbn [nodes_within].
  assert (Dl : (block_depth l <= S k)%nat /\ (block_depth c <= k)%nat) by (unfold block_depth in *; cbn [fold_right pnode_depth] in D; lia). destruct Dl as [Dl Dc].
  match goal with |- ?x = false => destruct x eqn:K; [exfalso|reflexivity] end. apply kthen_killed, kseq_killed in K. destruct K as [K|K]; [|now rewrite (IHl Dl false) in K].
  apply kthen_killed in K. destruct c as [|c0 c]; [discriminate|]. apply kthen_killed in K.
  destruct (u8_add p ind 1) as [ind1| | |]; try discriminate. rewrite IH in K; [discriminate|assumption|]. unfold block_depth in Dc. destruct c0. cbn [fold_right pnode_depth] in Dc. lia.
Qed.
