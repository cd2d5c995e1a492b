(** The properties of the number of lines shown. *)

From Coq Require Import ZArith NArith String List Bool Lia ZifyN ZifyBool ZifyNat Permutation Sorting.
From Verif Require Import Base ModelUtil ModelEnums ModelBitflag ModelSchemas ModelTags ModelTlv ModelValues ModelProcess ModelDisplay
  SpecUtil SpecCodes SpecValues SpecTlv SpecIngenico SpecTags SpecProcess SpecDisplay
  ProofsUtil ProofsGrammar ProofsBer ProofsIngenico ProofsValues PropertiesValues
  PropertiesBer PropertiesIngenico ProofsProcess PropertiesProcess ProofsDisplay ProofsDiagram ProofsScreens ProofsLayout PropertiesDisplay
  SpecPictures ProofsPictures ModelMain SpecMain ProofsMain PropertiesMain ModelCli SpecCli ProofsCli PropertiesCli PropertiesPictures
  SpecReading PropertiesReading ModelTerminal SpecTerminal ProofsTerminal PropertiesTerminal SpecTells ProofsTells PropertiesTells SpecCost ProofsCost PropertiesCost.
Import ListNotations.
Local Open Scope N_scope.

(** ** Pictures *)

Lemma len_map {A B} (f : A -> B) l : len (map f l) = len l.
Proof. unfold len. now rewrite map_length. Qed.
Lemma len_rev {A} (l : list A) : len (rev l) = len l.
Proof. unfold len. now rewrite rev_length. Qed.
Lemma all_shown_len n t d : len (all_shown n t d) <= len t.
Proof.
  unfold all_shown. induction t as [|e t IH]; [cbn; lia|]. cbn [flat_map]. rewrite len_app, len_cons.
  assert (len (field_shown n e d) <= 1); [|lia]. unfold field_shown. destruct (e_kind e); try (destruct (_ =? 1); cbn; lia);
    match goal with |- context [decode ?k ?v] => destruct (decode k v) as [[? ?]|] end; cbn; lia.
Qed.
Lemma diagram_len n raw rs i show : len (diagram n raw rs i show) <= 2 + len rs.
Proof. unfold diagram. rewrite len_cons, len_app, len_map, len_rev. destruct (existsb _ _); cbn [List.length]; unfold len; cbn [List.length]; lia. Qed.
Lemma chunks_len {A} (l : list A) : len (chunks 16 l) <= len l.
Proof.
  unfold chunks. assert (G : forall f (l : list A), len (chunks_fuel f 16 l) <= len l).
  { induction f as [|f IH]; intros [|x k]; cbn [chunks_fuel]; try (unfold len; cbn; lia). rewrite len_cons. specialize (IH (skipn 16 (x :: k))).
    assert (len (skipn 16 (x :: k)) < len (x :: k)); [|lia]. unfold len. rewrite skipn_length. cbn [List.length]. lia. }
  apply G.
Qed.
Definition small (q : picture) (d : list N) : Prop := forall i show, len (q i show) <= 60 + 2 * len d.
Lemma bits_small n t used d q : len t <= 50 -> bits_picture n t used d = Some q -> small q d.
Proof.
  unfold bits_picture. intros L H i show. destruct (_ && _); [|discriminate]. assert (E : q = diagram n (keep_bits d used) (all_shown n t d)) by congruence. rewrite E. clear H E.
  pose proof (diagram_len n (keep_bits d used) (all_shown n t d) i show). pose proof (all_shown_len n t d). lia.
Qed.
Lemma action_small sentence d q : action_picture sentence d = Some q -> small q d.
Proof.
  unfold action_picture. destruct (bits_picture 5 tvr_bits tvr_used d) as [r|] eqn:E; [|discriminate]. cbn [option_map]. intros H i show.
  assert (Q : q = fun i _ => heading_row i (lit sentence) :: r i false) by congruence. subst q. rewrite len_cons.
  unfold bits_picture in E. destruct (_ && _); [|discriminate]. assert (K : r = diagram 5 (keep_bits d tvr_used) (all_shown 5 tvr_bits d)) by congruence. rewrite K. clear.
  pose proof (diagram_len 5 (keep_bits d tvr_used) (all_shown 5 tvr_bits d) i false). pose proof (all_shown_len 5 tvr_bits d). assert (len tvr_bits <= 50) by (vm_compute; discriminate). lia.
Qed.
Lemma code_small {A} (table : list (N * A * string)) d q : code_picture table d = Some q -> small q d.
Proof.
  unfold code_picture. destruct d as [|b [|]]; try discriminate. destruct (find_code table b); [|discriminate]. cbn [option_map]. intros H i show.
  injection H as <-. cbn. lia.
Qed.
Lemma rules_len : forall d i k, len (rules_picture i k d) <= 2 * len d.
Proof.
  induction d as [d IH] using length_ind. destruct d as [|a [|b d]]; intros i k; cbn [rules_picture]; try (unfold len; cbn; lia).
  rewrite !len_cons. specialize (IH d ltac:(cbn [List.length]; lia) i (k + 1)). lia.
Qed.
Lemma cvm_list_small d q : cvm_list_picture d = Some q -> small q d.
Proof.
  unfold cvm_list_picture. destruct (_ && _) eqn:C; [|discriminate]. cbv zeta. intros H i show.
  set (x := be_value (firstn 4 d)) in *. set (y := be_value (firstn 4 (skipn 4 d))) in *. set (rs := skipn 8 d) in *.
  assert (L : len rs <= len d) by (unfold rs, len; rewrite skipn_length; lia). clearbody x y rs.
  injection H as <-. pose proof (rules_len rs i 1). rewrite len_app, len_cons.
  assert (len (if (x =? 0) && (y =? 0) && negb (mentions_amount rs) then [] else amounts_picture x y i) <= 2).
  { match goal with |- context [if ?b then _ else _] => destruct b end; [change (len (@nil line)) with 0; lia|]. unfold amounts_picture. rewrite !len_cons. change (len (@nil line)) with 0. lia. }
  lia.
Qed.
Lemma cvm_results_small d q : cvm_results_picture d = Some q -> small q d.
Proof.
  unfold cvm_results_picture. destruct d as [|a [|b [|c [|]]]]; try discriminate. destruct (find_code cvm_result_codes c) as [r|]; [|discriminate]. cbn [option_map]. intros H i show.
  match type of H with Some ?x = _ => assert (E : q = x) by congruence end. rewrite E. clear.
  match goal with |- context [diagram ?n ?raw ?rs i show] => pose proof (diagram_len n raw rs i show) as D; set (z := diagram n raw rs i show) in *; assert (L : len rs <= 50) end.
  { rewrite len_app, len_map. pose proof (all_shown_len 2 cv_rule_bits [a; b]). assert (len cv_rule_bits <= 40) by (vm_compute; discriminate). unfold len at 2. cbn [List.length]. lia. }
  lia.
Qed.
Lemma iad_small d q : iad_picture d = Some q -> small q d.
Proof.
  unfold iad_picture. cbv zeta. destruct (_ && _) eqn:C; [|discriminate]. intros H i show.
  match type of H with Some ?x = _ => assert (E : q = x) by congruence end. rewrite E. clear H E.
  assert (L : len d = 32) by (apply andb_prop in C; destruct C as [C _]; apply andb_prop in C; destruct C as [C _]; apply andb_prop in C; destruct C as [C _]; now apply N.eqb_eq). clear C.
  set (cv := firstn 5 (skipn 3 d)).
  pose proof (diagram_len 1 [nth 1 d 0] (all_shown 1 cci_bits [nth 1 d 0]) (i + 1) show) as D1. pose proof (all_shown_len 1 cci_bits [nth 1 d 0]) as A1.
  pose proof (diagram_len 5 (keep_bits cv cvr_used) (all_shown 5 cvr_bits cv) (i + 1) show) as D2. pose proof (all_shown_len 5 cvr_bits cv) as A2.
  assert (L1 : len cci_bits <= 4) by (vm_compute; discriminate). assert (L2 : len cvr_bits <= 40) by (vm_compute; discriminate).
  set (z1 := diagram 1 _ _ _ _) in *. set (z2 := diagram 5 _ _ _ _) in *. rewrite !len_cons, len_app, !len_cons, len_app, !len_cons, len_app, len_cons. unfold hex_dump. rewrite !len_map.
  pose proof (chunks_len (firstn 8 (skipn 8 d))) as K1. pose proof (chunks_len (skipn 17 d)) as K2.
  assert (len (firstn 8 (skipn 8 d)) <= 8) by (unfold len; rewrite firstn_length; lia). assert (len (skipn 17 d) <= 15) by (unfold len in *; rewrite skipn_length; lia). lia.
Qed.
Lemma picture_small t d q : picture_of t d = Some q -> small q d.
Proof.
  unfold picture_of, SpecPictures.lookup. destruct (find _ pictures) as [[t' f]|] eqn:F; [|discriminate]. cbn [option_map snd]. intros H. apply find_some in F. destruct F as [I _].
  unfold pictures in I. cbn [In] in I.
  repeat (destruct I as [I|I]; [assert (E : f = snd (t', f)) by reflexivity; rewrite <- I in E; cbn [snd] in E; subst f; clear I|]); [..|destruct I].
  - unfold service_data_picture in H. destruct d as [|a [|b [|]]]; try discriminate. destruct (_ && _); [|discriminate]. match type of H with Some ?x = _ => assert (E : q = x) by congruence end. rewrite E. clear. intros i show. unfold service_picture. cbv zeta. rewrite !len_cons. change (len (@nil line)) with 0. lia.
  - unfold response_picture in H. destruct (find _ arc_codes); [|discriminate]. cbn [option_map] in H. match type of H with Some ?x = _ => assert (E : q = x) by congruence end. rewrite E. clear. intros i show. cbv beta. rewrite !len_cons. change (len (@nil line)) with 0. lia.
  - now apply cvm_list_small.
  - apply bits_small in H; [exact H|vm_compute; discriminate].
  - apply bits_small in H; [exact H|vm_compute; discriminate].
  - now apply code_small in H.
  - now apply action_small in H.
  - now apply action_small in H.
  - now apply action_small in H.
  - now apply iad_small.
  - apply bits_small in H; [exact H|vm_compute; discriminate].
  - now apply cvm_results_small.
  - now apply code_small in H.
  - now apply code_small in H.
  - apply bits_small in H; [exact H|vm_compute; discriminate].
Qed.

(** ** Trees *)

Definition data_len (t : raw_tag) : N := match rt_data t with Normal d => len d | Masked => 0 end.
Fixpoint heavy (n : raw_node) : N := match n with RawNode t c => 65 + 3 * data_len t + total (map heavy c) end.
Lemma tag_lines_len t i show : len (tag_lines t i show) <= 63 + 3 * data_len t.
Proof.
  unfold tag_lines. rewrite len_cons, len_app. unfold data_lines, meaning_lines, data_len. destruct (rt_data t) as [d|]; [|cbn; lia].
  assert (D : len (match d with [] => [] | _ => heading_row i (lit "Raw:") :: wide_dump (i + 1) d end) <= 1 + len d).
  { destruct d; [cbn; lia|]. rewrite len_cons. unfold wide_dump. rewrite len_map. pose proof (chunks_len (n :: d)). lia. }
  destruct (picture_of (rt_tag t) d) as [q|] eqn:Q.
  - apply picture_small in Q. specialize (Q (i + 1) show). rewrite len_cons. destruct d; lia.
  - change (len (@nil line)) with 0. destruct d; lia.
Qed.
Lemma separated_len (l : list (list line)) : len (separated l) <= len l + total (map len l).
Proof.
  induction l as [|x l IH]; [cbn; lia|]. rewrite separated_cons, len_app, len_cons. cbn [map]. unfold total in *. cbn [fold_right].
  destruct l; [change (len (@nil line)) with 0; lia|]. rewrite len_cons. lia.
Qed.
Lemma total_map_le {A} (f g : A -> N) l : Forall (fun x => f x <= g x) l -> total (map f l) <= total (map g l).
Proof. unfold total. induction 1; cbn [map fold_right]; lia. Qed.
Lemma total_ones {A} (f : A -> N) l : len l + total (map f l) = total (map (fun x => 1 + f x) l).
Proof. unfold total. induction l as [|x l IH]; [reflexivity|]. rewrite len_cons. cbn [map fold_right]. lia. Qed.
Lemma tree_lines_len show : forall n i, 1 + len (tree_lines show n i) <= heavy n.
Proof.
  fix IH 1. intros [t c] i. cbn [tree_lines heavy]. rewrite len_app. pose proof (tag_lines_len t i show) as T.
  assert (G : forall c, len (separated (map (fun n => tree_lines show n (i + 1)) c)) <= total (map heavy c)).
  { intros c0. eapply N.le_trans; [apply separated_len|]. rewrite map_map, len_map, total_ones. apply total_map_le. induction c0 as [|n c0 IHc]; constructor; [apply IH|apply IHc]. }
  specialize (G c). destruct c as [|n c]; [change (len (@nil line)) with 0; lia|]. rewrite len_cons. lia.
Qed.
Lemma forest_lines_len ns i show : len (forest_lines ns i show) <= total (map heavy ns).
Proof.
  unfold forest_lines. eapply N.le_trans; [apply separated_len|]. rewrite map_map, len_map, total_ones. apply total_map_le. apply Forall_forall. intros n _. apply tree_lines_len.
Qed.
Lemma total_perm l l' : Permutation l l' -> total l = total l'.
Proof. unfold total. induction 1; cbn [fold_right]; lia. Qed.
Lemma in_order_heavy l l' : in_order l l' -> total (map heavy l) = total (map heavy l').
Proof.
  apply (in_order_ind2 (fun l l' _ => total (map heavy l) = total (map heavy l')) (fun m l' _ => total (map heavy m) = total (map heavy l'))); clear.
  - intros l m l' P _ _ _ IH. rewrite <- IH. now apply total_perm, Permutation_map.
  - reflexivity.
  - intros t c c' m l' _ IH _ IH'. unfold total in *. cbn [map fold_right heavy]. unfold total. lia.
Qed.

(** ** Inputs *)

Lemma ber_heavy masks : forall bytes objs ns, ber_objects bytes objs [] -> ber_trees masks objs ns ->
  4 * total (map heavy ns) <= 3 * (len bytes * len bytes) + 124 * len bytes.
Proof.
  induction bytes as [bytes IH] using length_ind. intros objs ns O T. inversion O as [|b t v mid objs' r Ob Os]; subst.
  { inversion T. cbn. lia. }
  inversion T as [|o n os ns' Tn Ts]; subst. inversion Ob as [t' l v' rest Bt Bl _]; subst.
  assert (Lt : 1 <= len t) by (destruct Bt; rewrite len_cons; lia). assert (Ll : 1 <= len l) by (destruct Bl; rewrite len_cons; lia).
  rewrite !len_app. cbn [map]. change (total (heavy n :: map heavy ns')) with (heavy n + total (map heavy ns')).
  assert (Hr : 4 * total (map heavy ns') <= 3 * (len mid * len mid) + 124 * len mid).
  { apply (IH mid) with objs'; try assumption. unfold len in *. rewrite !app_length. lia. }
  assert (Hn : 4 * heavy n <= 3 * ((len v + 2) * (len v + 2)) + 124 * (len v + 2)).
  { inversion Tn as [t1 v1 d R _|t1 v1 objs1 ch _ _ O1 T1]; subst; cbn [heavy].
    - unfold total, data_len. cbn [map fold_right rt_data]. assert (match d with Normal d0 => len d0 | Masked => 0 end <= len v) by (destruct R as [[_ ->]|[_ ->]]; lia). nia.
    - unfold data_len. cbn [rt_data]. assert (4 * total (map heavy ch) <= 3 * (len v * len v) + 124 * len v); [|nia].
      apply (IH v) with objs1; try assumption. unfold len in *. rewrite !app_length. lia. }
  nia.
Qed.
Lemma ing_heavy masks : forall s es, ing_text masks s es -> forall ns, ing_nodes masks es ns ->
  4 * total (map heavy ns) <= 3 * (len s * len s) + 124 * len s.
Proof.
  assert (Field : forall f e n, ing_field masks f e -> ing_node masks (ie_tag e) (ie_data e) n -> 4 * heavy n <= 3 * (len f * len f) + 124 * len f).
  { intros f e n F H. destruct F as [ty td tag ld k fmt txt d _ _ D]. cbn [ie_tag ie_data] in H. rewrite len_cons, !len_app, !len_cons, !len_app, !len_cons.
    assert (Ld : match d with Normal d0 => len d0 | Masked => 0 end <= len txt).
    { destruct D as [txt d _ [[_ ->]|[_ ->]]|txt _ _|txt _ _ _]; try lia. unfold len. rewrite bytes_of_digits_length. pose proof (Nat.div2_decr (List.length txt) (List.length txt)). lia. }
    inversion H as [d' _ |v objs ch _ O T]; subst; cbn [heavy]; unfold data_len; cbn [rt_data].
    - change (total (map heavy [])) with 0. nia.
    - pose proof (ber_heavy masks v objs ch O T). nia. }
  induction 1 as [|f e F|f e sep rest es F T IH]; intros ns H.
  - inversion H. cbn. lia.
  - inversion H as [|e' es' ns' _ H'|e' es' n ns' _ H1 H']; subst; inversion H'; subst; [cbn [map]; change (total []) with 0; lia|].
    cbn [map]. change (total [heavy n]) with (heavy n + 0). pose proof (Field f e n F H1). lia.
  - rewrite len_app, len_cons. inversion H as [|e' es' ns' _ H'|e' es' n ns' _ H1 H']; subst; specialize (IH _ H'); [nia|].
    cbn [map]. change (total (heavy n :: map heavy ns')) with (heavy n + total (map heavy ns')). pose proof (Field f e n F H1). nia.
Qed.
Lemma hex_bytes_len s : 2 * len (hex_bytes s) <= len s.
Proof.
  unfold hex_bytes, len. rewrite bytes_of_digits_length. 
  assert (L : (List.length (filter is_hex_digitb s) <= List.length s)%nat) by (clear; induction s as [|c s IH]; cbn; [lia|]; destruct (is_hex_digitb c); cbn; lia).
  pose proof (Nat.div2_odd (List.length (filter is_hex_digitb s))). lia.
Qed.

(** C88: the number of lines. *)
Theorem C88_lines : forall masks sort op s ls, sheet masks sort op s ls -> len ls <= len s * len s + 34 * len s + 64.
Proof.
  intros masks sort op s ls H. inversion H as [f q I E|n O D N|f ns ns' B N A]; subst.
  - assert (S : small q (hex_bytes s)).
    { unfold byte_operations in I. cbn [In] in I.
      repeat (destruct I as [I|I]; [assert (F : f = snd (op, f)) by reflexivity; rewrite <- I in F; cbn [snd] in F; subst f; clear I|]); [..|destruct I].
      1, 3, 4: apply bits_small in E; [exact E|vm_compute; discriminate].
      - now apply iad_small.
      - now apply cvm_results_small.
      - now apply cvm_list_small.
      - unfold identify_picture in E. destruct (hex_bytes s) as [|b t]; [discriminate|]. match type of E with Some ?x = _ => assert (Q : q = x) by congruence end. rewrite Q. clear.
        intros i show. cbv beta. rewrite !len_cons. change (len (@nil line)) with 0. lia. }
    specialize (S 0 true). pose proof (hex_bytes_len s). nia.
  - unfold service_picture. cbv zeta. rewrite !len_cons. change (len (@nil line)) with 0. nia.
  - rewrite len_app. pose proof (forest_lines_len ns' 0 true) as L.
    assert (Eq : total (map heavy ns') = total (map heavy ns)) by (destruct sort; [symmetry; now apply in_order_heavy|now subst]). rewrite Eq in L. clear Eq.
    assert (F : len (format_lines f) <= 2) by (destruct f as [[]|]; cbn; lia).
    assert (W : 4 * total (map heavy ns) <= 3 * (len s * len s) + 124 * len s).
    { assert (Bb : ber_block masks s ns -> 4 * total (map heavy ns) <= 3 * (len s * len s) + 124 * len s).
      { intros (objs & Ob & T). pose proof (ber_heavy masks _ _ _ Ob T). pose proof (hex_bytes_len s). nia. }
      assert (Bi : ingenico_block masks s ns -> 4 * total (map heavy ns) <= 3 * (len s * len s) + 124 * len s).
      { intros (_ & es & T & Ns). exact (ing_heavy masks s es T ns Ns). }
      inversion B; auto. }
    nia.
Qed.
(* The line feeds of a run of the program, even of one that panics. *)
Lemma line_feeds lo hi ls : Forall (line_between lo hi) ls -> N.of_nat (count_occ N.eq_dec (map snd (render ls)) 10) = len ls.
Proof.
  assert (No : forall l : str, ~ In 10 l -> count_occ N.eq_dec l 10 = O) by (intros l; apply count_occ_not_In).
  induction 1 as [|l ls L H IH]; [reflexivity|]. unfold render in *. cbn [flat_map]. rewrite map_app, count_occ_app, len_cons.
  enough (E : count_occ N.eq_dec (map snd (render_line l)) 10 = 1%nat) by lia. clear IH H.
  unfold render_line. rewrite !map_app, !count_occ_app, ink_text. rewrite (No (repeat 9 _)) by (intros I; apply repeat_spec in I; discriminate).
  rewrite No; [cbn [map snd count_occ]; now destruct (N.eq_dec 10 10)|].
  intros I. apply in_map_iff in I. destruct I as ([st c] & E & I). cbn [snd] in E. subst c. apply in_flat_map in I. destruct I as ([st' tx] & Is & I). cbn [fst snd] in I.
  apply (in_map snd) in I. rewrite ink_text in I. cbn [snd] in I. destruct L as [->|(_ & _ & V)]; [destruct Is|]. rewrite Forall_forall in V. specialize (V _ Is). cbn [snd] in V.
  unfold visible in V. rewrite Forall_forall in V. specialize (V _ I). lia.
Qed.
Theorem C88_program : forall p e m st op s, load_settings e m = Ok st -> chosen m op s -> text64 p s ->
  N.of_nat (count_occ N.eq_dec (text_of (o_stdout (run_main p e m))) 10) <= len s * len s + 34 * len s + 64.
Proof.
  intros p e m st op s L C T. rewrite (main_chosen p e m st op s L C). destruct (run_one_first p st op s T) as [(ls & k & B & _ & rest & R)|(er & _ & _ & _ & E & _)].
  - pose proof (line_feeds 0 k ls (breakdown_between p _ _ op s ls k T B)) as F. rewrite R, map_app, count_occ_app in F. apply (C73_sheet p _ _ _ _ ls k T) in B. destruct B as [B _].
    apply C88_lines in B. unfold text_of. lia.
  - rewrite E. cbn. lia.
Qed.
(* A single value: one line per two characters at most, and sixty more. *)
Theorem C88_value : forall masks sort op s ls, sheet masks sort op s ls -> (forall f ns, ~ tlv_block masks op s f ns) -> len ls <= len s + 60.
Proof.
  intros masks sort op s ls H NB. inversion H as [f q I E|n O D N|f ns ns' B N A]; subst.
  - assert (S : small q (hex_bytes s)).
    { unfold byte_operations in I. cbn [In] in I.
      repeat (destruct I as [I|I]; [assert (F : f = snd (op, f)) by reflexivity; rewrite <- I in F; cbn [snd] in F; subst f; clear I|]); [..|destruct I].
      1, 3, 4: apply bits_small in E; [exact E|vm_compute; discriminate].
      - now apply iad_small.
      - now apply cvm_results_small.
      - now apply cvm_list_small.
      - unfold identify_picture in E. destruct (hex_bytes s) as [|b t]; [discriminate|]. match type of E with Some ?x = _ => assert (Q : q = x) by congruence end. rewrite Q. clear.
        intros i show. cbv beta. rewrite !len_cons. change (len (@nil line)) with 0. lia. }
    specialize (S 0 true). pose proof (hex_bytes_len s). lia.
  - unfold service_picture. cbv zeta. rewrite !len_cons. change (len (@nil line)) with 0. lia.
  - now apply NB in B.
Qed.
(* Objects that are not nested. *)
Lemma flat_ber masks : forall objs bytes ns, ber_objects bytes objs [] -> ber_trees masks objs ns -> Forall (fun n => node_children n = []) ns ->
  total (map heavy ns) <= 33 * len bytes.
Proof.
  induction objs as [|o objs IH]; intros bytes ns O T F; inversion T as [|o' n os ns' Tn Ts]; subst; [change (total (map heavy [])) with 0; lia|].
  inversion O as [|b t v mid objs' r Ob Os]; subst. inversion Ob as [t' l v' rest Bt Bl _]; subst. inversion F as [|x y F1 F2]; subst.
  assert (Lt : 1 <= len t) by (destruct Bt; rewrite len_cons; lia). assert (Ll : 1 <= len l) by (destruct Bl; rewrite len_cons; lia).
  rewrite !len_app. cbn [map]. change (total (heavy n :: map heavy ns')) with (heavy n + total (map heavy ns')). specialize (IH mid ns' Os Ts F2).
  destruct n as [rt c]. cbn [node_children] in F1. subst c. cbn [heavy]. change (total (map heavy [])) with 0.
  assert (data_len rt <= len v); [|lia]. inversion Tn as [t1 v1 d R _|t1 v1 objs1 ch _ _ O1 T1]; subst; unfold data_len; cbn [rt_data]; [|lia].
  destruct R as [[_ ->]|[_ ->]]; lia.
Qed.
Lemma flat_ing masks : forall s es, ing_text masks s es -> forall ns, ing_nodes masks es ns -> Forall (fun n => node_children n = []) ns ->
  total (map heavy ns) <= 33 * len s.
Proof.
  assert (Field : forall f e n, ing_field masks f e -> ing_node masks (ie_tag e) (ie_data e) n -> node_children n = [] -> heavy n <= 33 * len f).
  { intros f e n F H C. destruct F as [ty td tag ld k fmt txt d _ _ D]. cbn [ie_tag ie_data] in H. rewrite len_cons, !len_app, !len_cons, !len_app, !len_cons.
    assert (Ld : match d with Normal d0 => len d0 | Masked => 0 end <= len txt).
    { destruct D as [txt d _ [[_ ->]|[_ ->]]|txt _ _|txt _ _ _]; try lia. unfold len. rewrite bytes_of_digits_length. pose proof (Nat.div2_decr (List.length txt) (List.length txt)). lia. }
    inversion H as [d' _ |v objs ch _ O T]; subst; cbn [node_children] in C; subst; cbn [heavy]; unfold data_len; cbn [rt_data]; change (total (map heavy [])) with 0; lia. }
  induction 1 as [|f e F|f e sep rest es F T IH]; intros ns H C.
  - inversion H. cbn. lia.
  - inversion H as [|e' es' ns' _ H'|e' es' n ns' _ H1 H']; subst; inversion H'; subst; [cbn [map]; change (total []) with 0; lia|].
    cbn [map]. change (total [heavy n]) with (heavy n + 0). inversion C; subst. pose proof (Field f e n F H1). lia.
  - rewrite len_app, len_cons. inversion H as [|e' es' ns' _ H'|e' es' n ns' _ H1 H']; subst; [specialize (IH _ H' C); lia|].
    inversion C; subst. specialize (IH _ H' ltac:(assumption)).
    cbn [map]. change (total (heavy n :: map heavy ns')) with (heavy n + total (map heavy ns')). pose proof (Field f e n F H1). lia.
Qed.
Theorem C88_flat : forall masks sort op s f ns ls p, text64 p s -> tlv_block masks op s f ns -> Forall (fun n => node_children n = []) ns ->
  sheet masks sort op s ls -> len ls <= 33 * len s + 2.
Proof.
  intros masks sort op s f ns ls p T B C H. destruct (sheet_of_block p _ _ _ _ _ _ _ T B H) as (m & -> & A). rewrite len_app.
  pose proof (forest_lines_len m 0 true) as L. assert (Eq : total (map heavy m) = total (map heavy ns)) by (destruct sort; [symmetry; now apply in_order_heavy|now subst]). rewrite Eq in L.
  assert (F : len (format_lines f) <= 2) by (destruct f as [[]|]; cbn; lia).
  assert (W : total (map heavy ns) <= 33 * len s).
  { assert (Bb : ber_block masks s ns -> total (map heavy ns) <= 33 * len s) by (intros (objs & Ob & Tr); pose proof (flat_ber masks _ _ _ Ob Tr C); pose proof (hex_bytes_len s); lia).
    assert (Bi : ingenico_block masks s ns -> total (map heavy ns) <= 33 * len s) by (intros (_ & es & Tx & Ns); exact (flat_ing masks s es Tx ns Ns C)).
    inversion B; auto. }
  lia.
Qed.
(* Every byte of a value is shown, sixteen on a line, at each level again. *)
Lemma chunks_least {A} (l : list A) : len l <= 16 * len (chunks 16 l).
Proof.
  unfold chunks. assert (G : forall f (l : list A), (List.length l <= f)%nat -> len l <= 16 * len (chunks_fuel f 16 l)).
  { induction f as [|f IH]; intros [|x k] K; cbn [chunks_fuel]; try (unfold len; cbn in *; lia). rewrite (len_cons (firstn _ _)).
    assert (Q : (List.length (skipn 16 (x :: k)) <= f)%nat) by (rewrite skipn_length; cbn [List.length] in *; lia). specialize (IH _ Q). clear Q.
    assert (len (x :: k) <= 16 + len (skipn 16 (x :: k))); [|lia]. unfold len. rewrite skipn_length. lia. }
  apply G. lia.
Qed.
Lemma separated_least (l : list (list line)) : total (map len l) <= len (separated l).
Proof.
  induction l as [|x l IH]; [cbn; lia|]. rewrite separated_cons, len_app. cbn [map]. unfold total in *. cbn [fold_right].
  destruct l; [change (len (@nil line)) with 0; cbn; lia|]. rewrite len_cons. lia.
Qed.
Lemma total_scaled {A} (f : A -> N) l : total (map (fun x => 16 * f x) l) = 16 * total (map f l).
Proof. unfold total. induction l; cbn [map fold_right]; lia. Qed.
Lemma tree_lines_least show : forall n i, reread n <= 16 * len (tree_lines show n i).
Proof.
  fix IH 1. intros [t c] i. cbn [tree_lines reread]. rewrite len_app.
  assert (T : match rt_type t, rt_data t with Constructed, Normal v => len v | _, _ => 0 end <= 16 * len (tag_lines t i show)).
  { destruct (rt_type t); [lia|]. destruct (rt_data t) as [v|] eqn:D; [|lia]. unfold tag_lines. rewrite len_cons, len_app. unfold data_lines. rewrite D.
    destruct v as [|b v]; [cbn; lia|]. rewrite (len_cons (heading_row _ _)). unfold wide_dump. rewrite len_map. pose proof (chunks_least (b :: v)). lia. }
  assert (G : forall c, total (map reread c) <= 16 * len (separated (map (fun n => tree_lines show n (i + 1)) c))).
  { intros c0. eapply N.le_trans; [|apply N.mul_le_mono_l, separated_least]. rewrite map_map, <- total_scaled. apply total_map_le. induction c0 as [|n c0 IHc]; constructor; [apply IH|apply IHc]. }
  specialize (G c). destruct c as [|n c]; [change (total (map reread [])) with 0; lia|]. rewrite len_cons. lia.
Qed.
Theorem C88_least : forall p masks op s f ns ls, text64 p s -> tlv_block masks op s f ns ->
  sheet masks false op s ls -> total (map reread ns) <= 16 * len ls.
Proof.
  intros p masks op s f ns ls T B H. destruct (sheet_of_block p _ _ _ _ _ _ _ T B H) as (m & -> & ->). rewrite len_app. unfold forest_lines.
  pose proof (separated_least (map (fun n => tree_lines true n 0) ns)) as S. rewrite map_map in S.
  assert (total (map reread ns) <= 16 * total (map (fun n => len (tree_lines true n 0)) ns)); [|lia].
  rewrite <- total_scaled. apply total_map_le, Forall_forall. intros n _. apply tree_lines_least.
Qed.
(* So the lines are not at most k times the characters of the argument. *)
Theorem C88_linear_refuted : forall k, k < 2 ^ 20 ->
  exists s ls, text64 p64 s /\ sheet [] false OpBer s ls /\ k * len s < len ls.
Proof.
  intros k Hk. set (d := 192 * k + 2). destruct (C84_reached d ltac:(unfold d; lia)) as (I & L & P & _). cbv zeta in *.
  set (bytes := std_forest (chain (N.to_nat d))) in *. pose proof (chain_reread (N.to_nat d)) as R. rewrite N2Nat.id in R.
  assert (Lh : forall l, len (hex_text l) = 2 * len l) by (intros l; induction l as [|b l IH]; [reflexivity|]; unfold hex_text in *; cbn [flat_map app]; rewrite !len_cons, IH; lia).
  assert (Hb : hex_bytes (hex_text bytes) = bytes).
  { unfold hex_bytes. rewrite filter_all by (apply hex_text_digits, I). apply bytes_of_hex_text, I. }
  assert (T : text64 p64 (hex_text bytes)) by (split; [reflexivity|rewrite Lh; unfold d in L; lia]).
  assert (B : tlv_block [] OpBer (hex_text bytes) None (map std_node (chain (N.to_nat d)))).
  { constructor. apply (ber_block_iff p64); [assumption|]. rewrite <- hex_bytes_eq, Hb. exact P. }
  assert (F : Forall (fun t => forall e, ~ tag_fails t e) (flat_map preorder (map std_node (chain (N.to_nat d))))).
  { assert (G : forall n, Forall (fun t => rt_tag t = [0x6F]) (flat_map preorder (map std_node (chain n)))).
    { induction n as [|n IH]; [constructor|]. cbn [chain map std_node flat_map preorder]. rewrite app_nil_r. constructor; [reflexivity|exact IH]. }
    eapply Forall_impl; [|apply G]. intros t E e (v & _ & K). rewrite E in K. inversion K as [? ? ? J _|? _ _| | | | | |]; subst.
    cbn [fixed_lengths In] in J. repeat (destruct J as [J|J]; [discriminate|]). destruct J. }
  set (ns := map std_node (chain (N.to_nat d))) in *. clearbody ns.
  assert (S : sheet [] false OpBer (hex_text bytes) (format_lines None ++ forest_lines ns 0 true)) by now apply (sheet_block _ _ _ _ None ns).
  exists (hex_text bytes). eexists. split; [exact T|]. split; [exact S|]. pose proof (C88_least p64 [] OpBer _ None ns _ T B S) as Z.
  set (ls := format_lines None ++ _) in *. clearbody ls. rewrite Lh. pose proof (N.mul_le_mono_l _ _ k L) as Q. clear - R Z Q. unfold d in *. nia.
Qed.
Example C88_example : exists ls, sheet [] false OpBer (lit "6F026F00") ls /\ len ls = 5.
Proof.
  exists (format_lines None ++ forest_lines (map std_node (chain 2)) 0 true). split; [|vm_compute; reflexivity]. eapply sheet_block; [| |reflexivity].
  - constructor. apply (ber_block_iff p64); [split; vm_compute; reflexivity|]. vm_compute. reflexivity.
  - repeat constructor; intros e (v & _ & K); cbn in K; inversion K as [? ? ? J _|? _ _| | | | | |]; subst; cbn [fixed_lengths In] in J; repeat (destruct J as [J|J]; [discriminate|]); destruct J.
Qed.
