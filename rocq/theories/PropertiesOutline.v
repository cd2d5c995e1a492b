(** The property of the outline of TLV data. *)

From Coq Require Import ZArith NArith Ascii String List Bool Lia ZifyN ZifyBool ZifyNat Permutation Sorting.
From Verif Require Import Base ModelUtil ModelEnums ModelBitflag ModelSchemas ModelTags ModelTlv ModelValues ModelProcess ModelDisplay
  SpecUtil SpecCodes SpecValues SpecTlv SpecIngenico SpecTags SpecProcess SpecDisplay
  ProofsUtil ProofsGrammar ProofsBer ProofsIngenico ProofsValues PropertiesValues
  PropertiesBer PropertiesIngenico ProofsProcess PropertiesProcess ProofsDisplay ProofsDiagram ProofsScreens ProofsLayout PropertiesDisplay
  SpecPictures ProofsPictures ModelMain SpecMain ProofsMain PropertiesMain ModelCli SpecCli ProofsCli PropertiesCli PropertiesPictures
  PropertiesTerminal SpecTells ProofsTells PropertiesTells PropertiesScope PropertiesRuns SpecOutline.
Import ListNotations.
Local Open Scope N_scope.

(** ** Lines without a mark *)

Definition markless (s : str) : bool := forallb (fun x => negb (prefixed (fst (fst x)) s)) signs.
Definition unmarked (l : line) : Prop := markless (flat_map snd (l_spans l)) = true.
Lemma unmarked_heading i s : markless s = true -> unmarked (heading_row i s).
Proof. intros H. unfold unmarked, heading_row. cbn [l_spans flat_map snd]. now rewrite app_nil_r. Qed.
Lemma unmarked_row i st s : markless s = true -> unmarked (row i [(st, s)]).
Proof. intros H. unfold unmarked, row. cbn [l_spans flat_map snd]. now rewrite app_nil_r. Qed.
(* A text whose first character begins none of the marks. *)
Lemma markless_first c s : ~ In c [84; 42; 82; 80; 67] -> markless (c :: s) = true.
Proof.
  intros N. unfold markless. apply forallb_forall. intros [[w g] r] I. cbn [fst]. unfold signs in I. cbn [In] in N, I.
  repeat (destruct I as [I|I]; [injection I as <- _ _; cbn [lit list_ascii_of_string map prefixed]; match goal with |- context [?a =? c] => destruct (N.eqb_spec a c) as [E|E]; [exfalso; apply N; vm_compute in E; rewrite <- E; tauto|reflexivity] end|]). destruct I.
Qed.
Lemma draw_first n k f : (forall o, ~ In (f o) [84; 42; 82; 80; 67]) -> draw n k f = [] \/ exists c s, draw n k f = c :: s /\ ~ In c [84; 42; 82; 80; 67].
Proof.
  intros H. unfold draw. destruct (seq 0 _) as [|x l]; [now left|]. right. cbn [map]. eexists. eexists. split; [reflexivity|]. cbv zeta. destruct (_ =? 8); [|apply H]. cbn [In]. lia.
Qed.
Lemma unmarked_diagram n raw rs i show : Forall unmarked (diagram n raw rs i show).
Proof.
  assert (A : forall f k rest, (forall o, ~ In (f o) [84; 42; 82; 80; 67]) -> (rest = [] \/ exists y z, rest = y :: z /\ ~ In y [84; 42; 82; 80; 67]) -> markless (draw n k f ++ rest) = true).
  { intros f k rest H R. destruct (draw_first n k f H) as [->|(c & s & -> & N)]; [|now apply markless_first]. cbn [app]. destruct R as [->|(y & z & -> & N)]; [reflexivity|now apply markless_first]. }
  unfold diagram. constructor.
  { unfold unmarked, bold_row. cbn [l_spans flat_map snd]. apply A; [|now left]. intros o. unfold bit_char. destruct (N.testbit _ o); cbn [In]; lia. }
  apply Forall_app. split.
  { destruct (existsb _ rs); [|constructor]. constructor; [|constructor]. unfold unmarked, row. cbn [l_spans flat_map snd]. apply A; [|now left]. intros o. unfold arm_char. destruct (find _ rs); [|cbn [In]; lia]. destruct (_ =? 1); [cbn [In]; lia|]. destruct (o =? _); [cbn [In]; lia|]. destruct (o =? _); cbn [In]; lia. }
  apply Forall_map, Forall_forall. intros r _. unfold unmarked. cbn [l_spans flat_map snd]. rewrite <- app_assoc. apply A.
  - intros o. unfold elbow_char. destruct (o =? _); [cbn [In]; lia|]. destruct (existsb _ rs); cbn [In]; lia.
  - right. cbn [app]. do 2 eexists. split; [reflexivity|]. cbn [In]. lia.
Qed.
Lemma unmarked_bits n t used d q i show : bits_picture n t used d = Some q -> Forall unmarked (q i show).
Proof. unfold bits_picture. destruct (_ && _); [|discriminate]. intros H. assert (E : q = diagram n (keep_bits d used) (all_shown n t d)) by congruence. rewrite E. apply unmarked_diagram. Qed.
Lemma unmarked_action sentence d q i show : markless (lit sentence) = true -> action_picture sentence d = Some q -> Forall unmarked (q i show).
Proof.
  unfold action_picture. intros L. destruct (bits_picture 5 tvr_bits tvr_used d) as [r|] eqn:E; [|discriminate]. cbn [option_map]. intros H.
  assert (Q : q = fun i _ => heading_row i (lit sentence) :: r i false) by congruence. subst q. constructor; [now apply unmarked_heading|]. now apply (unmarked_bits 5 tvr_bits tvr_used d).
Qed.
Lemma unmarked_code {A} (table : list (N * A * string)) d q i show : forallb (fun r => markless (lit (snd r))) table = true -> code_picture table d = Some q -> Forall unmarked (q i show).
Proof.
  unfold code_picture. intros F. destruct d as [|b [|]]; try discriminate. destruct (find_code table b) as [[a s]|] eqn:E; [|discriminate]. cbn [option_map]. intros H. injection H as <-.
  constructor; [|constructor]. apply unmarked_row. revert F E. induction table as [|[[b' a'] s'] l IH]; cbn [forallb find_code snd]; [discriminate|]. intros F. apply andb_prop in F. destruct F as [F1 F2]. destruct (b' =? b); [|now apply IH]. intros E. injection E as _ <-. exact F1.
Qed.
Lemma hex_char_never v c : ~ In c digit_chars -> c <> 0 -> hex_char v <> c.
Proof. intros N Z E. unfold hex_char in E. destruct (nth_in_or_default (N.to_nat v) digit_chars 0) as [I|I]; [rewrite E in I; now apply N|congruence]. Qed.
Lemma markless_hex a b s : markless (hex_char a :: hex_char b :: s) = true.
Proof.
  assert (O : hex_char b <> 111) by (apply hex_char_never; [vm_compute; intuition discriminate|discriminate]). assert (H : forall c, In c [84; 42; 82; 80] -> hex_char a <> c).
  { intros c I. apply hex_char_never; [|intros ->; cbn [In] in I; lia]. cbn [In] in I. repeat (destruct I as [<-|I]; [vm_compute; intuition discriminate|]). destruct I. }
  revert O H. generalize (hex_char a) as x, (hex_char b) as y. intros x y O H. destruct (N.eq_dec x 67) as [->|Nx].
  - unfold markless. apply forallb_forall. intros [[w g] r] I. cbn [fst]. unfold signs in I. cbn [In] in I.
    repeat (destruct I as [I|I]; [injection I as <- _ _; try reflexivity|]); [|destruct I]. change (prefixed (lit "Constructed Data Object's Child Tags:") (67 :: y :: s)) with ((111 =? y) && prefixed (lit "nstructed Data Object's Child Tags:") s). destruct (N.eqb_spec 111 y); [congruence|reflexivity].
  - apply markless_first. cbn [In] in *. intros I. destruct I as [I|[I|[I|[I|[I|[]]]]]]; [| | | |congruence]; apply (H x); subst x; tauto.
Qed.
Lemma markless_spaced l s : markless (spaced (map byte_text l) ++ s) = true \/ l = [].
Proof.
  destruct l as [|b l]; [now right|]. left. cbn [map]. destruct l as [|b' l]; cbn [map spaced byte_text app]; apply markless_hex.
Qed.
Lemma unmarked_dump i d : Forall unmarked (hex_dump i d).
Proof.
  unfold hex_dump. apply Forall_map, Forall_forall. intros x _. apply unmarked_row. destruct (markless_spaced x []) as [H| ->]; [now rewrite app_nil_r in H|reflexivity].
Qed.
Lemma unmarked_wide i d : Forall unmarked (wide_dump i d).
Proof.
  unfold wide_dump. apply Forall_map, Forall_forall. intros x _. apply unmarked_row. unfold pad_right. rewrite <- app_assoc. match goal with |- context [spaced _ ++ ?r] => destruct (markless_spaced x r) as [H| ->] end; [exact H|]. vm_compute. reflexivity.
Qed.
Lemma unmarked_iad d q i show : iad_picture d = Some q -> Forall unmarked (q i show).
Proof.
  unfold iad_picture. cbv zeta. destruct (_ && _) eqn:C; [|discriminate]. intros H.
  match type of H with Some ?x = _ => assert (E : q = x) by congruence end. rewrite E. clear H E C.
  constructor; [apply unmarked_heading; vm_compute; reflexivity|]. apply Forall_app. split; [apply unmarked_diagram|].
  constructor; [unfold unmarked, titled, row; cbn [l_spans flat_map snd]; reflexivity|].
  constructor; [apply unmarked_heading; vm_compute; reflexivity|]. apply Forall_app. split; [apply unmarked_diagram|].
  constructor; [apply unmarked_heading; vm_compute; reflexivity|]. apply Forall_app. split; [apply unmarked_dump|].
  constructor; [apply unmarked_heading; vm_compute; reflexivity|]. apply unmarked_dump.
Qed.
Lemma length_ind2 (P : list N -> Prop) : P [] -> (forall a, P [a]) -> (forall a b l, P l -> P (a :: b :: l)) -> forall l, P l.
Proof. intros H0 H1 H2. fix IH 1. intros [|a [|b l]]; [exact H0|apply H1|apply H2, IH]. Qed.
Lemma unmarked_rules i d : forall k, Forall unmarked (rules_picture i k d).
Proof.
  induction d as [|a|a b d IH] using length_ind2; intros k; cbn [rules_picture]; try constructor.
  - unfold unmarked, bold_row. cbn [l_spans flat_map snd]. reflexivity.
  - constructor; [reflexivity|]. constructor; [reflexivity|]. constructor; [reflexivity|]. apply IH.
Qed.
Lemma unmarked_cvm_list d q i show : cvm_list_picture d = Some q -> Forall unmarked (q i show).
Proof.
  unfold cvm_list_picture. destruct (_ && _) eqn:C; [|discriminate]. cbv zeta. intros H.
  set (x := be_value (firstn 4 d)) in *. set (y := be_value (firstn 4 (skipn 4 d))) in *. set (rs := skipn 8 d) in *. clearbody x y rs. injection H as <-.
  apply Forall_app. split; [|constructor; [apply unmarked_heading; vm_compute; reflexivity|apply unmarked_rules]].
  match goal with |- context [if ?b then _ else _] => destruct b end; [constructor|]. unfold amounts_picture. cbv zeta. constructor; [reflexivity|]. constructor; [reflexivity|constructor].
Qed.
Lemma unmarked_results d q i show : cvm_results_picture d = Some q -> Forall unmarked (q i show).
Proof.
  unfold cvm_results_picture. destruct d as [|a [|b [|c [|]]]]; try discriminate. destruct (find_code cvm_result_codes c) as [[r s]|] eqn:F; [|discriminate]. cbn [option_map]. intros H.
  match type of H with Some ?x = _ => assert (E : q = x) by congruence end. rewrite E. apply unmarked_diagram.
Qed.
Lemma unmarked_service n i show : Forall unmarked (service_picture n i show).
Proof.
  unfold service_picture. cbv zeta. constructor.
  { unfold unmarked, bold_row. cbn [l_spans flat_map snd]. rewrite app_nil_r. pose proof (padded_digits 3 n) as D. destruct (padded 3 n) as [|c s]; [reflexivity|]. apply Forall_inv in D. unfold is_dec_digit in D. apply markless_first. cbn [In]. lia. }
  repeat constructor.
Qed.
Lemma picture_unmarked t d q i show : picture_of t d = Some q -> Forall unmarked (q i show).
Proof.
  unfold picture_of, SpecPictures.lookup. destruct (find _ pictures) as [[t' f]|] eqn:F; [|discriminate]. cbn [option_map snd]. intros H. apply find_some in F. destruct F as [I _].
  unfold pictures in I. cbn [In] in I.
  repeat (destruct I as [I|I]; [assert (E : f = snd (t', f)) by reflexivity; rewrite <- I in E; cbn [snd] in E; subst f; clear I|]); [..|destruct I].
  - unfold service_data_picture in H. destruct d as [|a [|b [|]]]; try discriminate. destruct (_ && _) eqn:C; [|discriminate]. match type of H with Some ?x = _ => assert (E : q = x) by congruence end. rewrite E. apply unmarked_service.
  - unfold response_picture in H. destruct (find _ arc_codes) as [r|] eqn:E; [|discriminate]. apply find_some in E. destruct E as [E _]. cbn [option_map] in H. match type of H with Some ?x = _ => assert (Q : q = x) by congruence end. rewrite Q. clear Q H.
    constructor; [|constructor]. apply unmarked_row. assert (G : forallb (fun r => markless (lit (snd r))) arc_codes = true) by (vm_compute; reflexivity). rewrite forallb_forall in G. now apply G in E.
  - now apply (unmarked_cvm_list d).
  - now apply (unmarked_bits _ _ _ _ _ i show) in H.
  - now apply (unmarked_bits _ _ _ _ _ i show) in H.
  - apply (unmarked_code _ _ _ i show) in H; [exact H|vm_compute; reflexivity].
  - apply (unmarked_action _ _ _ i show) in H; [exact H|vm_compute; reflexivity].
  - apply (unmarked_action _ _ _ i show) in H; [exact H|vm_compute; reflexivity].
  - apply (unmarked_action _ _ _ i show) in H; [exact H|vm_compute; reflexivity].
  - now apply (unmarked_iad d).
  - now apply (unmarked_bits _ _ _ _ _ i show) in H.
  - now apply (unmarked_results d).
  - apply (unmarked_code _ _ _ i show) in H; [exact H|vm_compute; reflexivity].
  - apply (unmarked_code _ _ _ i show) in H; [exact H|vm_compute; reflexivity].
  - now apply (unmarked_bits _ _ _ _ _ i show) in H.
Qed.

(** ** Trees *)

Lemma unmarked_none w g r ls : In (w, g, r) signs -> Forall unmarked ls -> filter (begins w) ls = [].
Proof.
  intros I. induction 1 as [|l ls U _ IH]; [reflexivity|]. cbn [filter]. unfold unmarked, markless in U. rewrite forallb_forall in U. specialize (U _ I). cbn [fst] in U. unfold begins at 1. destruct (prefixed w _); [discriminate U|exact IH].
Qed.
Definition outline (g : raw_tag -> bool -> bool) (r : N -> raw_tag -> line) (l : list item) : list line := map (mark r) (filter (marked g) l).
Lemma outline_app g r a b : outline g r (a ++ b) = outline g r a ++ outline g r b.
Proof. unfold outline. now rewrite filter_app, map_app. Qed.
Lemma filter_separated w g r (l : list (list line)) : In (w, g, r) signs -> filter (begins w) (separated l) = flat_map (filter (begins w)) l.
Proof.
  intros I. induction l as [|a l IH]; [reflexivity|]. rewrite separated_cons, filter_app. cbn [flat_map]. apply f_equal. rewrite <- IH. destruct l as [|b l]; [reflexivity|]. generalize (separated (b :: l)). intros z. cbn [filter].
  assert (B : begins w SpecDisplay.blank = false); [|now rewrite B]. unfold signs in I. cbn [In] in I. repeat (destruct I as [I|I]; [injection I as <- _ _; reflexivity|]). destruct I.
Qed.
Lemma own_outline w g r t i show : In (w, g, r) signs -> forall (c : list raw_node) inner, filter (begins w) (tag_lines t i show ++ match c with [] => [] | _ => heading_row i (lit "Constructed Data Object's Child Tags:") :: inner end)
  = outline g r [(i, t, match c with [] => false | _ => true end)] ++ match c with [] => [] | _ => filter (begins w) inner end.
Proof.
  intros I c inner. unfold tag_lines. rewrite <- app_comm_cons, <- app_assoc. cbn [filter]. rewrite !filter_app. unfold data_lines, meaning_lines.
  assert (W : forall k d, filter (begins w) (wide_dump k d) = []) by (intros k d; exact (unmarked_none w g r _ I (unmarked_wide k d))).
  assert (M : forall d q k, picture_of (rt_tag t) d = Some q -> filter (begins w) (q k show) = []) by (intros d q k Q; exact (unmarked_none w g r _ I (picture_unmarked _ _ _ _ _ Q))).
  revert W M. pose proof I as J. unfold signs in J. cbn [In] in J. clear I.
  assert (F : forall a l, filter (begins w) (a :: l) = (if begins w a then [a] else []) ++ filter (begins w) l) by (intros a l; cbn [filter]; now destruct (begins w a)).
  revert F.
  repeat (destruct J as [J|J]; [injection J as <- <- <-; intros F W M; unfold outline; cbn [filter marked];
    match goal with |- context [begins ?x (tag_row i t ?n)] => let b := eval cbn in (prefixed x (lit "Tag: 0x")) in change (begins x (tag_row i t n)) with b end;
    destruct (rt_data t) as [[|b d]|]; [destruct (picture_of (rt_tag t) []) as [q|] eqn:Q|destruct (picture_of (rt_tag t) (b :: d)) as [q|] eqn:Q|];
    destruct c as [|n c]; rewrite ?F, ?W; try rewrite (M _ q _ Q); cbn [filter map app mark]; reflexivity|]). destruct J.
Qed.
Lemma tree_outline w g r show : In (w, g, r) signs -> forall n i, filter (begins w) (tree_lines show n i) = outline g r (items i n).
Proof.
  intros I. fix IH 1. intros [t c] i. cbn [tree_lines items]. rewrite (own_outline w g r t i show I c). change ((i, t, match c with [] => false | _ => true end) :: flat_map (items (i + 1)) c) with ([(i, t, match c with [] => false | _ => true end)] ++ flat_map (items (i + 1)) c). rewrite outline_app. apply f_equal.
  assert (G : forall l, flat_map (filter (begins w)) (map (fun n => tree_lines show n (i + 1)) l) = outline g r (flat_map (items (i + 1)) l)).
  { induction l as [|n l IHl]; [reflexivity|]. cbn [map flat_map]. rewrite outline_app, IH, IHl. reflexivity. }
  rewrite <- G. destruct c as [|n c]; [reflexivity|]. now apply (filter_separated w g r).
Qed.
Lemma forest_outline w g r show ns i : In (w, g, r) signs -> filter (begins w) (forest_lines ns i show) = outline g r (flat_map (items i) ns).
Proof.
  intros I. unfold forest_lines. rewrite (filter_separated w g r _ I). induction ns as [|n ns IH]; [reflexivity|]. cbn [map flat_map]. now rewrite outline_app, (tree_outline w g r show I), IH.
Qed.
Lemma format_outline w g r f : In (w, g, r) signs -> filter (begins w) (format_lines f) = [].
Proof. intros I. apply (unmarked_none w g r _ I). destruct f as [[]|]; repeat constructor. Qed.
Lemma items_inner ns : forall i, map (fun x : item => match x with (_, t, _) => t end) (flat_map (items i) ns) = flat_map preorder ns.
Proof.
  assert (T : forall n i, map (fun x : item => match x with (_, t, _) => t end) (items i n) = preorder n).
  { fix IH 1. intros [t c] i. cbn [items preorder map]. apply f_equal. induction c as [|n c IHc]; [reflexivity|]. cbn [flat_map]. now rewrite map_app, IH, IHc. }
  intros i. induction ns as [|n ns IH]; [reflexivity|]. cbn [flat_map]. now rewrite map_app, T, IH.
Qed.

Lemma filter_permutes {A} (f : A -> bool) x y : Permutation x y -> Permutation (filter f x) (filter f y).
Proof. induction 1 as [|z x y P IH|z z' x|x y z P1 IH1 P2 IH2]; cbn [filter]; [constructor|destruct (f z); [now constructor|exact IH]|destruct (f z), (f z'); try reflexivity; constructor|now transitivity (filter f y)]. Qed.

(** C129: the outline of TLV data. *)
(* The lines that begin with a mark are those of the objects marked, in the order of the data and at their depth; sorted, they are the same lines in another order. *)
Theorem C129_lines : forall p masks sort op s f ns ls w g r, text64 p s -> tlv_block masks op s f ns -> sheet masks sort op s ls -> In (w, g, r) signs ->
  if sort then Permutation (filter (begins w) ls) (map (mark r) (filter (marked g) (flat_map (items 0) ns)))
  else filter (begins w) ls = map (mark r) (filter (marked g) (flat_map (items 0) ns)).
Proof.
  intros p masks sort op s f ns ls w g r T B H I. destruct (sheet_of_block p masks sort op s f ns ls T B H) as (m & -> & A). rewrite filter_app, (format_outline w g r f I). cbn [app]. fold (outline g r (flat_map (items 0) ns)). rewrite <- (forest_outline w g r true ns 0 I). destruct sort.
  - apply Permutation_sym. pose proof (in_order_lines ns m A 0 true) as P. now apply filter_permutes.
  - now subst m.
Qed.
(* So they can be counted. *)
Theorem C129_count : forall p masks sort op s f ns ls w g r, text64 p s -> tlv_block masks op s f ns -> sheet masks sort op s ls -> In (w, g, r) signs ->
  List.length (filter (begins w) ls) = List.length (filter (marked g) (flat_map (items 0) ns)).
Proof.
  intros p masks sort op s f ns ls w g r T B H I. pose proof (C129_lines p masks sort op s f ns ls w g r T B H I) as L. destruct sort; [apply Permutation_length in L; rewrite L|rewrite L]; apply map_length.
Qed.
Theorem C129_objects : forall p masks sort op s f ns ls, text64 p s -> tlv_block masks op s f ns -> sheet masks sort op s ls ->
  List.length (filter (begins (lit "Tag: 0x")) ls) = forest_count ns.
Proof.
  intros p masks sort op s f ns ls T B H. rewrite (C129_count p masks sort op s f ns ls _ (fun _ _ => true) (fun i t => tag_row i t (tag_title t)) T B H) by (unfold signs; now left).
  assert (F : forall l : list item, filter (marked (fun _ _ => true)) l = l) by (induction l as [|[[i t] b] l IH]; [reflexivity|cbn [filter marked]; now rewrite IH]). rewrite F, <- (map_length (fun x : item => match x with (_, t, _) => t end)), items_inner.
  clear. assert (N : forall n, List.length (preorder n) = node_count n).
  { fix IH 1. intros [t c]. cbn [preorder node_count List.length]. apply f_equal. induction c as [|n c IHc]; [reflexivity|]. cbn [flat_map map list_sum fold_right]. rewrite app_length, IH, IHc. reflexivity. }
  unfold forest_count. induction ns as [|n ns IH]; [reflexivity|]. cbn [flat_map map]. rewrite app_length, N, IH. reflexivity.
Qed.
(* One tag: its lines are as many as its objects. *)
Lemma prefixed_iff w : forall s, prefixed w s = true <-> exists rest, s = w ++ rest.
Proof.
  induction w as [|a w IH]; intros s; cbn [prefixed]; [split; [intros _; now exists s|reflexivity]|]. destruct s as [|b s]; [split; [discriminate|intros (x & X); discriminate X]|]. rewrite andb_true_iff, N.eqb_eq, IH. split.
  - intros (-> & x & ->). now exists x.
  - intros (x & X). injection X as -> ->. eauto.
Qed.
Lemma prefixed_app w v s : prefixed (w ++ v) s = true -> prefixed w s = true.
Proof. rewrite !prefixed_iff. intros (x & ->). exists (v ++ x). now rewrite app_assoc. Qed.
Lemma prefixed_same w v s : prefixed (w ++ v) (w ++ s) = prefixed v s.
Proof. induction w as [|a w IH]; [reflexivity|]. cbn [app prefixed]. now rewrite N.eqb_refl. Qed.
Theorem C129_tag : forall p masks sort op s f ns ls t, text64 p s -> tlv_block masks op s f ns -> sheet masks sort op s ls -> bytes_ok t ->
  List.length (filter (begins (lit "Tag: 0x" ++ hex_text t ++ lit " - ")) ls) = List.length (filter (fun x => same_bytes (rt_tag x) t) (flat_map preorder ns)).
Proof.
  intros p masks sort op s f ns ls t T B H Bt. set (v := lit "Tag: 0x" ++ hex_text t ++ lit " - "). pose (w := lit "Tag: 0x").
  assert (I : In (w, (fun _ _ : _ => true), fun i t => tag_row i t (tag_title t)) signs) by (unfold signs; now left).
  assert (E : filter (begins v) ls = filter (begins v) (filter (begins w) ls)).
  { clear. induction ls as [|l ls IH]; [reflexivity|]. cbn [filter]. destruct (begins v l) eqn:X.
    - assert (Y : begins w l = true) by (unfold begins, v in *; now apply prefixed_app in X). rewrite Y. cbn [filter]. now rewrite X, IH.
    - destruct (begins w l); [cbn [filter]; now rewrite X|exact IH]. }
  rewrite E. pose proof (C129_lines p masks sort op s f ns ls w _ _ T B H I) as L. assert (G : forest_ok ns).
  { destruct (tlv_op _ _ _ _ _ B) as [_ K]. destruct (K p) as [x X]. destruct (tlv_settles p masks op s x T X) as (Y & _ & _ & _ & _ & G). apply (G f ns). now apply Y. }
  assert (F : forall l : list item, filter (marked (fun _ _ => true)) l = l) by (clear; induction l as [|[[i t'] b] l IH]; [reflexivity|cbn [filter marked]; now rewrite IH]). rewrite F in L.
  transitivity (List.length (filter (begins v) (map (mark (fun i t => tag_row i t (tag_title t))) (flat_map (items 0) ns)))).
  { destruct sort; [apply Permutation_length; now apply filter_permutes|now rewrite L]. }
  unfold forest_ok in G. rewrite <- (items_inner ns 0) in *. clear - G Bt. induction (flat_map (items 0) ns) as [|[[i t'] b] l IH]; [reflexivity|]. cbn [map] in *. apply Forall_cons_iff in G. destruct G as [[G _] Gl]. specialize (IH Gl). cbn [filter mark].
  assert (X : begins v (tag_row i t' (tag_title t')) = same_bytes (rt_tag t') t).
  { unfold begins, tag_row, row, v. cbn [l_spans flat_map snd]. rewrite app_nil_r, !app_assoc. change (lit "Tag:" ++ lit " 0x") with (lit "Tag: 0x"). rewrite <- !app_assoc. rewrite prefixed_same. change (hex_text t) with (flat_map byte_text t). apply eq_true_iff_eq. rewrite same_bytes_eq, prefixed_iff. split.
    - intros (rest & R). rewrite <- app_assoc in R. apply (bytes_text_inj (rt_tag t') t) in R; [apply R|exact G|exact Bt].
    - intros ->. eexists. rewrite <- app_assoc. reflexivity. }
  rewrite X. destruct (same_bytes (rt_tag t') t); cbn [List.length]; now rewrite IH.
Qed.
(* Counting in the text that a run writes. *)
Lemma cut_one a t : one_line a -> cut_lines (a ++ 10 :: t) = a :: cut_lines t.
Proof.
  unfold one_line. induction a as [|c a IH]; intros N; [reflexivity|]. cbn [app cut_lines]. cbn [In] in N. destruct (N.eqb_spec c 10) as [E|E]; [exfalso; apply N; now left|]. rewrite IH; [reflexivity|tauto].
Qed.
Lemma cut_texts ls : Forall one_line (texts ls) -> cut_lines (characters ls) = texts ls.
Proof. induction ls as [|l ls IH]; intros F; [reflexivity|]. cbn [texts map] in F. apply Forall_cons_iff in F. destruct F as [F1 F2]. rewrite characters_cons, cut_one by exact F1. cbn [texts map]. now rewrite (IH F2). Qed.
Lemma untabbed_line w l lo hi : line_between lo hi l -> prefixed w (untabbed (line_text l)) = begins w l.
Proof.
  intros B. unfold begins, line_text. generalize (N.to_nat (l_tabs l mod 256)) as k. assert (V : match flat_map snd (l_spans l) with [] => True | c :: _ => c <> 9 end).
  { destruct B as [->|(_ & _ & V)]; [exact I|]. assert (X : Forall (fun c => c <> 9) (flat_map snd (l_spans l))); [|destruct X; auto]. apply Forall_flat_map. eapply Forall_impl; [|exact V]. intros sp S. unfold visible in S. eapply Forall_impl; [|exact S]. cbv beta. intros c Hc. intros ->. destruct Hc as [[Hc _]|Hc]; [now apply Hc|lia]. }
  generalize dependent (flat_map snd (l_spans l)). intros body V k. assert (U : untabbed (repeat 9 k ++ body) = body); [|now rewrite U].
  induction k as [|k IH]; [|exact IH]. cbn [repeat app]. destruct body as [|c body]; [reflexivity|]. cbn [untabbed]. destruct (N.eqb_spec c 9); [contradiction|reflexivity].
Qed.
Lemma counted p masks sort op s ls w : text64 p s -> sheet masks sort op s ls -> lines_with w (characters ls) = List.length (filter (begins w) ls).
Proof.
  intros T H. unfold lines_with. rewrite cut_texts by now apply (sheet_one_line p masks sort op s). assert (B := proj2 (C73_sheet p _ _ op s ls (deepest ls) T) (conj H eq_refl)). pose proof (breakdown_between p _ _ op s ls _ T B) as F. assert (G : Forall (fun l => exists lo hi, line_between lo hi l) ls) by (eapply Forall_impl; [|exact F]; cbv beta; eauto). clear - G.
  induction G as [|l ls (lo & hi & L) _ IH]; [reflexivity|]. cbn [texts map filter]. rewrite (untabbed_line w l _ _ L). unfold texts in IH. destruct (begins w l); cbn [List.length]; now rewrite IH.
Qed.
Theorem C129_program : forall p e m st op s f ns ls w g r, shows p e m st op s ls -> tlv_block (set_masking st) op s f ns -> In (w, g, r) signs ->
  lines_with w (text_of (o_stdout (run_main p e m))) = List.length (filter (marked g) (flat_map (items 0) ns)).
Proof.
  intros p e m st op s f ns ls w g r (L & C & T & H & F) B I. rewrite (C82_written p e m st op s ls L C T H F), (counted p _ _ op s ls w T H). now apply (C129_count p (set_masking st) (set_sort st) op s f ns ls w g r).
Qed.
Theorem C129_program_objects : forall p e m st op s f ns ls t, shows p e m st op s ls -> tlv_block (set_masking st) op s f ns -> bytes_ok t ->
  lines_with (lit "Tag: 0x") (text_of (o_stdout (run_main p e m))) = forest_count ns
  /\ lines_with (lit "Tag: 0x" ++ hex_text t ++ lit " - ") (text_of (o_stdout (run_main p e m))) = List.length (filter (fun x => same_bytes (rt_tag x) t) (flat_map preorder ns)).
Proof.
  intros p e m st op s f ns ls t (L & C & T & H & F) B Bt. rewrite (C82_written p e m st op s ls L C T H F), !(counted p _ _ op s ls _ T H). split; [now apply (C129_objects p (set_masking st) (set_sort st) op s f ns)|now apply (C129_tag p (set_masking st) (set_sort st) op s f ns)].
Qed.
Example C129_example : exists ls ns, shows p64r plain_env (with_ber (lit "70085A01125F24020304")) (mkSettings TAuto [42] true) OpBer (lit "70085A01125F24020304") ls
  /\ tlv_block [42] OpBer (lit "70085A01125F24020304") None ns /\ forest_count ns = 3%nat /\ map (fun x : item => fst (fst x)) (flat_map (items 0) ns) = [0; 1; 1] /\ lines_with (lit "Tag: 0x5A - ") (text_of (o_stdout (run_main p64r plain_env (with_ber (lit "70085A01125F24020304"))))) = 1%nat.
Proof.
  destruct (shown_ber (lit "70085A01125F24020304")) as (ls & S); [split; vm_compute; reflexivity|vm_compute; reflexivity|]. exists ls. eexists.
  assert (B : tlv_block [42] OpBer (lit "70085A01125F24020304") None _) by (constructor; apply (ber_block_iff p64r); [split; vm_compute; reflexivity|vm_compute; reflexivity]).
  split; [exact S|]. split; [exact B|]. split; [vm_compute; reflexivity|]. split; [vm_compute; reflexivity|]. change (lit "Tag: 0x5A - ") with (lit "Tag: 0x" ++ hex_text [0x5A] ++ lit " - ").
  rewrite (proj2 (C129_program_objects p64r plain_env _ _ _ _ _ _ ls [0x5A] S B ltac:(repeat constructor))). vm_compute. reflexivity.
Qed.
