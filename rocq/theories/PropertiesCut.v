(** The properties of an argument that is cut short. *)

From Coq Require Import ZArith NArith String List Bool Lia ZifyN ZifyBool ZifyNat Permutation Sorting.
From Verif Require Import Base ModelUtil ModelEnums ModelBitflag ModelSchemas ModelTags ModelTlv ModelValues ModelProcess ModelDisplay
  SpecUtil SpecCodes SpecValues SpecTlv SpecIngenico SpecTags SpecProcess SpecDisplay
  ProofsUtil ProofsGrammar ProofsBer ProofsIngenico ProofsValues PropertiesValues
  PropertiesBer PropertiesIngenico ProofsProcess PropertiesProcess ProofsDisplay ProofsDiagram ProofsScreens ProofsLayout PropertiesDisplay
  SpecPictures ProofsPictures ModelMain SpecMain ProofsMain PropertiesMain ModelCli SpecCli ProofsCli PropertiesCli PropertiesPictures
  SpecReading PropertiesReading ModelTerminal SpecTerminal ProofsTerminal PropertiesTerminal SpecTells ProofsTells PropertiesTells SpecJoin PropertiesJoin.
Import ListNotations.
Local Open Scope N_scope.

(** ** Beginnings *)

Ltac among H := repeat match type of H with _ \/ _ => destruct H as [H|H] end; try contradiction.

Lemma digits_cut : forall a b, exists r, bytes_of_digits (a ++ b) = bytes_of_digits a ++ r.
Proof.
  intros a. induction a as [a IH] using length_ind. destruct a as [|x [|y a]]; intros b; [exists (bytes_of_digits b); reflexivity|eexists; reflexivity|].
  destruct (IH a ltac:(cbn [List.length]; lia) b) as [r E]. exists r. cbn [app bytes_of_digits]. now rewrite E.
Qed.
Lemma hex_cut a b : exists r, hex_bytes (a ++ b) = hex_bytes a ++ r.
Proof. unfold hex_bytes. rewrite filter_app. apply digits_cut. Qed.
Lemma objects_more l objs rest r : ber_objects l objs rest -> ber_objects (l ++ r) objs (rest ++ r).
Proof.
  induction 1 as [|l t v mid objs rest O _ IH]; [constructor|]. econstructor; [|exact IH].
  inversion O as [t' l' v' rest' T L E]; subst. rewrite <- !app_assoc. constructor; [assumption|assumption|]. intros F. specialize (E F). destruct v; [|discriminate]. destruct mid; [now destruct E|discriminate].
Qed.
Lemma text64_cut p a b : text64 p (a ++ b) -> text64 p a /\ text64 p b.
Proof. intros [T1 T2]. rewrite len_app in T2. repeat split; try assumption; lia. Qed.
Lemma text_cut masks a es : ing_text masks a es -> forall na, ing_nodes masks es na -> forall b, ascii_text (a ++ b) ->
  exists b', parse_text masks (a ++ b) = rmap (app na) (parse_text masks b').
Proof.
  assert (R : forall (r : res (list raw_node)), r = rmap (app []) r) by (intros []; reflexivity).
  assert (S : forall f e es na b, ing_field masks f e -> ing_nodes masks (e :: es) na -> ascii_text (f ++ b) ->
    (forall ns, ing_nodes masks es ns -> exists b', parse_text masks (tl b) = rmap (app ns) (parse_text masks b')) ->
    exists b', parse_text masks (f ++ b) = rmap (app na) (parse_text masks b')).
  { intros f e es0 na b F Hn Ha K. rewrite (parse_text_field masks f e b Ha F). apply ascii_app in Ha. destruct Ha as [Hf _].
    inversion Hn as [|e' es' ns' Ty Ns|e' es' n ns' Ty N1 Ns]; subst; destruct (K _ Ns) as (b' & ->); exists b'.
    - now rewrite (proj2 (N.eqb_neq _ _) Ty).
    - rewrite (proj2 (N.eqb_eq _ _) Ty), (proj2 (ing_child_node masks e n (fun v Hv => field_data_bytes masks f e v Hf F Hv)) N1). cbn [bind]. now destruct (parse_text masks b'). }
  induction 1 as [|f e F|f e sep rest es F P IH]; intros na Hn b Ha.
  - inversion Hn; subst. exists b. apply R.
  - apply (S f e [] na b F Hn Ha). intros ns Hs. inversion Hs; subst. exists (tl b). apply R.
  - rewrite <- app_assoc in *. cbn [app] in *. apply (S f e es na _ F Hn Ha). intros ns Hs. cbn [tl]. apply IH; [assumption|].
    apply ascii_app in Ha. destruct Ha as [_ Ha]. now apply ascii_cons in Ha.
Qed.

(* A beginning of BER-TLV or Ingenico data is refused or has the first of the objects. *)
Lemma cut_block p masks op a b f ns : text64 p (a ++ b) -> op = OpBer \/ op = OpIngenico -> tlv_block masks op (a ++ b) f ns ->
  (exists na nb, tlv_block masks op a f na /\ ns = na ++ nb) \/ refused masks op a NonCompliant.
Proof.
  intros T O B. destruct (text64_cut p a b T) as [Ta Tb]. destruct O as [->| ->].
  - assert (Bb : ber_block masks (a ++ b) ns) by (inversion B; assumption). assert (f = None) as -> by (inversion B; reflexivity).
    pose proof (hex_input64 p _ T) as I. rewrite <- hex_bytes_eq in I. pose proof (hex_input64 p _ Ta) as Ia. rewrite <- hex_bytes_eq in Ia.
    destruct (hex_cut a b) as [r E]. destruct (C09_ber_parse_settles p masks (hex_bytes a) Ia) as [[na X]|[er X]].
    + left. rewrite E in I. destruct (C14_ber_compositional p masks _ _ na I X) as [K1 K2].
      apply (ber_block_iff p) in Bb; [|assumption]. rewrite <- hex_bytes_eq, E in Bb.
      destruct (C09_ber_parse_settles p masks r) as [[nb Y]|[er Y]].
      { destruct I as (I1 & I2 & I3). split; [assumption|]. split; [now apply Forall_app in I2|]. rewrite len_app in I3. lia. }
      * rewrite (K1 _ Y) in Bb. injection Bb as <-. exists na, nb. split; [|reflexivity]. constructor. apply (ber_block_iff p); [assumption|]. now rewrite <- hex_bytes_eq.
      * rewrite (K2 _ Y) in Bb. discriminate.
    + right. destruct (C16_ber_error_kinds p masks _ er Ia X) as [-> | ->].
      * exfalso. apply (proj1 (C16_ber_unsupported p masks _ Ia)) in X. destruct X as (objs & t & l0 & rest & Os & Tg & L).
        apply (ber_block_iff p) in Bb; [|assumption]. rewrite <- hex_bytes_eq in Bb.
        rewrite (proj2 (C16_ber_unsupported p masks _ I)) in Bb; [discriminate|]. exists objs, t, l0, (rest ++ r). rewrite E.
        split; [|auto]. pose proof (objects_more _ _ _ r Os) as Z. rewrite <- app_assoc in Z. exact Z.
      * apply (proj1 (proj2 (tlv_settles p masks OpBer a (Err NonCompliant) Ta ltac:(cbn [tlv_result]; rewrite <- hex_bytes_eq, X; reflexivity))) NonCompliant eq_refl).
  - assert (Bi : ingenico_block masks (a ++ b) ns) by (inversion B; assumption). assert (f = None) as -> by (inversion B; reflexivity).
    destruct (C24_ingenico_otherwise p masks a Ta) as [[na X]|[X|X]].
    + left. pose proof X as Xa. apply (C24_ingenico_grammar p masks a na Ta) in X. destruct X as (Aa & es & G & Nn).
      destruct Bi as (A & es' & G' & Nn').
      destruct (text_cut masks a es G na Nn b A) as [b' Eb].
      pose proof (proj2 (parse_text_grammar masks (a ++ b) ns A) (ex_intro _ es' (conj G' Nn'))) as K. rewrite Eb in K. apply rmap_ok in K.
      destruct K as (nb & _ & ->). exists na, nb. split; [|reflexivity]. constructor. split; [assumption|]. eauto.
    + exfalso. apply (C24_ingenico_unsupported p masks a Ta) in X. destruct X as (Aa & before & es & ty & td & tag & ld & rest & -> & X).
      pose proof (proj1 Bi) as A. apply (ingenico_block_iff p) in Bi; [|assumption]. rewrite (proj2 (C24_ingenico_unsupported p masks _ T)) in Bi; [discriminate|].
      split; [assumption|]. exists before, es, ty, td, tag, ld, (rest ++ b). split; [|exact X]. now rewrite <- !app_assoc; cbn [app]; rewrite <- !app_assoc; cbn [app]; rewrite <- !app_assoc.
    + right. apply (proj1 (proj2 (tlv_settles p masks OpIngenico a (Err NonCompliant) Ta ltac:(cbn [tlv_result]; rewrite X; reflexivity))) NonCompliant eq_refl).
Qed.
Lemma forall2_permuted {A B : Type} (R : A -> B -> Prop) (l l' : list A) : Permutation l l' -> forall m, Forall2 R l m -> exists m', Permutation m m' /\ Forall2 R l' m'.
Proof.
  induction 1 as [|x l l' P IH|x y l|l l' l'' P IH P' IH']; intros m F.
  - inversion F; subst. exists []. split; constructor.
  - inversion F as [|x' b l0 m0 Rx F0]; subst. destruct (IH m0 F0) as (m' & P' & F'). exists (b :: m'). split; [now constructor|now constructor].
  - inversion F as [|x' b l0 m0 Ry F0]; subst. inversion F0 as [|x' c l1 m1 Rx F1]; subst. exists (c :: b :: m1). split; [constructor|repeat (constructor; try assumption)].
  - destruct (IH m F) as (m' & Q & F'). destruct (IH' m' F') as (m'' & Q' & F''). exists m''. split; [now transitivity m'|assumption].
Qed.
Lemma forall2_same {A B : Type} (R : A -> B -> Prop) l : (forall a b c, R a b -> R a c -> b = c) -> forall m m', Forall2 R l m -> Forall2 R l m' -> m = m'.
Proof. intros D. induction l as [|a l IH]; intros m m' F F'; inversion F; inversion F'; subst; [reflexivity|]. f_equal; [eapply D; eassumption|now apply IH]. Qed.
Lemma in_order_part na nb m ma : in_order (na ++ nb) m -> in_order na ma -> exists rest, Permutation m (ma ++ rest).
Proof.
  intros H Ha. inversion H as [l m1 l' P _ _ E]; subst. inversion Ha as [la m2 la' Pa _ _ Ea]; subst. apply each_forall in E, Ea.
  assert (Q : Permutation m1 (m2 ++ nb)) by (now rewrite <- P, Pa). destruct (forall2_permuted _ _ _ Q m E) as (m' & Q' & F).
  apply Forall2_app_inv_l in F. destruct F as (x & y & Fx & _ & ->). exists y. now rewrite (forall2_same _ _ node_in_order_det _ _ Ea Fx).
Qed.

(** C90: an argument that is cut short. *)
(* BER-TLV and Ingenico data that has lost its end is refused as malformed, or all that is
   shown would also be shown for the whole. *)
Theorem C90_tlv : forall p masks sort op a b ls, text64 p (a ++ b) -> op = OpBer \/ op = OpIngenico -> sheet masks sort op (a ++ b) ls ->
  refused masks op a NonCompliant
  \/ exists ma m rest, sheet masks sort op a (forest_lines ma 0 true) /\ ls = forest_lines m 0 true /\ (if sort then Permutation m (ma ++ rest) else m = ma ++ rest).
Proof.
  intros p masks sort op a b ls T O H. destruct (text64_cut p a b T) as [Ta _].
  assert (B : exists ns m, tlv_block masks op (a ++ b) None ns /\ Forall (fun t => forall e, ~ tag_fails t e) (flat_map preorder ns) /\ ls = forest_lines m 0 true /\ if sort then in_order ns m else m = ns).
  { inversion H as [g q I E|n O' D N|f' ns m B' N A]; subst.
    - exfalso. unfold byte_operations in I. cbn [In] in I. destruct O; subst; repeat (destruct I as [I|I]; [discriminate|]); destruct I.
    - destruct O; discriminate.
    - exists ns, m. inversion B'; subst; try (destruct O; discriminate); auto. }
  destruct B as (ns & m & B & N & -> & A). destruct (cut_block p masks op a b None ns T O B) as [(na & nb & Ba & ->)|R]; [right|now left].
  rewrite flat_map_app, Forall_app in N. destruct N as [N _].
  assert (X : exists ma, if sort then in_order na ma else ma = na).
  { destruct sort; [|now exists na]. destruct (C73_total p masks true op a Ta) as [(la & Ha & _)|(e & R & _ & K)].
    - destruct (sheet_of_block p masks true op a None na la Ta Ba Ha) as (ma & _ & X). now exists ma.
    - exfalso. pose proof (tlv_settles p masks op a) as S. assert (Y : exists r, tlv_result p masks op a = Some r) by (destruct O; subst; eexists; reflexivity).
      destruct Y as [r Y]. destruct (S r Ta Y) as (S1 & _ & S3 & _). apply S1 in Ba. destruct (S3 e R) as [Z|(f & ns & Z & before & t & after & E1 & _ & E3)]; [congruence|].
      rewrite Ba in Z. injection Z as <- <-. rewrite Forall_forall in N. apply (N t) with e; [|assumption]. rewrite E1. apply in_elt. }
  destruct X as [ma X]. exists ma, m.
  assert (S : sheet masks sort op a (forest_lines ma 0 true)) by (apply (sheet_block masks sort op a None na ma Ba N X)).
  destruct sort.
  - destruct (in_order_part na nb m ma A X) as [rest Q]. exists rest. auto.
  - subst. exists nb. auto.
Qed.
(* Unsorted, that is a beginning of the screen. *)
Theorem C90_beginning : forall p masks op a b ls, text64 p (a ++ b) -> op = OpBer \/ op = OpIngenico -> sheet masks false op (a ++ b) ls ->
  refused masks op a NonCompliant \/ exists la rest, sheet masks false op a la /\ ls = below la rest.
Proof.
  intros p masks op a b ls T O H. destruct (C90_tlv p masks false op a b ls T O H) as [R|(ma & m & rest & S & -> & ->)]; [now left|right].
  exists (forest_lines ma 0 true), (forest_lines rest 0 true). split; [assumption|apply forest_app].
Qed.
(* Values of a fixed length are refused as soon as one byte is missing. *)
Definition value_lengths : list (operation * N) := [(OpTvr, 5); (OpCvr, 5); (OpTsi, 2); (OpCvmResults, 3)].
Theorem C90_fixed : forall p masks sort op n a b ls, text64 p (a ++ b) -> In (op, n) value_lengths -> sheet masks sort op (a ++ b) ls ->
  len (hex_bytes (a ++ b)) = n
  /\ (if len (hex_bytes a) =? n then sheet masks sort op a ls else refused masks op a (ByteCountIncorrect Eq n (len (hex_bytes a)))).
Proof.
  intros p masks sort op n a b ls T O H. destruct (hex_cut a b) as [r E].
  assert (L : len (hex_bytes (a ++ b)) = n /\ (hex_bytes (a ++ b) = hex_bytes a -> sheet masks sort op a ls)).
  { inversion H as [g q I X|n' O' D N|f' ns m B' N A]; subst.
    - split; [|intros Y; rewrite Y in X; now apply (sheet_value masks sort op a g q)].
      unfold value_lengths in O. cbn [In] in O. unfold byte_operations in I. cbn [In] in I.
      among O; injection O as <- <-; among I; try discriminate; injection I as <-.
      all: unfold bits_picture, cvm_results_picture in X.
      all: try (destruct (len (hex_bytes (a ++ b)) =? _) eqn:Z; [now apply N.eqb_eq in Z|discriminate]).
      destruct (hex_bytes (a ++ b)) as [|x [|y [|z [|]]]]; try discriminate. reflexivity.
    - exfalso. unfold value_lengths in O. cbn [In] in O. repeat (destruct O as [O|O]; [discriminate|]). destruct O.
    - exfalso. unfold value_lengths in O. cbn [In] in O. inversion B'; subst; repeat (destruct O as [O|O]; [discriminate|]); destruct O. }
  destruct L as [L S]. split; [assumption|]. destruct (N.eqb_spec (len (hex_bytes a)) n) as [K|K].
  - apply S. rewrite E in L |- *. rewrite len_app in L. destruct r; [now rewrite app_nil_r|]. unfold len in *. cbn [List.length] in L. lia.
  - unfold value_lengths in O. cbn [In] in O. among O; injection O as <- <-; constructor; try assumption.
    all: constructor; [cbn [fixed_lengths In]; tauto|assumption].
Qed.
Theorem C90_iad : forall p masks sort a b ls, text64 p (a ++ b) -> sheet masks sort OpIad (a ++ b) ls ->
  len (hex_bytes (a ++ b)) = 32 /\ (if len (hex_bytes a) =? 32 then sheet masks sort OpIad a ls else refused masks OpIad a NonCcdCompliant).
Proof.
  intros p masks sort a b ls T H. destruct (hex_cut a b) as [r E].
  inversion H as [g q I X|n' O' D N|f' ns m B' N A]; subst; [|discriminate|inversion B'].
  unfold byte_operations in I. cbn [In] in I. among I; try discriminate; injection I as <-.
  assert (L : len (hex_bytes (a ++ b)) = 32).
  { unfold iad_picture in X. destruct (len (hex_bytes (a ++ b)) =? 32) eqn:Z; [now apply N.eqb_eq in Z|discriminate]. }
  split; [assumption|]. destruct (N.eqb_spec (len (hex_bytes a)) 32) as [K|K].
  - assert (Y : hex_bytes (a ++ b) = hex_bytes a).
    { rewrite E in L |- *. rewrite len_app in L. destruct r; [now rewrite app_nil_r|]. unfold len in *. cbn [List.length] in L. lia. }
    rewrite Y in X. apply (sheet_value masks sort OpIad a iad_picture q); [cbn [byte_operations In]; tauto|assumption].
  - constructor. intros (cci & dki & cvr & counters & rest & La & _). apply K. clear - La. destruct La as (-> & L1 & L2 & L3). unfold len. cbn [List.length]. rewrite !app_length. cbn [List.length]. rewrite L1, L2, L3. reflexivity.
Qed.
(* A CVM list without its end is refused, or shown with the first of the rules. *)
Lemma rules_cut i : forall d k r, len d mod 2 = 0 -> exists rest, rules_picture i k (d ++ r) = rules_picture i k d ++ rest.
Proof.
  intros d. induction d as [d IH] using length_ind. intros k r E. destruct d as [|x [|y d]].
  - eexists. reflexivity.
  - discriminate E.
  - destruct (IH d ltac:(cbn [List.length]; lia) (k + 1) r) as [rest Q].
    + replace (len (x :: y :: d)) with (len d + 1 * 2) in E by (unfold len; cbn [List.length]; lia). now rewrite N.mod_add in E by lia.
    + exists rest. cbn [app rules_picture]. now rewrite Q.
Qed.
Lemma mentions_cut : forall d r, len d mod 2 = 0 -> mentions_amount d = true -> mentions_amount (d ++ r) = true.
Proof.
  intros d. induction d as [d IH] using length_ind. intros r E. destruct d as [|x [|y d]]; cbn [mentions_amount app]; try discriminate.
  rewrite !orb_true_iff. intros [H|H]; [now left|right]. apply IH; [cbn [List.length]; lia| |assumption].
  replace (len (x :: y :: d)) with (len d + 1 * 2) in E by (unfold len; cbn [List.length]; lia). now rewrite N.mod_add in E by lia.
Qed.
Theorem C90_cvm_list : forall p masks sort a b ls, text64 p (a ++ b) -> sheet masks sort OpCvmList (a ++ b) ls ->
  len (hex_bytes a) < 8 /\ refused masks OpCvmList a (ByteCountIncorrect Gt 8 (len (hex_bytes a)))
  \/ len (hex_bytes a) mod 2 = 1 /\ refused masks OpCvmList a ByteCountNotDivisibleIntoComponents
  \/ exists la amounts rules rest, sheet masks sort OpCvmList a la
    /\ ls = amounts ++ heading_row 0 (lit "Cardholder Verification Rules:") :: rules ++ rest
    /\ (la = amounts ++ heading_row 0 (lit "Cardholder Verification Rules:") :: rules \/ la = heading_row 0 (lit "Cardholder Verification Rules:") :: rules).
Proof.
  intros p masks sort a b ls T H. destruct (hex_cut a b) as [r E].
  inversion H as [g q I X|n' O' D N|f' ns m B' N A]; subst; [|discriminate|inversion B'].
  unfold byte_operations in I. cbn [In] in I. among I; try discriminate; injection I as <-.
  destruct (N.lt_ge_cases (len (hex_bytes a)) 8) as [K|K]; [left; split; [assumption|constructor; now constructor]|right].
  assert (M : len (hex_bytes a) mod 2 = 1 \/ len (hex_bytes a) mod 2 = 0) by (pose proof (N.mod_lt (len (hex_bytes a)) 2); lia).
  destruct M as [M|M]; [left; split; [assumption|constructor; now constructor]|right].
  unfold cvm_list_picture in X. destruct ((8 <=? len (hex_bytes (a ++ b))) && (len (hex_bytes (a ++ b)) mod 2 =? 0)); [|discriminate].
  apply (f_equal (fun o => match o with Some x => x 0 true | None => [] end)) in X. cbv beta iota zeta in X. rewrite <- X. clear H X q.
  set (d := hex_bytes a) in *. rewrite E.
  assert (L : (8 <= List.length d)%nat) by (unfold len in K; lia).
  assert (F : firstn 4 (d ++ r) = firstn 4 d) by (rewrite firstn_app; replace (4 - List.length d)%nat with 0%nat by lia; apply app_nil_r).
  assert (G : firstn 4 (skipn 4 (d ++ r)) = firstn 4 (skipn 4 d)).
  { rewrite skipn_app. replace (4 - List.length d)%nat with 0%nat by lia. rewrite (skipn_O r), firstn_app, skipn_length.
    replace (4 - (List.length d - 4))%nat with 0%nat by lia. apply app_nil_r. }
  assert (S : skipn 8 (d ++ r) = skipn 8 d ++ r) by (rewrite skipn_app; replace (8 - List.length d)%nat with 0%nat by lia; reflexivity).
  assert (M' : len (skipn 8 d) mod 2 = 0).
  { replace (len d) with (len (skipn 8 d) + 4 * 2) in M by (unfold len; rewrite skipn_length; lia). now rewrite N.mod_add in M by lia. }
  assert (P : exists q, cvm_list_picture d = Some q) by (unfold cvm_list_picture; rewrite (proj2 (N.leb_le _ _) K), (proj2 (N.eqb_eq _ _) M); eexists; reflexivity).
  destruct P as [q P]. pose proof (sheet_value masks sort OpCvmList a cvm_list_picture q ltac:(cbn [byte_operations In]; tauto) P) as Sa.
  unfold cvm_list_picture in P. rewrite (proj2 (N.leb_le _ _) K), (proj2 (N.eqb_eq _ _) M) in P. cbn [andb] in P.
  apply (f_equal (fun o => match o with Some x => x 0 true | None => [] end)) in P. cbv beta iota zeta in P. rewrite <- P in Sa. clear P.
  destruct (rules_cut 0 (skipn 8 d) 1 r M') as [rest Q]. rewrite F, G, S, Q.
  do 4 eexists. split; [exact Sa|]. split; [reflexivity|].
  destruct ((be_value (firstn 4 d) =? 0) && (be_value (firstn 4 (skipn 4 d)) =? 0)); cbn [andb]; [|now left].
  destruct (mentions_amount (skipn 8 d)) eqn:W; [rewrite (mentions_cut _ r M' W); now left|]. now right.
Qed.
Lemma no_failure t : existsb (fun x => same_bytes x (rt_tag t)) ([0x8E] :: map fst fixed_lengths) = false -> forall e, ~ tag_fails t e.
Proof.
  intros H e (d & _ & K). rewrite <- not_true_iff_false in H. apply H, existsb_exists. exists (rt_tag t). split; [|now apply same_bytes_eq].
  remember (rt_tag t) as u eqn:Eu. clear - K. destruct K as [u n d I _| | | | | | |]; [right; apply in_map_iff; now exists (u, n)|..]; cbn [map fixed_lengths fst In]; tauto.
Qed.
(* The other operations cannot tell: what is left may be another value. *)
Definition open_ended : list operation := [OpCvmList; OpIdentify; OpServiceCode; OpAuto].
Theorem C90_open_ended_refuted : forall op, In op open_ended -> exists a b la ls,
  sheet [42] true op a la /\ sheet [42] true op (a ++ b) ls /\ ~ exists rest, ls = la ++ rest.
Proof.
  assert (X : forall op s f q, In (op, f) byte_operations -> f (hex_bytes s) = Some q -> sheet [42] true op s (q 0 true)) by (intros; econstructor; eassumption).
  assert (D : forall (la ls : list line) l l', nth_error la 0 = Some l -> nth_error ls 0 = Some l' -> line_text l <> line_text l' -> ~ exists rest, ls = la ++ rest).
  { intros la ls l l' E E' K [rest ->]. destruct la as [|x la]; [discriminate|]. cbn [nth_error app] in E, E'. congruence. }
  intros op I. unfold open_ended in I. cbn [In] in I. among I; subst op.
  - exists (lit "0000000000000000 0101"), (lit "0206"). do 2 eexists.
    split; [apply (X _ _ cvm_list_picture); [cbn [byte_operations In]; tauto|reflexivity]|].
    split; [apply (X _ _ cvm_list_picture); [cbn [byte_operations In]; tauto|reflexivity]|].
    eapply D; [reflexivity|reflexivity|]. vm_compute. intros K. discriminate K.
  - exists (lit "9F"), (lit "02"). do 2 eexists.
    split; [apply (X _ _ identify_picture); [cbn [byte_operations In]; tauto|reflexivity]|].
    split; [apply (X _ _ identify_picture); [cbn [byte_operations In]; tauto|reflexivity]|].
    eapply D; [reflexivity|reflexivity|]. vm_compute. intros K. discriminate K.
  - exists (lit "20"), (lit "1"), (service_picture 20 0 true), (service_picture 201 0 true).
    split; [apply sheet_service_code; [reflexivity|apply parse_str_to_u16_spec; vm_compute; reflexivity|lia]|].
    split; [apply sheet_service_code; [reflexivity|apply parse_str_to_u16_spec; vm_compute; reflexivity|lia]|].
    eapply D; [reflexivity|reflexivity|]. vm_compute. intros K. discriminate K.
  - exists (lit "T9F01:00"), (lit ":h").
    assert (N : forall ns, Forall (fun t => forall e, ~ tag_fails t e) (flat_map preorder [RawNode (mkRawTag [0x9F; 1] TagClass_ContextSpecific Primitive (Normal ns)) []])).
    { intros ns. constructor; [|constructor]. now apply no_failure. }
    exists (format_lines (Some BerTlv) ++ forest_lines [RawNode (mkRawTag [0x9F; 1] TagClass_ContextSpecific Primitive (Normal [])) []] 0 true).
    exists (format_lines (Some Ingenico) ++ forest_lines [RawNode (mkRawTag [0x9F; 1] TagClass_ContextSpecific Primitive (Normal [])) []] 0 true).
    assert (O : forall t, rt_tag t = [0x9F; 1] -> in_order [RawNode t []] [RawNode t []]).
    { intros t _. apply (in_order_intro _ [RawNode t []]); [reflexivity|repeat constructor|reflexivity|]. repeat constructor. apply (in_order_intro _ []); constructor. }
    split; [|split].
    + eapply sheet_block; [|apply N|apply O; reflexivity]. assert (T : text64 p64 (lit "T9F01:00")) by (split; vm_compute; reflexivity).
      apply (tlv_settles p64 [42] OpAuto (lit "T9F01:00") _ T eq_refl). vm_compute. reflexivity.
    + eapply sheet_block; [|apply N|apply O; reflexivity]. assert (T : text64 p64 (lit "T9F01:00" ++ lit ":h")) by (split; vm_compute; reflexivity).
      apply (tlv_settles p64 [42] OpAuto (lit "T9F01:00" ++ lit ":h") _ T eq_refl). vm_compute. reflexivity.
    + eapply D; [reflexivity|reflexivity|]. vm_compute. intros K. discriminate K.
Qed.
(* The same for the program. *)
Theorem C90_program : forall p e e' m m' st st' op a b ls, load_settings e m = Ok st -> load_settings e' m' = Ok st' ->
  set_masking st' = set_masking st -> set_sort st = false -> set_sort st' = false -> op = OpBer \/ op = OpIngenico ->
  chosen m op a -> chosen m' op (a ++ b) -> text64 p (a ++ b) -> sheet (set_masking st) false op (a ++ b) ls -> fits p (deepest ls) ->
  displays (run_main p e' m') ls
  /\ (complains (run_main p e m) NonCompliant \/ exists la rest, displays (run_main p e m) la /\ ls = below la rest).
Proof.
  intros p e e' m m' st st' op a b ls L L' M S S' O C C' T H F. destruct (text64_cut p a b T) as [Ta _]. split.
  - apply (C73_shown p e' m' st' op _ ls L' C' T); [now rewrite M, S'|assumption].
  - destruct (C90_beginning p _ op a b ls T O H) as [R|(la & rest & Ha & ->)]; [left; exact (C61_refused p e m st op a _ L C Ta R)|right].
    exists la, rest. split; [|reflexivity]. apply (C73_shown p e m st op _ la L C Ta); [now rewrite S|].
    intros V. specialize (F V). unfold below in F. destruct la as [|l1 la]; [reflexivity|]. destruct rest as [|l2 rest]; [assumption|].
    eapply N.le_lt_trans; [|exact F]. unfold deepest. rewrite map_app, fold_right_app. clear.
    generalize (map l_tabs (l1 :: la)) as t. generalize (fold_right N.max 0 (map l_tabs (blank :: l2 :: rest))) as z. intros z t.
    induction t as [|x t IH]; cbn [fold_right]; lia.
Qed.
Example C90_example : exists la ls ma, sheet [42] false OpBer (lit "9A03210131" ++ lit "9F370411111111") ls /\ sheet [42] false OpBer (lit "9A03210131") la /\ la <> ls
  /\ refused [42] OpBer (lit "9A03210131" ++ lit "9F370411") NonCompliant /\ sheet [42] false OpTsi (lit "E8 00") ma /\ refused [42] OpTsi (lit "E8 0") (ByteCountIncorrect Eq 2 1).
Proof.
  set (n := RawNode (mkRawTag [0x9A] TagClass_ContextSpecific Primitive (Normal [0x21; 0x01; 0x31])) []).
  set (n' := RawNode (mkRawTag [0x9F; 0x37] TagClass_ContextSpecific Primitive (Normal [0x11; 0x11; 0x11; 0x11])) []).
  assert (G : forall s, len s < 1000 -> text64 p64 s) by (intros s K; split; [reflexivity|]; lia).
  exists (forest_lines [n] 0 true), (forest_lines [n; n'] 0 true).
  eexists. split; [|split; [|split; [|split; [|split]]]].
  - apply (sheet_block [42] false OpBer _ None [n; n']); [|repeat constructor; now apply no_failure|reflexivity].
    apply (tlv_settles p64 [42] OpBer (lit "9A03210131" ++ lit "9F370411111111") _ (G (lit "9A03210131" ++ lit "9F370411111111") eq_refl) eq_refl). vm_compute. reflexivity.
  - apply (sheet_block [42] false OpBer _ None [n]); [|repeat constructor; now apply no_failure|reflexivity].
    apply (tlv_settles p64 [42] OpBer (lit "9A03210131") _ (G (lit "9A03210131") eq_refl) eq_refl). vm_compute. reflexivity.
  - intros K. apply (f_equal (@List.length line)) in K. vm_compute in K. discriminate K.
  - apply (proj1 (proj2 (tlv_settles p64 [42] OpBer (lit "9A03210131" ++ lit "9F370411") _ (G (lit "9A03210131" ++ lit "9F370411") eq_refl) eq_refl))). vm_compute. reflexivity.
  - apply (sheet_value _ _ _ _ (bits_picture 2 tsi_bits tsi_used)); [cbn [byte_operations In]; tauto|reflexivity].
  - constructor. change 1 with (len (hex_bytes (lit "E8 0"))). constructor; [cbn [fixed_lengths In]; tauto|]. vm_compute. intros K. discriminate K.
Qed.
