(** The property of values that are a single code. *)

From Coq Require Import ZArith NArith Ascii String List Bool Lia ZifyN ZifyBool ZifyNat Permutation Sorting.
From Verif Require Import Base ModelUtil ModelEnums ModelBitflag ModelSchemas ModelTags ModelTlv ModelValues ModelProcess ModelDisplay
  SpecUtil SpecCodes SpecValues SpecTlv SpecIngenico SpecTags SpecProcess SpecDisplay
  ProofsUtil ProofsGrammar ProofsBer ProofsIngenico ProofsValues PropertiesValues
  PropertiesBer PropertiesIngenico ProofsProcess PropertiesProcess ProofsDisplay ProofsDiagram ProofsScreens ProofsLayout PropertiesDisplay
  SpecPictures ProofsPictures ModelMain SpecMain ProofsMain PropertiesMain ModelCli SpecCli ProofsCli PropertiesCli PropertiesPictures
  SpecReading PropertiesReading SpecSame PropertiesSame SpecJoin PropertiesJoin PropertiesCut SpecCopied PropertiesCopied SpecMatch SpecExplain PropertiesExplain SpecCoded.
Import ListNotations.
Local Open Scope N_scope.

(* The codes of a tag with their texts. *)
Definition codes_of (t : list N) : list (list N * string) :=
  if same_bytes t [0x8A] then map (fun r => (lit (fst (fst r)), snd r)) arc_codes
  else if same_bytes t [0x9C] then map (fun r => ([fst (fst r)], snd r)) transaction_type_codes
  else if same_bytes t [0x9F; 0x35] then map (fun r => ([fst (fst r)], snd r)) terminal_type_codes
  else map (fun r => ([fst (fst r)], snd r)) pos_entry_mode_codes.
Lemma find_code_in {A : Type} (table : list (N * A * string)) b r : find_code table b = Some r -> In ([b], snd r) (map (fun r => ([fst (fst r)], snd r)) table).
Proof.
  induction table as [|[[c a] s] t IH]; cbn [find_code map In]; [discriminate|]. destruct (N.eqb_spec c b) as [->|]; [|auto]. intros E. injection E as <-. now left.
Qed.
Lemma code_line {A : Type} (table : list (N * A * string)) d q : code_picture table d = Some q -> exists w, In (d, w) (map (fun r => ([fst (fst r)], snd r)) table) /\ forall i show, q i show = [row i [(None, lit w)]].
Proof.
  unfold code_picture. destruct d as [|b [|? ?]]; try discriminate. destruct (find_code table b) as [r|] eqn:F; [|discriminate]. cbn [option_map]. intros E. exists (snd r). split; [now apply find_code_in|]. intros i show. injection E as <-. reflexivity.
Qed.
Lemma coded_line t d q : In t coded_tags -> picture_of t d = Some q -> exists w, In (d, w) (codes_of t) /\ forall i show, q i show = [row i [(None, lit w)]].
Proof.
  intros I. unfold coded_tags in I. cbn [In] in I. destruct I as [<-|[<-|[<-|[<-|[]]]]]; intros Q.
  - change (response_picture d = Some q) in Q. unfold response_picture in Q. destruct (find _ arc_codes) as [r|] eqn:F; [|discriminate]. cbn [option_map] in Q. apply find_some in F. destruct F as [F E]. apply same_bytes_eq in E.
    exists (snd r). split; [|intros i show; injection Q as <-; reflexivity]. change (In (d, snd r) (map (fun r => (lit (fst (fst r)), snd r)) arc_codes)). apply in_map_iff. exists r. split; [now rewrite E|exact F].
  - now apply (code_line transaction_type_codes).
  - now apply (code_line terminal_type_codes).
  - now apply (code_line pos_entry_mode_codes).
Qed.
Definition twin_eqb (x y : list N * list N * list N) : bool := same_bytes (fst (fst x)) (fst (fst y)) && same_bytes (snd (fst x)) (snd (fst y)) && same_bytes (snd x) (snd y).
Lemma twin_in x : existsb (twin_eqb x) twins = true <-> In x twins.
Proof.
  rewrite existsb_exists. split.
  - intros (y & I & E). unfold twin_eqb in E. rewrite !andb_true_iff in E. destruct E as ((E1 & E2) & E3). apply same_bytes_eq in E1, E2, E3. destruct x as [[? ?] ?], y as [[? ?] ?]. cbn [fst snd] in *. now subst.
  - intros I. exists x. split; [exact I|]. unfold twin_eqb. rewrite !andb_true_iff. repeat split; now apply same_bytes_eq.
Qed.
Definition alike_b (t d d' : list N) : bool := same_bytes d d' || existsb (twin_eqb (t, d, d')) twins || existsb (twin_eqb (t, d', d)) twins.
Lemma alike_iff t d d' : alike_b t d d' = true <-> alike t d d'.
Proof. unfold alike_b, alike. rewrite !orb_true_iff, !twin_in, same_bytes_eq. tauto. Qed.
Lemma codes_checked t d d' w w' : In t coded_tags -> In (d, w) (codes_of t) -> In (d', w') (codes_of t) -> (w = w' <-> alike t d d').
Proof.
  intros I J J'. assert (C : forallb (fun t => forallb (fun x => forallb (fun y => Bool.eqb (String.eqb (snd x) (snd y)) (alike_b t (fst x) (fst y))) (codes_of t)) (codes_of t)) coded_tags = true) by (vm_compute; reflexivity).
  rewrite forallb_forall in C. specialize (C t I). cbn beta in C. rewrite forallb_forall in C. specialize (C _ J). cbn beta in C. rewrite forallb_forall in C. specialize (C _ J'). cbn beta in C. cbn [fst snd] in C.
  apply Bool.eqb_prop in C. rewrite <- alike_iff, <- C. symmetry. apply String.eqb_eq.
Qed.

(** ** C125 *)

(* The explanation is one line, and it is the same exactly for the same code or its twin. *)
Theorem C125_told : forall t d d' q q' i show show', In t coded_tags -> picture_of t d = Some q -> picture_of t d' = Some q' -> (q i show = q' i show' <-> alike t d d').
Proof.
  intros t d d' q q' i show show' I Q Q'. destruct (coded_line t d q I Q) as (w & W & L), (coded_line t d' q' I Q') as (w' & W' & L'). rewrite L, L', <- (codes_checked t d d' w w' I W W').
  split; [|now intros ->]. intros E. injection E as E. now apply lit_inj.
Qed.
(* Different transaction types or terminal types are never explained alike. *)
Theorem C125_exact : forall t d d' q q' i show show', In t [[0x9C]; [0x9F; 0x35]] -> picture_of t d = Some q -> picture_of t d' = Some q' -> (q i show = q' i show' <-> d = d').
Proof.
  intros t d d' q q' i show show' I Q Q'. assert (C : In t coded_tags) by (unfold coded_tags; cbn [In] in *; tauto). rewrite (C125_told t d d' q q' i show show' C Q Q'). unfold alike. split; [|tauto].
  intros [E|E]; [exact E|exfalso]. unfold twins in E. cbn [In] in E, I. destruct I as [<-|[<-|[]]]; destruct E as [E|E]; repeat (destruct E as [E|E]; [discriminate E|]); exact E.
Qed.
(* Terminal types are known exactly if both digits are and such a terminal exists; the text puts the two digits into words. *)
Theorem C125_terminal : forall a b, a < 16 -> b < 16 -> ((exists q, picture_of [0x9F; 0x35] [16 * a + b] = Some q) <-> terminal_exists a b)
  /\ forall q i show, picture_of [0x9F; 0x35] [16 * a + b] = Some q -> exists who how more, In (a, who) controllers /\ In (b, how) environments
    /\ q i show = [row i [(None, lit how ++ lit ", Controlled by " ++ lit who ++ more)]].
Proof.
  intros a b A B. change (picture_of [0x9F; 0x35] [16 * a + b]) with (code_picture terminal_type_codes [16 * a + b]).
  assert (K : forall q, code_picture terminal_type_codes [16 * a + b] = Some q -> terminal_exists a b /\ forall i show, exists who how more, In (a, who) controllers /\ In (b, how) environments
    /\ q i show = [row i [(None, lit how ++ lit ", Controlled by " ++ lit who ++ more)]]).
  { intros q Q. destruct (code_line _ _ _ Q) as (w & W & L). clear Q.
    assert (F : forall x y, 16 * a + b = 16 * x + y -> y < 16 -> a = x /\ b = y) by (intros; lia).
    unfold terminal_type_codes in W. cbn [map In fst snd] in W.
    assert (Z : forall x y who how more, 16 * a + b = 16 * x + y -> y < 16 -> terminal_exists x y -> In (x, who) controllers -> In (y, how) environments -> lit w = lit how ++ lit ", Controlled by " ++ lit who ++ more ->
      terminal_exists a b /\ forall i show, exists who how more, In (a, who) controllers /\ In (b, how) environments /\ q i show = [row i [(None, lit how ++ lit ", Controlled by " ++ lit who ++ more)]]).
    { intros x y who how more E Ly T Ix Iy Ew. destruct (F x y E Ly) as [-> ->]. split; [exact T|]. intros i show. exists who, how, more. split; [exact Ix|]. split; [exact Iy|]. now rewrite L, Ew. }
    clear F L. unfold terminal_exists, controllers, environments in *. cbn [map fst In] in *.
    repeat (destruct W as [W|W]; [injection W as W <-; match type of W with ?n = _ => let x := eval vm_compute in (n / 16) in let y := eval vm_compute in (n mod 16) in
      eapply (Z x y); [symmetry; exact W|reflexivity|lia|cbn [In]; eauto 10|cbn [In]; eauto 10|vm_compute; reflexivity] end|]). destruct W. }
  split; [|intros q i show Q; now apply K]. split; [intros (q & Q); now apply (K q)|]. unfold terminal_exists, controllers, environments. cbn [map fst In]. intros (Ca & Cb & D). clear K.
  repeat (destruct Ca as [<-|Ca]; [repeat (destruct Cb as [<-|Cb]; [try (eexists; reflexivity); exfalso; lia|]); destruct Cb|]). destruct Ca.
Qed.
(* Two objects with the same tag, anywhere in the same or different data. *)
Lemma coded_shown p masks sort op s ls f ns n d q : text64 p s -> sheet masks sort op s ls -> tlv_block masks op s f ns -> occurs n ns -> In (rt_tag (node_tag n)) coded_tags -> rt_data (node_tag n) = Normal d ->
  picture_of (rt_tag (node_tag n)) d = Some q -> exists i before w after, ls = before ++ heading_row i (lit "Parsed:") :: row (i + 1) [(None, lit w)] :: after /\ In (d, w) (codes_of (rt_tag (node_tag n))).
Proof.
  intros T H B O I D Q. destruct (coded_line _ d q I Q) as (w & W & L).
  assert (Nd : d <> []).
  { intros ->. clear - I Q. revert I Q. generalize (rt_tag (node_tag n)). intros t I Q. unfold coded_tags in I. cbn [In] in I. destruct I as [<-|[<-|[<-|[<-|[]]]]]; discriminate Q. }
  destruct (object_between p _ _ _ _ _ _ _ _ d T B O H D Nd) as (i & before & after & ->). destruct d as [|x d]; [congruence|]. unfold meaning_lines. rewrite D, Q, L.
  exists i, (before ++ tag_row i (node_tag n) (tag_title (node_tag n)) :: heading_row i (lit "Raw:") :: wide_dump (i + 1) (x :: d)), w, after. split; [|exact W].
  generalize (tag_row i (node_tag n) (tag_title (node_tag n))) (wide_dump (i + 1) (x :: d)) (heading_row i (lit "Raw:")) (heading_row i (lit "Parsed:")). intros r0 dump h1 h2. rewrite <- app_assoc. cbn [app]. reflexivity.
Qed.
Theorem C125_objects : forall p p' masks masks' sort sort' op op' s s' ls ls' f f' ns ns' n n' t d d' q q', text64 p s -> text64 p' s' -> sheet masks sort op s ls -> sheet masks' sort' op' s' ls' ->
  tlv_block masks op s f ns -> tlv_block masks' op' s' f' ns' -> occurs n ns -> occurs n' ns' -> In t coded_tags -> rt_tag (node_tag n) = t -> rt_tag (node_tag n') = t -> rt_data (node_tag n) = Normal d -> rt_data (node_tag n') = Normal d' ->
  picture_of t d = Some q -> picture_of t d' = Some q' ->
  exists i i' before before' w w' after after', ls = before ++ heading_row i (lit "Parsed:") :: row (i + 1) [(None, w)] :: after /\ ls' = before' ++ heading_row i' (lit "Parsed:") :: row (i' + 1) [(None, w')] :: after'
    /\ (w = w' <-> alike t d d').
Proof.
  intros p p' masks masks' sort sort' op op' s s' ls ls' f f' ns ns' n n' t d d' q q' T T' H H' B B' O O' I Et Et' D D' Q Q'.
  destruct (coded_shown p masks sort op s ls f ns n d q T H B O ltac:(now rewrite Et) D ltac:(now rewrite Et)) as (i & before & w & after & E & W).
  destruct (coded_shown p' masks' sort' op' s' ls' f' ns' n' d' q' T' H' B' O' ltac:(now rewrite Et') D' ltac:(now rewrite Et')) as (i' & before' & w' & after' & E' & W').
  rewrite Et in W. rewrite Et' in W'. exists i, i', before, before', (lit w), (lit w'), after, after'. split; [exact E|]. split; [exact E'|]. rewrite <- (codes_checked t d d' w w' I W W'). split; [apply lit_inj|now intros ->].
Qed.
(* Two codes that mean the same cannot be told apart by the explanation. *)
Theorem C125_twins_refuted : exists t d d' q q', In t coded_tags /\ picture_of t d = Some q /\ picture_of t d' = Some q' /\ q 0 true = q' 0 true /\ d <> d'.
Proof.
  exists [0x9F; 0x39], [0x07], [0x83]. assert (Q : exists q, picture_of [0x9F; 0x39] [0x07] = Some q) by (eexists; reflexivity). assert (Q' : exists q, picture_of [0x9F; 0x39] [0x83] = Some q) by (eexists; reflexivity).
  destruct Q as (q & Q), Q' as (q' & Q'). exists q, q'. assert (I : In [0x9F; 0x39] coded_tags) by (unfold coded_tags; cbn [In]; tauto). split; [exact I|]. split; [exact Q|]. split; [exact Q'|]. split; [|discriminate].
  apply (C125_told [0x9F; 0x39] [0x07] [0x83] q q' 0 true true I Q Q'). right. left. unfold twins. cbn [In]. tauto.
Qed.
Example C125_example : exists q q', picture_of [0x9F; 0x39] [0x05] = Some q /\ picture_of [0x9F; 0x39] [0x07] = Some q' /\ q 0 true <> q' 0 true
  /\ terminal_exists 2 2 /\ ~ terminal_exists 3 1 /\ (exists q, picture_of [0x9F; 0x35] [16 * 2 + 2] = Some q) /\ alike [0x8A] (lit "33") (lit "54") /\ exists q, picture_of [0x8A] (lit "33") = Some q.
Proof.
  assert (Q : exists q, picture_of [0x9F; 0x39] [0x05] = Some q) by (eexists; reflexivity). assert (Q' : exists q, picture_of [0x9F; 0x39] [0x07] = Some q) by (eexists; reflexivity).
  destruct Q as (q & Q), Q' as (q' & Q'). exists q, q'. assert (I : In [0x9F; 0x39] coded_tags) by (unfold coded_tags; cbn [In]; tauto). split; [exact Q|]. split; [exact Q'|]. split.
  - intros E. apply (C125_told [0x9F; 0x39] [0x05] [0x07] q q' 0 true true I Q Q') in E. apply alike_iff in E. discriminate E.
  - assert (E : terminal_exists 2 2) by (unfold terminal_exists; cbn [controllers environments map fst In]; lia). split; [exact E|]. split; [unfold terminal_exists; lia|]. split; [now apply C125_terminal|]. split; [now apply alike_iff|eexists; reflexivity].
Qed.
Example C125_objects_example : exists ns, tlv_block [42] OpBer (lit "9F350122 E1039C0100 9F390105") None ns /\ exists n, occurs n ns /\ rt_tag (node_tag n) = [0x9C] /\ rt_data (node_tag n) = Normal [0]
  /\ exists ls, sheet [42] false OpBer (lit "9F350122 E1039C0100 9F390105") ls.
Proof.
  assert (T : text64 p64 (lit "9F350122 E1039C0100 9F390105")) by (split; vm_compute; reflexivity).
  eexists. split; [constructor; apply (ber_block_iff p64); [assumption|vm_compute; reflexivity]|]. eexists.
  split; [eapply occurs_below; [right; left; reflexivity|]; apply occurs_here; now left|]. split; [reflexivity|]. split; [reflexivity|].
  destruct (C73_total p64 [42] false OpBer _ T) as [(ls & H & _)|(er & R & _)]; [now exists ls|]. exfalso.
  assert (L : load_settings plain_env (with_ber (lit "9F350122 E1039C0100 9F390105")) = Ok (mkSettings TAuto [42] true)) by now apply plain_settings.
  assert (C : SpecMain.chosen (with_ber (lit "9F350122 E1039C0100 9F390105")) OpBer (lit "9F350122 E1039C0100 9F390105")).
  { split; [reflexivity|]. exists [OpTvr; OpIad; OpCvr; OpTsi; OpCvmResults; OpCvmList; OpIdentify; OpAuto], [OpIngenico; OpServiceCode]. split; [reflexivity|]. repeat constructor. }
  destruct (C61_refused p64 plain_env _ _ OpBer _ er L C T R) as (_ & _ & Z & _). revert Z. vm_compute. discriminate.
Qed.
