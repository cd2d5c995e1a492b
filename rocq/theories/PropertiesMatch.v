(** The property of a TVR read against action codes. *)

From Coq Require Import ZArith NArith Ascii String List Bool Lia ZifyN ZifyBool ZifyNat Permutation Sorting.
From Verif Require Import Base ModelUtil ModelEnums ModelBitflag ModelSchemas ModelTags ModelTlv ModelValues ModelProcess ModelDisplay
  SpecUtil SpecCodes SpecValues SpecTlv SpecIngenico SpecTags SpecProcess SpecDisplay
  ProofsUtil ProofsGrammar ProofsBer ProofsIngenico ProofsValues PropertiesValues
  PropertiesBer PropertiesIngenico ProofsProcess PropertiesProcess ProofsDisplay ProofsDiagram ProofsScreens ProofsLayout PropertiesDisplay
  SpecPictures ProofsPictures ModelMain SpecMain ProofsMain PropertiesMain ModelCli SpecCli ProofsCli PropertiesCli PropertiesPictures
  SpecReading PropertiesReading ModelTerminal SpecTerminal ProofsTerminal PropertiesTerminal SpecTells ProofsTells PropertiesTells PropertiesScope PropertiesColumns SpecAlarms PropertiesAlarms
  PropertiesCut SpecReserved PropertiesReserved SpecMatch.
Import ListNotations.
Local Open Scope N_scope.

(** ** The words of a diagram *)

Lemma tells_cons l ls w : tells (l :: ls) w <-> (exists a, line_text l = a ++ 0x2514 :: 32 :: w) \/ tells ls w.
Proof.
  unfold tells. split.
  - intros (x & a & [<-|I] & H); [left; eauto|right; eauto].
  - intros [(a & H)|(x & a & I & H)]; [exists l, a|exists x, a]; cbn [In]; auto.
Qed.
Lemma tells_app a b w : tells (a ++ b) w <-> tells a w \/ tells b w.
Proof.
  unfold tells. split.
  - intros (x & y & I & H). apply in_app_iff in I. destruct I; [left|right]; eauto.
  - intros [(x & y & I & H)|(x & y & I & H)]; exists x, y; (split; [apply in_app_iff; auto|exact H]).
Qed.
Lemma plain_silent l w : plain_line l -> ~ exists a, line_text l = a ++ 0x2514 :: 32 :: w.
Proof. intros P (a & H). apply (plain_quiet l P). exists 0x2514. split; [rewrite H; apply in_app_iff; right; now left|lia]. Qed.
Lemma plain_cons l ls w : plain_line l -> (tells (l :: ls) w <-> tells ls w).
Proof. intros P. rewrite tells_cons. pose proof (plain_silent l w P). tauto. Qed.
Lemma plain_all ls w : Forall plain_line ls -> ~ tells ls w.
Proof. intros F (l & a & I & H). rewrite Forall_forall in F. exact (plain_silent l w (F l I) (ex_intro _ a H)). Qed.
Lemma elbow_alone n rs r k : k <= r_offset r -> r_offset r < 8 * n -> ~ In 0x2514 (draw n (8 * n - 1 - r_offset r) (elbow_char rs r)).
Proof.
  intros _ O I. unfold draw in I. apply in_map_iff in I. destruct I as (c & E & I). apply in_seq in I. cbv zeta in E. destruct (N.eqb_spec (N.of_nat c mod 9) 8) as [_|G]; [discriminate E|].
  unfold elbow_char in E. destruct (N.eqb_spec (8 * n - 1 - (N.of_nat c - N.of_nat c / 9)) (r_offset r)) as [X|_]; [|destruct (existsb _ _); discriminate E].
  clear E. set (x := N.of_nat c) in *. set (m := 8 * n - 1 - r_offset r) in *. assert (L : x < m + (m - 1) / 8) by lia.
  pose proof (N.div_mod x 9). pose proof (N.mod_lt x 9). pose proof (N.div_mod (m - 1) 8). pose proof (N.mod_lt (m - 1) 8). set (a := x / 9) in *. set (b := x mod 9) in *. set (u := (m - 1) / 8) in *. set (v := (m - 1) mod 8) in *. nia.
Qed.
Lemma draw_elbow n rs r : r_offset r < 8 * n -> exists a, draw n (8 * n - r_offset r) (elbow_char rs r) = a ++ [0x2514] /\ ~ In 0x2514 a.
Proof.
  intros O. replace (8 * n - r_offset r) with (8 * n - 1 - r_offset r + 1) by lia. rewrite draw_succ. replace (8 * n - 1 - (8 * n - 1 - r_offset r)) with (r_offset r) by lia. rewrite elbow_here, app_assoc.
  eexists. split; [reflexivity|]. intros I. apply in_app_iff in I. destruct I as [I|I]; [revert I; now apply (elbow_alone n rs r 0); [lia|]|].
  unfold gap in I. destruct (_ && _); [|destruct I]. destruct I as [I|[]]. discriminate I.
Qed.
Lemma split_once (c : N) a b a' b' : ~ In c a -> ~ In c b -> a ++ c :: b = a' ++ c :: b' -> b = b'.
Proof.
  revert a'. induction a as [|x a IH]; intros [|y a'] A B; cbn [app]; intros E.
  - now injection E.
  - exfalso. injection E as _ E. apply B. rewrite E. apply in_app_iff. right. now left.
  - exfalso. injection E as E _. apply A. now left.
  - injection E as _ E. apply (IH a'); auto. intros I. apply A. now right.
Qed.
Lemma elbow_tells n rs r i show w : r_offset r < 8 * n -> boxless (r_text r) ->
  ((exists a, line_text (elbow_row n rs r i show) = a ++ 0x2514 :: 32 :: w) <-> r_text r = w).
Proof.
  intros O X. destruct (draw_elbow n rs r O) as (a & E & A).
  assert (Z : line_text (elbow_row n rs r i show) = (repeat 9 (N.to_nat (i mod 256)) ++ a) ++ 0x2514 :: 32 :: r_text r).
  { unfold line_text, elbow_row. cbn [l_tabs l_spans flat_map snd]. rewrite E, app_nil_r, <- !app_assoc. reflexivity. }
  rewrite Z. split; [|intros <-; eauto]. intros (b & K). apply split_once in K.
  - now injection K.
  - intros I. apply in_app_iff in I. destruct I as [I|I]; [apply repeat_spec in I; discriminate I|auto].
  - intros [I|I]; [discriminate I|]. unfold boxless in X. rewrite Forall_forall in X. apply X in I. lia.
Qed.
Lemma draw_plain n k f : (forall o, f o < 0x2514) -> ~ In 0x2514 (draw n k f).
Proof. intros F I. unfold draw in I. apply in_map_iff in I. destruct I as (c & E & _). cbv zeta in E. destruct (_ =? 8); [discriminate E|]. specialize (F (8 * n - 1 - (N.of_nat c - N.of_nat c / 9))). lia. Qed.
Lemma diagram_tells n raw rs i show w : Forall (fun r => r_len r = 1 /\ r_offset r < 8 * n /\ boxless (r_text r)) rs ->
  (tells (diagram n raw rs i show) w <-> exists r, In r rs /\ r_text r = w).
Proof.
  intros F. unfold diagram. rewrite tells_cons. rewrite Forall_forall in F.
  assert (B : ~ exists a, line_text (bold_row i (draw n (8 * n) (bit_char raw))) = a ++ 0x2514 :: 32 :: w).
  { intros (a & H). assert (I : In 0x2514 (line_text (bold_row i (draw n (8 * n) (bit_char raw))))) by (rewrite H; apply in_app_iff; right; now left).
    unfold line_text, bold_row in I. cbn [l_tabs l_spans flat_map snd] in I. rewrite app_nil_r in I. apply in_app_iff in I. destruct I as [I|I]; [apply repeat_spec in I; discriminate I|]. revert I. apply draw_plain. intros o. unfold bit_char. destruct (N.testbit _ _); lia. }
  assert (N1 : existsb (fun r => 1 <? r_len r) rs = false).
  { apply not_true_is_false. intros K. apply existsb_exists in K. destruct K as (r & I & K). destruct (F r I) as [L _]. rewrite L in K. discriminate K. }
  rewrite N1. cbn [app]. split.
  - intros [K|(l & a & I & H)]; [contradiction|]. apply in_map_iff in I. destruct I as (r & <- & I). apply in_rev in I. exists r. split; [assumption|]. destruct (F r I) as (_ & O & X).
    apply (elbow_tells n rs r i show w O X). now exists a.
  - intros (r & I & E). right. destruct (F r I) as (_ & O & X). destruct (proj2 (elbow_tells n rs r i show w O X) E) as (a & H). exists (elbow_row n rs r i show), a. split; [|exact H].
    apply in_map_iff. exists r. split; [reflexivity|]. now apply -> in_rev.
Qed.

(** ** The bits *)

Definition place (e : bit_field) : nat * N := (N.to_nat (e_byte e - 1), e_hi e - 1).
Definition is_set (d : list N) (x : nat * N) : bool := N.testbit (nth (fst x) d 0) (snd x).
Definition is_flag (e : bit_field) : bool := match e_kind e with Flag => (e_hi e =? e_lo e) && (1 <=? e_lo e) && (e_hi e <=? 8) && (1 <=? e_byte e) && (e_byte e <=? 5) | _ => false end.
Lemma flag_shown e d r : is_flag e = true ->
  (In r (field_shown 5 e d) <-> is_set d (place e) = true /\ r = mkRange (8 * (5 - e_byte e) + (e_hi e - 1)) (e_hi e - e_lo e + 1) (lit (e_label e)) (e_sev e)).
Proof.
  unfold is_flag, field_shown. destruct (e_kind e); try discriminate. intros H.
  assert (G : e_hi e = e_lo e /\ 1 <= e_lo e) by lia. destruct G as [G1 G2].
  assert (Z : (field_bits e d =? 1) = is_set d (place e)).
  { unfold field_bits, bits_of, is_set, place. cbn [fst snd]. rewrite G1, N.sub_diag. cbn [N.add]. change (2 ^ 1) with 2. rewrite N.testbit_eqb. reflexivity. }
  rewrite Z. destruct (is_set d (place e)); cbn [In]; split; [intros [<-|[]]; auto|intros [_ ->]; auto|intros []|intros [K _]; discriminate K].
Qed.
Lemma tvr_flags : forallb is_flag tvr_bits = true.
Proof. vm_compute. reflexivity. Qed.
Lemma tvr_tells raw d i show w : tells (diagram 5 raw (all_shown 5 tvr_bits d) i show) w <-> exists e, In e tvr_bits /\ is_set d (place e) = true /\ lit (e_label e) = w.
Proof.
  pose proof tvr_flags as Fl. rewrite forallb_forall in Fl. rewrite diagram_tells.
  - unfold all_shown. split.
    + intros (r & I & E). apply in_flat_map in I. destruct I as (e & He & I). apply (flag_shown e d r (Fl e He)) in I. destruct I as [I ->]. exists e. auto.
    + intros (e & He & K & E). eexists. split; [apply in_flat_map; exists e; split; [exact He|]; apply (flag_shown e d _ (Fl e He)); split; [exact K|reflexivity]|exact E].
  - apply Forall_forall. intros r I. unfold all_shown in I. apply in_flat_map in I. destruct I as (e & He & I). pose proof (Fl e He) as F. apply (flag_shown e d r F) in I. destruct I as [_ ->]. cbn [r_len r_offset r_text].
    unfold is_flag in F. destruct (e_kind e); try discriminate F. split; [lia|]. split; [lia|apply boxless_lit].
Qed.
Definition positions : list (nat * N) := map place tvr_bits.
Lemma labels_apart : NoDup (map (fun e => lit (e_label e)) tvr_bits).
Proof.
  assert (X : (fix go (l : list str) : bool := match l with [] => true | x :: t => negb (existsb (same_bytes x) t) && go t end) (map (fun e => lit (e_label e)) tvr_bits) = true) by (vm_compute; reflexivity).
  revert X. induction (map (fun e => lit (e_label e)) tvr_bits) as [|x l IH]; [constructor|]. intros X. apply andb_prop in X. destruct X as [X Y]. constructor; [|auto].
  intros I. apply negb_true_iff in X. assert (Z : existsb (same_bytes x) l = true) by (apply existsb_exists; exists x; split; [assumption|now apply same_bytes_iff]). congruence.
Qed.
Lemma nodup_map {A B} (f : A -> B) l x y : NoDup (map f l) -> In x l -> In y l -> f x = f y -> x = y.
Proof.
  induction l as [|a l IH]; [intros _ []|]. cbn [map]. intros N. inversion N as [|z l' N1 N2]; subst. intros [<-|I] [<-|J] E; auto.
  - exfalso. apply N1. rewrite E. now apply in_map.
  - exfalso. apply N1. rewrite <- E. now apply in_map.
Qed.
Lemma meaningful_at k j : N.testbit (nth k meaningful 0) j = true <-> In (k, j) positions.
Proof.
  split.
  - intros H. assert (K : (k < 5)%nat).
    { destruct (Nat.lt_ge_cases k 5) as [L|L]; [exact L|]. exfalso. rewrite nth_overflow in H by exact L. rewrite N.bits_0 in H. discriminate H. }
    assert (J : j < 8).
    { destruct (N.lt_ge_cases j 8) as [L|L]; [exact L|]. exfalso. assert (X : nth k meaningful 0 < 2 ^ 8).
      { assert (Y : Forall (fun x => x < 2 ^ 8) meaningful) by (unfold meaningful; repeat (apply Forall_cons; [reflexivity|]); apply Forall_nil). rewrite Forall_forall in Y. apply Y. apply nth_In. exact K. }
      rewrite <- (N.mod_small _ _ X), N.mod_pow2_bits_high in H by exact L. discriminate H. }
    assert (All : forallb (fun k => forallb (fun j => negb (N.testbit (nth k meaningful 0) j) || existsb (fun x => Nat.eqb (fst x) k && (snd x =? j)) positions) [0; 1; 2; 3; 4; 5; 6; 7]) (seq 0 5) = true) by (vm_compute; reflexivity).
    rewrite forallb_forall in All. specialize (All k). rewrite in_seq in All. specialize (All ltac:(lia)). rewrite forallb_forall in All. specialize (All j).
    assert (Q : In j [0; 1; 2; 3; 4; 5; 6; 7]) by (cbn [In]; lia). specialize (All Q). rewrite H in All. cbn [negb orb] in All. apply existsb_exists in All. destruct All as ([a b] & I & E). cbn [fst snd] in E.
    apply andb_prop in E. destruct E as [E1 E2]. apply Nat.eqb_eq in E1. apply N.eqb_eq in E2. now subst.
  - intros I. assert (All : forallb (fun x => N.testbit (nth (fst x) meaningful 0) (snd x)) positions = true) by (vm_compute; reflexivity). rewrite forallb_forall in All. exact (All _ I).
Qed.
Lemma nonzero_bit a : a <> 0 <-> exists j, N.testbit a j = true.
Proof. split; [intros H; exists (N.log2 a); now apply N.bit_log2|intros (j & H) ->; rewrite N.bits_0 in H; discriminate H]. Qed.
Lemma matching_iff d d' : matching d d' <-> exists x, In x positions /\ is_set d x = true /\ is_set d' x = true.
Proof.
  unfold matching. split.
  - intros (k & H). apply nonzero_bit in H. destruct H as (j & H). rewrite !N.land_spec in H. apply andb_prop in H. destruct H as [H1 H]. apply andb_prop in H. destruct H as [H2 H3]. exists (k, j). split; [now apply meaningful_at|auto].
  - intros ([k j] & I & H1 & H2). exists k. apply nonzero_bit. exists j. rewrite !N.land_spec. apply meaningful_at in I. unfold is_set in *. cbn [fst snd] in *. now rewrite I, H1, H2.
Qed.
Lemma covered_iff d d' : covered d d' <-> forall x, In x positions -> is_set d x = true -> is_set d' x = true.
Proof.
  unfold covered. split.
  - intros H [k j] I S1. apply meaningful_at in I. unfold is_set in *. cbn [fst snd] in *. specialize (H k). destruct (N.testbit (nth k d' 0) j) eqn:E; [reflexivity|]. exfalso.
    revert H. apply nonzero_bit. exists j. now rewrite N.land_spec, N.ldiff_spec, I, S1, E.
  - intros H k. destruct (N.eq_dec (N.land (nth k meaningful 0) (N.ldiff (nth k d 0) (nth k d' 0))) 0) as [E|E]; [exact E|]. exfalso. apply nonzero_bit in E. destruct E as (j & E).
    rewrite N.land_spec, N.ldiff_spec in E. apply andb_prop in E. destruct E as [E1 E]. apply andb_prop in E. destruct E as [E2 E3]. apply meaningful_at in E1. specialize (H (k, j) E1 E2). unfold is_set in H. cbn [fst snd] in H. rewrite H in E3. discriminate E3.
Qed.
Lemma positions_in x : In x positions <-> exists e, In e tvr_bits /\ place e = x.
Proof. unfold positions. rewrite in_map_iff. split; intros (e & A & B); eauto. Qed.
Lemma places_labels e e' : In e tvr_bits -> In e' tvr_bits -> lit (e_label e) = lit (e_label e') -> e = e'.
Proof. intros I J E. exact (nodup_map (fun e => lit (e_label e)) tvr_bits e e' labels_apart I J E). Qed.

(** ** The values *)

Definition told_by (ls : list line) (d : list N) : Prop := forall w, tells ls w <-> exists e, In e tvr_bits /\ is_set d (place e) = true /\ lit (e_label e) = w.
Lemma bits_told d q i show : bits_picture 5 tvr_bits tvr_used d = Some q -> told_by (q i show) d /\ len d = 5.
Proof.
  unfold bits_picture. intros H. destruct (_ && _) eqn:G; [|discriminate]. match type of H with Some ?x = _ => assert (Q : q = x) by congruence end. rewrite Q. split; [intros w; apply tvr_tells|]. apply andb_prop in G. destruct G as [G _]. now apply N.eqb_eq in G.
Qed.
Lemma action_told sentence d q i show : action_picture sentence d = Some q -> told_by (q i show) d /\ len d = 5.
Proof.
  unfold action_picture. destruct (bits_picture 5 tvr_bits tvr_used d) as [r|] eqn:E; [|discriminate]. cbn [option_map]. intros H. match type of H with Some ?x = _ => assert (Q : q = x) by congruence end. rewrite Q. clear H Q.
  destruct (bits_told d r i false E) as [A L]. split; [|exact L]. intros w. rewrite plain_cons by plain. apply A.
Qed.
Lemma picture_told t d q i show : In t verification_tags -> picture_of t d = Some q -> told_by (q i show) d /\ len d = 5.
Proof.
  intros I H. unfold verification_tags in I. cbn [In] in I. destruct I as [<-|[<-|[<-|[<-|[]]]]].
  - exact (bits_told d q i show H).
  - exact (action_told _ d q i show H).
  - exact (action_told _ d q i show H).
  - exact (action_told _ d q i show H).
Qed.
Lemma allowed_any d : allowed tvr_bits d = true.
Proof.
  unfold allowed. assert (X : forall t, forallb is_flag t = true -> exists vs, decode_all t d = Some vs).
  { induction t as [|e t IH]; [eexists; reflexivity|]. cbn [forallb]. intros H. apply andb_prop in H. destruct H as [H1 H2]. destruct (IH H2) as (vs & E). unfold is_flag in H1. cbn [decode_all]. unfold field_value. destruct (e_kind e); try discriminate H1. cbn [decode option_map]. rewrite E. eexists. reflexivity. }
  destruct (X tvr_bits tvr_flags) as (vs & ->). reflexivity.
Qed.
Lemma picture_made t d : In t verification_tags -> len d = 5 -> exists q, picture_of t d = Some q.
Proof.
  intros I L. assert (B : bits_picture 5 tvr_bits tvr_used d = Some (diagram 5 (keep_bits d tvr_used) (all_shown 5 tvr_bits d))) by (unfold bits_picture; rewrite L, allowed_any; reflexivity).
  unfold verification_tags in I. cbn [In] in I. destruct I as [<-|[<-|[<-|[<-|[]]]]]; eexists.
  - exact B.
  - change (picture_of [0x9F; 0x0D] d) with (action_picture "If not an online transaction and any of the following match the TVR, reject the transaction:" d). unfold action_picture. rewrite B. reflexivity.
  - change (picture_of [0x9F; 0x0E] d) with (action_picture "If any of the following match the TVR, deny the transaction without even going online:" d). unfold action_picture. rewrite B. reflexivity.
  - change (picture_of [0x9F; 0x0F] d) with (action_picture "If any of the following match the TVR, complete the transaction online:" d). unfold action_picture. rewrite B. reflexivity.
Qed.
Lemma told_matching ls ls' d d' : told_by ls d -> told_by ls' d' -> ((exists w, tells ls w /\ tells ls' w) <-> matching d d').
Proof.
  intros A B. rewrite matching_iff. split.
  - intros (w & K & K'). apply A in K. apply B in K'. destruct K as (e & I & S1 & E), K' as (e' & I' & S2 & E'). assert (X : e = e') by (apply places_labels; congruence). subst e'. exists (place e). split; [apply positions_in; eauto|auto].
  - intros (x & I & S1 & S2). apply positions_in in I. destruct I as (e & I & <-). exists (lit (e_label e)). split; [apply A|apply B]; exists e; auto.
Qed.
Lemma told_covered ls ls' d d' : told_by ls d -> told_by ls' d' -> ((forall w, tells ls w -> tells ls' w) <-> covered d d').
Proof.
  intros A B. rewrite covered_iff. split.
  - intros H x I S1. apply positions_in in I. destruct I as (e & I & <-). specialize (H (lit (e_label e)) (proj2 (A _) (ex_intro _ e (conj I (conj S1 eq_refl))))). apply B in H. destruct H as (e' & I' & S2 & E). assert (X : e' = e) by (apply places_labels; congruence). now subst.
  - intros H w K. apply A in K. destruct K as (e & I & S1 & E). apply B. exists e. split; [assumption|]. split; [|assumption]. apply H; [apply positions_in; eauto|exact S1].
Qed.
Lemma merged_nth f d d' k : len d = len d' -> f 0 0 = 0 -> nth k (merged f d d') 0 = f (nth k d 0) (nth k d' 0).
Proof.
  intros L Z. unfold merged. revert d' k L. induction d as [|a d IH]; intros [|b d'] k L; unfold len in *; cbn [List.length] in L; try lia.
  - destruct k; cbn; congruence.
  - destruct k; cbn [combine map nth fst snd]; [reflexivity|]. apply IH. lia.
Qed.
Lemma merged_len f d d' : len d = len d' -> len (merged f d d') = len d.
Proof. intros L. unfold merged, len in *. rewrite map_length, combine_length. lia. Qed.

(** C114: a TVR read against action codes. *)
(* Two screens have an explanation in common exactly if some bit with a meaning is set in both. *)
Theorem C114_matching : forall t t' d d' q q' i i' show show', In t verification_tags -> In t' verification_tags ->
  picture_of t d = Some q -> picture_of t' d' = Some q' ->
  ((exists w, tells (q i show) w /\ tells (q' i' show') w) <-> matching d d').
Proof. intros t t' d d' q q' i i' show show' I I' Q Q'. apply told_matching; [apply (picture_told t d q i show I Q)|apply (picture_told t' d' q' i' show' I' Q')]. Qed.
(* Every explanation of the first is one of the second exactly if all its bits with a meaning are set there. *)
Theorem C114_covered : forall t t' d d' q q' i i' show show', In t verification_tags -> In t' verification_tags ->
  picture_of t d = Some q -> picture_of t' d' = Some q' ->
  ((forall w, tells (q i show) w -> tells (q' i' show') w) <-> covered d d').
Proof. intros t t' d d' q q' i i' show show' I I' Q Q'. apply told_covered; [apply (picture_told t d q i show I Q)|apply (picture_told t' d' q' i' show' I' Q')]. Qed.
(* Combined bit by bit, two values have the explanations of both, or those in common. *)
Theorem C114_merged : forall t t' u d d' q q', In t verification_tags -> In t' verification_tags -> In u verification_tags ->
  picture_of t d = Some q -> picture_of t' d' = Some q' ->
  exists all common, picture_of u (merged N.lor d d') = Some all /\ picture_of u (merged N.land d d') = Some common
    /\ forall i show w, (tells (all i show) w <-> tells (q i show) w \/ tells (q' i show) w)
                     /\ (tells (common i show) w <-> tells (q i show) w /\ tells (q' i show) w).
Proof.
  intros t t' u d d' q q' I I' J Q Q'. pose proof (proj2 (picture_told t d q 0 true I Q)) as L. pose proof (proj2 (picture_told t' d' q' 0 true I' Q')) as L'.
  assert (E : len d = len d') by congruence.
  destruct (picture_made u (merged N.lor d d') J) as (a & A); [rewrite merged_len; assumption|]. destruct (picture_made u (merged N.land d d') J) as (c & C); [rewrite merged_len; assumption|].
  exists a, c. split; [exact A|]. split; [exact C|]. intros i show w.
  pose proof (proj1 (picture_told t d q i show I Q) w) as T1. pose proof (proj1 (picture_told t' d' q' i show I' Q') w) as T2. pose proof (proj1 (picture_told u _ a i show J A) w) as Ta. pose proof (proj1 (picture_told u _ c i show J C) w) as Tc.
  rewrite Ta, Tc, T1, T2. split; split.
  - intros (e & He & K & W). unfold is_set in K. rewrite merged_nth, N.lor_spec in K by (assumption || reflexivity). apply orb_prop in K. destruct K as [K|K]; [left|right]; exists e; auto.
  - intros [(e & He & K & W)|(e & He & K & W)]; exists e; (split; [assumption|]; split; [|assumption]); unfold is_set in *; rewrite merged_nth, N.lor_spec, K by (assumption || reflexivity); [reflexivity|apply orb_true_r].
  - intros (e & He & K & W). unfold is_set in K. rewrite merged_nth, N.land_spec in K by (assumption || reflexivity). apply andb_prop in K. destruct K as [K1 K2]. split; exists e; auto.
  - intros [(e & He & K & W) (e' & He' & K' & W')]. assert (X : e = e') by (apply places_labels; congruence). subst e'. exists e. split; [assumption|]. split; [|assumption]. unfold is_set in *. now rewrite merged_nth, N.land_spec, K, K' by (assumption || reflexivity).
Qed.
(* The same for two objects of TLV data, wherever they stand: their lines are on the screen. *)
Lemma tag_told t d i show : In (rt_tag t) verification_tags -> rt_data t = Normal d -> (exists q, picture_of (rt_tag t) d = Some q) -> told_by (tag_lines t i show) d.
Proof.
  intros I D (q & Q) w. unfold tag_lines. rewrite plain_cons.
  2: { pose proof (boxless_title t). assert (boxless (length_text (rt_data t))) by (rewrite D; unfold length_text; apply boxless_app; [apply boxless_dec|destruct (len d =? 1); apply boxless_lit]). plain. }
  rewrite tells_app. assert (X : ~ tells (data_lines i t) w) by (apply plain_all; unfold data_lines; rewrite D; destruct d; [constructor|constructor; [plain|apply plain_wide_dump]]).
  unfold meaning_lines. rewrite D, Q, plain_cons by plain. pose proof (proj1 (picture_told _ d q (i + 1) show I Q) w). tauto.
Qed.
Lemma tree_holds show : forall n i t, In t (preorder n) -> exists j, incl (tag_lines t j show) (tree_lines show n i).
Proof.
  fix IH 1. intros [u c] i t I. cbn [preorder tree_lines] in *. destruct I as [<-|I]; [exists i; apply incl_appl, incl_refl|].
  assert (X : exists n, In n c /\ exists j, incl (tag_lines t j show) (tree_lines show n (i + 1))).
  { clear - I IH. induction c as [|n c IHc]; [destruct I|]. cbn [flat_map] in I. apply in_app_iff in I. destruct I as [I|I].
    - exists n. split; [now left|]. apply (IH n (i + 1) t I).
    - destruct (IHc I) as (m & Hm & J). exists m. split; [now right|exact J]. }
  destruct X as (n & Hn & j & J). exists j. apply incl_appr. destruct c as [|n0 c]; [destruct Hn|]. apply incl_tl. intros l Hl. apply J in Hl.
  clear - Hn Hl. revert Hn. generalize (n0 :: c). intros l0 Hn. induction l0 as [|a l0 IHl]; [destruct Hn|]. cbn [map]. rewrite separated_cons. apply in_app_iff. destruct Hn as [->|Hn]; [now left|]. right. destruct l0 as [|b l0]; [destruct Hn|]. cbn [map] in *. right. auto.
Qed.
Lemma forest_holds show ns i t : In t (flat_map preorder ns) -> exists j, incl (tag_lines t j show) (forest_lines ns i show).
Proof.
  intros I. unfold forest_lines. induction ns as [|n ns IH]; [destruct I|]. cbn [flat_map] in I. apply in_app_iff in I. cbn [map]. rewrite separated_cons. destruct I as [I|I].
  - destruct (tree_holds show n i t I) as (j & J). exists j. apply incl_appl. exact J.
  - destruct (IH I) as (j & J). exists j. apply incl_appr. destruct ns as [|m ns]; [destruct I|]. cbn [map] in *. apply incl_tl. exact J.
Qed.
Theorem C114_objects : forall p masks sort op s ls f ns t t' d d', text64 p s -> sheet masks sort op s ls -> tlv_block masks op s f ns ->
  In t (flat_map preorder ns) -> In t' (flat_map preorder ns) -> In (rt_tag t) verification_tags -> In (rt_tag t') verification_tags ->
  rt_data t = Normal d -> rt_data t' = Normal d' ->
  exists i i', incl (tag_lines t i true) ls /\ incl (tag_lines t' i' true) ls
    /\ ((exists w, tells (tag_lines t i true) w /\ tells (tag_lines t' i' true) w) <-> matching d d')
    /\ ((forall w, tells (tag_lines t i true) w -> tells (tag_lines t' i' true) w) <-> covered d d').
Proof.
  intros p masks sort op s ls f ns t t' d d' T H B I I' V V' D D'.
  inversion H as [f0 q J E|n O Dn N|f0 ms ns' B' N A]; subst.
  { exfalso. revert B. apply no_block. clear - J. unfold byte_operations in J. cbn [In] in J. cbn [In]. repeat (destruct J as [J|J]; [injection J as <- _; tauto|]). contradiction. }
  { exfalso. revert B. apply no_block. cbn [In]. tauto. }
  destruct (tlv_block_det p _ _ _ _ _ _ _ T B B') as [<- <-]. rewrite Forall_forall in N.
  assert (P : forall x y, In x (flat_map preorder ns) -> In (rt_tag x) verification_tags -> rt_data x = Normal y -> exists q, picture_of (rt_tag x) y = Some q).
  { intros x y Ix Vx Dx. apply picture_made; [assumption|]. destruct (N.eq_dec (len y) 5) as [E|E]; [exact E|]. exfalso. apply (N x Ix (ByteCountIncorrect Eq 5 (len y))). exists y. split; [assumption|]. constructor; [|exact E].
    clear - Vx. unfold verification_tags in Vx. cbn [In] in Vx. unfold fixed_lengths. cbn [In]. destruct Vx as [<-|[<-|[<-|[<-|[]]]]]; tauto. }
  assert (R : forall x, In x (flat_map preorder ns) -> exists j, incl (tag_lines x j true) (format_lines f ++ forest_lines ns' 0 true)).
  { intros x Ix. destruct (forest_holds true ns 0 x Ix) as (j & J). exists j. apply incl_appr. destruct sort; [|now subst]. intros l Hl. apply J in Hl. now apply (Permutation_in _ (in_order_lines ns ns' A 0 true)). }
  destruct (R t I) as (i & Hi), (R t' I') as (i' & Hi'). exists i, i'. split; [exact Hi|]. split; [exact Hi'|].
  pose proof (tag_told t d i true V D (P t d I V D)) as X. pose proof (tag_told t' d' i' true V' D' (P t' d' I' V' D')) as X'.
  split; [now apply told_matching|now apply told_covered].
Qed.
(* Two runs of the program, --tvr or --iac. *)
Lemma flat_deepest ls : Forall (fun l => l_tabs l = 0) ls -> deepest ls = 0.
Proof. unfold deepest. induction 1 as [|l ls H _ IH]; [reflexivity|]. cbn [map fold_right]. rewrite IH, H. reflexivity. Qed.
Theorem C114_program : forall p e m st e' m' st' s s', load_settings e m = Ok st -> SpecMain.chosen m OpTvr s -> text64 p s ->
  load_settings e' m' = Ok st' -> SpecMain.chosen m' OpTvr s' -> text64 p s' -> len (hex_bytes s) = 5 -> len (hex_bytes s') = 5 ->
  exists ls ls', displays (run_main p e m) ls /\ displays (run_main p e' m') ls'
    /\ ((exists w, tells ls w /\ tells ls' w) <-> matching (hex_bytes s) (hex_bytes s'))
    /\ ((forall w, tells ls w -> tells ls' w) <-> covered (hex_bytes s) (hex_bytes s')).
Proof.
  assert (One : forall p e m st s, load_settings e m = Ok st -> SpecMain.chosen m OpTvr s -> text64 p s -> len (hex_bytes s) = 5 -> exists ls, displays (run_main p e m) ls /\ told_by ls (hex_bytes s)).
  { intros p e m st s L C T N. destruct (picture_made [0x95] (hex_bytes s)) as (q & Q); [now left|exact N|]. exists (q 0 true). split; [|apply (picture_told [0x95] (hex_bytes s) q 0 true); [now left|exact Q]].
    apply (C73_shown p e m st OpTvr s (q 0 true) L C T).
    - apply (sheet_value _ _ OpTvr s (bits_picture 5 tvr_bits tvr_used)); [cbn [byte_operations In]; tauto|exact Q].
    - intros _. assert (Z : deepest (q 0 true) = 0); [|rewrite Z; reflexivity]. clear - Q. change (bits_picture 5 tvr_bits tvr_used (hex_bytes s) = Some q) in Q. unfold bits_picture in Q. destruct (_ && _); [|discriminate].
      match type of Q with Some ?x = _ => assert (E : q = x) by congruence end. rewrite E. apply flat_deepest. apply Forall_forall. intros l I. unfold diagram in I. destruct I as [<-|I]; [reflexivity|]. apply in_app_iff in I. destruct I as [I|I].
      + destruct (existsb _ _); [|destruct I]. destruct I as [<-|[]]. reflexivity.
      + apply in_map_iff in I. destruct I as (r & <- & _). reflexivity. }
  intros p e m st e' m' st' s s' L C T L' C' T' N N'. destruct (One p e m st s L C T N) as (ls & D & X), (One p e' m' st' s' L' C' T' N') as (ls' & D' & X'). exists ls, ls'. split; [exact D|]. split; [exact D'|].
  split; [now apply told_matching|now apply told_covered].
Qed.
(* A bit without a meaning that is set in both is not told, although a terminal may match it. *)
Theorem C114_reserved_refuted : exists d d' q q', picture_of [0x95] d = Some q /\ picture_of [0x9F; 0x0E] d' = Some q'
  /\ (exists k, N.land (nth k d 0) (nth k d' 0) <> 0) /\ ~ exists w, tells (q 0 true) w /\ tells (q' 0 true) w.
Proof.
  set (d := [0x81; 0; 0; 0; 0]). set (d' := [0x41; 0; 0; 0; 0]).
  destruct (picture_made [0x95] d) as (q & Q); [cbn [verification_tags In]; tauto|reflexivity|]. destruct (picture_made [0x9F; 0x0E] d') as (q' & Q'); [cbn [verification_tags In]; tauto|reflexivity|].
  exists d, d', q, q'. split; [exact Q|]. split; [exact Q'|]. split; [exists 0%nat; discriminate|].
  rewrite (C114_matching [0x95] [0x9F; 0x0E] d d' q q' 0 0 true true) by (assumption || (cbn [verification_tags In]; tauto)). intros (k & K). apply K. destruct k as [|[|[|[|[|k]]]]]; try reflexivity. destruct k; reflexivity.
Qed.
(* Expired application and floor limit exceeded, against a denial code for expired applications: one explanation in common. *)
Example C114_met : exists q q', picture_of [0x95] [0; 0x40; 0; 0x80; 0] = Some q /\ picture_of [0x9F; 0x0E] [0; 0x48; 0; 0; 0] = Some q'
  /\ tells (q 0 true) (lit "Expired application") /\ tells (q' 0 true) (lit "Expired application")
  /\ matching [0; 0x40; 0; 0x80; 0] [0; 0x48; 0; 0; 0] /\ ~ covered [0; 0x40; 0; 0x80; 0] [0; 0x48; 0; 0; 0].
Proof.
  eexists. eexists. split; [vm_compute; reflexivity|]. split; [vm_compute; reflexivity|]. split; [|split; [|split]].
  - eexists. exists (repeat 32 10). split; [right; right; left; reflexivity|vm_compute; reflexivity].
  - eexists. exists (repeat 32 10). split; [right; right; right; left; reflexivity|vm_compute; reflexivity].
  - exists 1%nat. discriminate.
  - intros H. specialize (H 3%nat). discriminate H.
Qed.
(* A TVR and an action code in one piece of data. *)
Example C114_objects_met : exists f ns t t', tlv_block [42] OpBer (lit "950500400080009F0E050048000000") f ns
  /\ In t (flat_map preorder ns) /\ In t' (flat_map preorder ns) /\ rt_tag t = [0x95] /\ rt_tag t' = [0x9F; 0x0E]
  /\ rt_data t = Normal [0; 0x40; 0; 0x80; 0] /\ rt_data t' = Normal [0; 0x48; 0; 0; 0]
  /\ exists ls, sheet [42] false OpBer (lit "950500400080009F0E050048000000") ls.
Proof.
  assert (T : text64 p64 (lit "950500400080009F0E050048000000")) by (split; vm_compute; reflexivity).
  set (t := mkRawTag [0x95] TagClass_ContextSpecific Primitive (Normal [0; 0x40; 0; 0x80; 0])). set (t' := mkRawTag [0x9F; 0x0E] TagClass_ContextSpecific Primitive (Normal [0; 0x48; 0; 0; 0])).
  assert (B : tlv_block [42] OpBer (lit "950500400080009F0E050048000000") None [RawNode t []; RawNode t' []]) by (apply (tlv_settles p64 [42] OpBer _ _ T eq_refl); vm_compute; reflexivity).
  exists None, [RawNode t []; RawNode t' []], t, t'. split; [exact B|]. cbn [flat_map preorder app In]. repeat (split; [tauto || reflexivity|]).
  eexists. apply (sheet_block [42] false OpBer _ None _ [RawNode t []; RawNode t' []] B); [|reflexivity]. apply Forall_forall. cbn [flat_map preorder app In]. intros x [<-|[<-|[]]] e (d & D & R); injection D as <-; inversion R as [u k d I L| | | | | | | ]; subst; cbn [fixed_lengths In] in I;
    repeat (destruct I as [I|I]; [first [discriminate I|injection I as <-; now apply L]|]); destruct I.
Qed.
Definition with_tvr (s : str) : matches := mkMatches (Some s) None None None None None None None None None None None None None None.
Example C114_program_met : forall s, s = lit "0040008000" \/ s = lit "0048000000" ->
  load_settings plain_env (with_tvr s) = Ok (mkSettings TAuto [42] true) /\ SpecMain.chosen (with_tvr s) OpTvr s /\ text64 p64 s /\ len (hex_bytes s) = 5.
Proof.
  intros s H. split; [vm_compute; reflexivity|]. split; [split; [reflexivity|]; exists [], [OpIad; OpCvr; OpTsi; OpCvmResults; OpCvmList; OpIdentify; OpAuto; OpBer; OpIngenico; OpServiceCode]; split; [reflexivity|constructor]|].
  destruct H as [-> | ->]; (split; [split; vm_compute; reflexivity|vm_compute; reflexivity]).
Qed.
