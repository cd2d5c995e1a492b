(** Proofs about a stdout that may fail. *)

From Coq Require Import ZArith NArith List String Ascii Bool Lia ZifyN ZifyBool ZifyNat.
From Verif Require Import Base ModelUtil ModelEnums ModelBitflag ModelTlv ModelDisplay ModelMain SpecDisplay
  ProofsUtil ModelTerminal SpecTerminal ProofsTerminal ModelStdout SpecStdout.
Import ListNotations.
Local Open Scope N_scope.

Definition sent (s : stream) : list N := s_taken s ++ s_buffer s.
Definition broken (dev : device) (s : stream) : Prop := exists n, (n < s_calls s)%nat /\ refuses (dev n).

(** ** The calls *)

Lemma raw_all_spec fuel : forall dev s b s' rest ok, raw_all fuel dev s b = (s', rest, ok) ->
  (exists x, b = x ++ rest /\ s_taken s' = s_taken s ++ x) /\ s_buffer s' = s_buffer s /\ (s_calls s <= s_calls s')%nat
  /\ (ok = true -> rest = []) /\ (ok = false -> rest <> [])
  /\ ((List.length b <= fuel)%nat -> ok = false -> broken dev s').
Proof.
  induction fuel as [|fuel IH]; intros dev s b s' rest ok H; destruct b as [|c b]; cbn [raw_all] in H.
  - injection H as <- <- <-. repeat split; try lia; try discriminate. exists []. split; [reflexivity|now rewrite app_nil_r].
  - injection H as <- <- <-. repeat split; try lia; try discriminate. exists []. split; [reflexivity|now rewrite app_nil_r]. cbn; lia.
  - injection H as <- <- <-. repeat split; try lia; try discriminate. exists []. split; [reflexivity|now rewrite app_nil_r].
  - assert (Stop : refuses (dev (s_calls s)) -> (mkStream (s_buffer s) (s_taken s) (S (s_calls s)), c :: b, false) = (s', rest, ok) ->
      (exists x, c :: b = x ++ rest /\ s_taken s' = s_taken s ++ x) /\ s_buffer s' = s_buffer s /\ (s_calls s <= s_calls s')%nat
      /\ (ok = true -> rest = []) /\ (ok = false -> rest <> []) /\ ((List.length (c :: b) <= S fuel)%nat -> ok = false -> broken dev s')).
    { intros R E. injection E as <- <- <-. cbn [s_calls s_buffer s_taken]. repeat split; try lia; try discriminate.
      - exists []. split; [reflexivity|now rewrite app_nil_r].
      - intros _ _. exists (s_calls s). cbn [s_calls]. split; [lia|assumption]. }
    destruct (dev (s_calls s)) as [[|k]|] eqn:D.
    + apply Stop; [now right|assumption].
    + set (j := N.to_nat (N.min (N.pos k) (len (c :: b)))) in H.
      apply IH in H. cbn [s_calls s_buffer s_taken] in H. destruct H as ((x & E & T) & B & C & O & O' & Q).
      assert (J : (0 < j)%nat) by (unfold j, len; cbn [List.length]; lia).
      repeat split; try assumption; try lia.
      * exists (firstn j (c :: b) ++ x). rewrite <- app_assoc, <- E, firstn_skipn. split; [reflexivity|]. now rewrite T, app_assoc.
      * intros L. apply Q. rewrite skipn_length. cbn [List.length] in *. lia.
    + apply Stop; [now left|assumption].
Qed.

(* On a device broken for good nothing more is taken. *)
Lemma raw_all_broken fuel dev s b s' rest ok : for_good dev -> broken dev s -> raw_all fuel dev s b = (s', rest, ok) -> s_taken s' = s_taken s.
Proof.
  intros G (n & L & R) H. destruct fuel as [|fuel], b as [|c b]; cbn [raw_all] in H; try (injection H as <- <- <-; reflexivity).
  pose proof (G n (s_calls s) ltac:(lia) R) as R'. destruct R' as [R'|R']; rewrite R' in H; injection H as <- <- <-; reflexivity.
Qed.
Lemma broken_later dev s s' : (s_calls s <= s_calls s')%nat -> broken dev s -> broken dev s'.
Proof. intros L (n & Ln & R). exists n. split; [lia|assumption]. Qed.

(** ** What an operation does

    Of the bytes [b] handed over, [x] have been taken or are waiting; all of them if it went
    well.  Nothing waits that did not wait before or was handed over. *)
Record did (dev : device) (s : stream) (b : list N) (s' : stream) (ok : bool) (x : list N) : Prop := {
  did_sent : sent s' = sent s ++ x;
  did_some : exists y, b = x ++ y;
  did_all : ok = true -> x = b;
  did_fail : ok = false -> broken dev s';
  did_calls : (s_calls s <= s_calls s')%nat;
  did_waits : forall c, In c (s_buffer s') -> In c (s_buffer s) \/ In c b;
  did_good : for_good dev -> broken dev s -> s_taken s' = s_taken s;
}.

Lemma write_raw_did dev s b s' ok : s_buffer s = [] -> write_raw dev s b = (s', ok) -> exists x, did dev s b s' ok x /\ s_buffer s' = [].
Proof.
  unfold write_raw. intros E H. destruct (raw_all (List.length b) dev s b) as [[s1 rest] ok1] eqn:R. injection H as <- <-.
  pose proof (raw_all_spec _ _ _ _ _ _ _ R) as ((x & B & T) & Bu & C & O & O' & Q). exists x. split; [|congruence]. constructor.
  - unfold sent. rewrite Bu, E, T, !app_nil_r. reflexivity.
  - now exists rest.
  - intros K. rewrite B, (O K), app_nil_r. reflexivity.
  - apply Q. lia.
  - assumption.
  - intros c. rewrite Bu. tauto.
  - intros G D. exact (raw_all_broken _ _ _ _ _ _ _ G D R).
Qed.
Lemma flush_did dev s s' ok : flush_buf dev s = (s', ok) -> did dev s [] s' ok [] /\ (ok = true -> s_buffer s' = []) /\ exists w, s_buffer s = w ++ s_buffer s'.
Proof.
  unfold flush_buf. intros H. destruct (raw_all (List.length (s_buffer s)) dev s (s_buffer s)) as [[s1 rest] ok1] eqn:R. injection H as <- <-.
  pose proof (raw_all_spec _ _ _ _ _ _ _ R) as ((x & B & T) & Bu & C & O & O' & Q). cbn [s_buffer s_taken s_calls]. split; [constructor|split; [assumption|now exists x]]; cbn [s_buffer s_taken s_calls].
  - unfold sent. cbn [s_buffer s_taken]. rewrite T, B, app_nil_r, <- app_assoc. reflexivity.
  - now exists [].
  - reflexivity.
  - intros F. destruct (Q ltac:(lia) F) as (n & L & N). exists n. split; assumption.
  - assumption.
  - intros c I. left. rewrite B. apply in_or_app. now right.
  - intros G D. exact (raw_all_broken _ _ _ _ _ _ _ G D R).
Qed.
Lemma push_did dev s b : did dev s b (push s b) true b.
Proof.
  constructor; cbn; try reflexivity; try lia; try discriminate.
  - unfold sent, push. cbn. now rewrite app_assoc.
  - exists []. now rewrite app_nil_r.
  - intros c I. now apply in_app_or.
Qed.
Lemma did_nothing dev s : did dev s [] s true [].
Proof. constructor; try reflexivity; try lia; try discriminate. now rewrite app_nil_r. now exists []. tauto. Qed.

(* One operation after another. *)
Lemma did_then dev s a s1 b s2 ok x y : did dev s a s1 true x -> did dev s1 b s2 ok y -> did dev s (a ++ b) s2 ok (a ++ y).
Proof.
  intros [A1 A2 A3 A4 A5 A6 A7] [B1 B2 B3 B4 B5 B6 B7]. specialize (A3 eq_refl). subst x. constructor; try assumption; try lia.
  - now rewrite B1, A1, app_assoc.
  - destruct B2 as (z & ->). exists z. now rewrite app_assoc.
  - intros E. now rewrite (B3 E).
  - intros c I. destruct (B6 c I) as [I'|I'].
    + destruct (A6 c I'); [now left|right; apply in_or_app; now left].
    + right; apply in_or_app; now right.
  - intros G D. rewrite (B7 G (broken_later _ _ _ A5 D)). exact (A7 G D).
Qed.
(* A failing operation, and nothing after it. *)
Lemma did_stop dev s a s1 b x : did dev s a s1 false x -> did dev s (a ++ b) s1 false x.
Proof.
  intros [A1 A2 A3 A4 A5 A6 A7]. constructor; try assumption; try discriminate.
  - destruct A2 as (z & ->). exists (z ++ b). now rewrite app_assoc.
  - intros c I. destruct (A6 c I); [now left|right; apply in_or_app; now left].
Qed.

Lemma buf_write_did dev s b s' ok : buf_write_all dev s b = (s', ok) -> exists x, did dev s b s' ok x /\ (ok = false -> len b < capacity -> x = []).
Proof.
  unfold buf_write_all. destruct (len b <? capacity - len (s_buffer s)) eqn:Sp.
  { intros H. injection H as <- <-. exists b. split; [apply push_did|discriminate]. }
  destruct (capacity - len (s_buffer s) <? len b) eqn:Fl.
  - destruct (flush_buf dev s) as [s1 ok1] eqn:F. destruct (flush_did _ _ _ _ F) as (D & E & _). destruct ok1; cbn [negb].
    + destruct (capacity <=? len b) eqn:C.
      * intros H. destruct (write_raw_did _ _ _ _ _ (E eq_refl) H) as (x & D' & _). exists x. split; [exact (did_then _ _ _ _ _ _ _ _ _ D D')|lia].
      * intros H. injection H as <- <-. exists b. split; [exact (did_then _ _ _ _ _ _ _ _ _ D (push_did dev s1 b))|discriminate].
    + intros H. injection H as <- <-. exists []. split; [exact (did_stop _ _ _ _ b _ D)|reflexivity].
  - cbn [negb]. destruct (capacity <=? len b) eqn:C.
    + intros H. assert (E : s_buffer s = []). { unfold len in *. destruct (s_buffer s); [reflexivity|]. cbn [List.length] in *. unfold capacity in *. lia. }
      destruct (write_raw_did _ _ _ _ _ E H) as (x & D' & _). exists x. split; [assumption|lia].
    + intros H. injection H as <- <-. exists b. split; [apply push_did|discriminate].
Qed.

Lemma split_lines_some b l t : split_lines b = Some (l, t) -> b = l ++ t /\ ~ In 10 t.
Proof.
  revert l t. induction b as [|c b IH]; intros l t H; cbn [split_lines] in H; [discriminate|].
  destruct (split_lines b) as [[l' t']|] eqn:S.
  - injection H as <- <-. destruct (IH _ _ eq_refl) as (-> & N). split; [reflexivity|assumption].
  - destruct (c =? 10) eqn:E; [|discriminate]. injection H as <- <-. split; [reflexivity|].
    clear - S. induction b as [|d b IH]; [now intros []|]. cbn [split_lines] in S. destruct (split_lines b) as [[? ?]|]; [discriminate|].
    destruct (d =? 10) eqn:E; [discriminate|]. intros [->|I]; [lia|]. exact (IH eq_refl I).
Qed.
Lemma split_lines_none b : split_lines b = None <-> ~ In 10 b.
Proof.
  induction b as [|c b IH]; cbn [split_lines]; [now split|]. destruct (split_lines b) as [[l t]|].
  - split; [discriminate|]. intros N. exfalso. assert (~ In 10 b) as K by (intros I; apply N; now right). apply IH in K. discriminate.
  - pose proof (proj1 IH eq_refl) as N. destruct (c =? 10) eqn:E.
    + split; [discriminate|]. intros N'. exfalso. apply N'. left. lia.
    + split; [|reflexivity]. intros _ [->|I]; [lia|now apply N].
Qed.

(* A write to stdout: nothing waits that ends a line, unless it failed. *)
Lemma line_write_did dev s b s' ok : ~ In 10 (s_buffer s) -> line_write_all dev s b = (s', ok) -> exists x, did dev s b s' ok x
  /\ (ok = true -> ~ In 10 (s_buffer s')) /\ (ok = false -> len b < capacity -> ~ In 10 b -> x = [] /\ ~ In 10 (s_buffer s')).
Proof.
  intros N H. unfold line_write_all in H. destruct (split_lines b) as [[l t]|] eqn:S.
  - destruct (split_lines_some _ _ _ S) as (-> & Nt).
    assert (Nb : ~ ~ In 10 (l ++ t)). { intros K. apply split_lines_none in K. rewrite K in S. discriminate. }
    assert (K : forall s1 ok1, match s_buffer s with [] => write_raw dev s l
        | _ => let '(s, ok) := buf_write_all dev s l in if negb ok then (s, false) else flush_buf dev s end = (s1, ok1) ->
        exists x, did dev s l s1 ok1 x /\ (ok1 = true -> s_buffer s1 = [])).
    { intros s1 ok1 E. destruct (s_buffer s) as [|c w] eqn:B.
      - destruct (write_raw_did _ _ _ _ _ B E) as (x & D & E'). exists x. split; [assumption|trivial].
      - destruct (buf_write_all dev s l) as [s2 ok2] eqn:W. destruct (buf_write_did _ _ _ _ _ W) as (x & D & _). destruct ok2; cbn [negb] in E.
        + destruct (flush_did _ _ _ _ E) as (D' & E' & _). exists (l ++ []). split; [|assumption]. rewrite <- (app_nil_r l) at 1. exact (did_then _ _ _ _ _ _ _ _ _ D D').
        + injection E as <- <-. exists x. split; [assumption|discriminate]. }
    match type of H with (let '(_, _) := ?X in _) = _ => destruct X as [s1 ok1] eqn:W end. destruct (K s1 ok1 eq_refl) as (x & D & E). destruct ok1; cbn [negb] in H.
    + destruct (buf_write_did _ _ _ _ _ H) as (y & D' & _). exists (l ++ y). split; [exact (did_then _ _ _ _ _ _ _ _ _ D D')|]. split; [|intros; exfalso; now apply Nb].
      intros _ I. destruct (did_waits _ _ _ _ _ _ D' 10 I) as [I'|I']; [rewrite (E eq_refl) in I'; destruct I'|now apply Nt].
    + injection H as <- <-. exists x. split; [now apply did_stop|]. split; [discriminate|]. intros; exfalso; now apply Nb.
  - apply split_lines_none in S.
    assert (R : match rev (s_buffer s) with 10 :: _ => flush_buf dev s | _ => (s, true) end = (s, true)).
    { destruct (rev (s_buffer s)) as [|c w] eqn:R; [reflexivity|]. destruct (N.eq_dec c 10) as [->|Nc].
      - exfalso. apply N. apply in_rev. rewrite R. now left.
      - destruct c as [|c]; [reflexivity|]. do 4 (try destruct c as [c|c|]); try reflexivity. now destruct Nc. }
    rewrite R in H. cbn [negb] in H. destruct (buf_write_did _ _ _ _ _ H) as (x & D & E). exists x. split; [assumption|].
    assert (Nw : ~ In 10 (s_buffer s')) by (intros I; destruct (did_waits _ _ _ _ _ _ D 10 I); contradiction).
    split; [trivial|]. intros F L _. split; [now apply E|assumption].
Qed.

(** ** Pieces *)

Lemma pieces_did dev ps : forall s s' ok, ~ In 10 (s_buffer s) -> write_pieces dev s ps = (s', ok) ->
  exists x, did dev s (List.concat ps) s' ok x /\ (ok = true -> ~ In 10 (s_buffer s')).
Proof.
  induction ps as [|b ps IH]; intros s s' ok N H; cbn [write_pieces List.concat] in *.
  - injection H as <- <-. exists []. split; [apply did_nothing|trivial].
  - destruct (line_write_all dev s b) as [s1 ok1] eqn:W. destruct (line_write_did _ _ _ _ _ N W) as (x & D & N1 & _). destruct ok1.
    + destruct (IH _ _ _ (N1 eq_refl) H) as (y & D' & N2). exists (b ++ y). split; [exact (did_then _ _ _ _ _ _ _ _ _ D D')|assumption].
    + injection H as <- <-. exists x. split; [now apply did_stop|discriminate].
Qed.

(* Pieces that fit into the buffer and end no line: the first ones are sent whole, the others
   not at all. *)
Definition small (b : list N) : Prop := len b < capacity /\ ~ In 10 b.
Lemma small_did dev ps : forall s s' ok, Forall small ps -> ~ In 10 (s_buffer s) -> write_pieces dev s ps = (s', ok) ->
  exists a z, ps = a ++ z /\ did dev s (List.concat ps) s' ok (List.concat a) /\ ~ In 10 (s_buffer s').
Proof.
  induction ps as [|b ps IH]; intros s s' ok F N H; cbn [write_pieces List.concat] in *.
  - injection H as <- <-. exists [], []. split; [reflexivity|]. split; [apply did_nothing|assumption].
  - inversion F as [|? ? [L Nb] F']; subst. destruct (line_write_all dev s b) as [s1 ok1] eqn:W. destruct (line_write_did _ _ _ _ _ N W) as (x & D & N1 & N0). destruct ok1.
    + destruct (IH _ _ _ F' (N1 eq_refl) H) as (a & z & -> & D' & N2). exists (b :: a), z. split; [reflexivity|]. split; [exact (did_then _ _ _ _ _ _ _ _ _ D D')|assumption].
    + injection H as <- <-. destruct (N0 eq_refl L Nb) as (-> & N2). exists [], (b :: ps). split; [reflexivity|]. split; [now apply did_stop|assumption].
Qed.

(** ** All actions *)

Definition action_bytes (a : action) : list N := match a with Print ps => List.concat ps | Colour ps => List.concat ps end.
Definition small_action (a : action) : Prop := match a with Print _ => True | Colour ps => Forall small ps end.
(* The texts whole, of each colour the first pieces. *)
Inductive thinned : list action -> list N -> Prop :=
| thinned_nil : thinned [] []
| thinned_print ps l z : thinned l z -> thinned (Print ps :: l) (List.concat ps ++ z)
| thinned_colour a b l z : thinned l z -> thinned (Colour (a ++ b) :: l) (List.concat a ++ z).
Lemma thinned_all l : thinned l (flat_map action_bytes l).
Proof.
  induction l as [|[ps|ps] l IH]; cbn [flat_map action_bytes]; [constructor|now constructor|]. rewrite <- (app_nil_r ps) at 1. now constructor.
Qed.

Lemma perform_thinned dev l : forall s s' ok, Forall small_action l -> ~ In 10 (s_buffer s) -> perform dev s l = (s', ok) ->
  exists z rest, thinned l z /\ sent s ++ z = sent s' ++ rest /\ (ok = true -> rest = [] /\ ~ In 10 (s_buffer s')).
Proof.
  induction l as [|[ps|ps] l IH]; intros s s' ok F N H; cbn [perform] in H.
  - injection H as <- <-. exists [], []. split; [constructor|]. now split.
  - inversion F as [|? ? _ F']; subst. destruct (write_pieces dev s ps) as [s1 ok1] eqn:W. destruct (pieces_did _ _ _ _ _ N W) as (x & D & N1). destruct ok1.
    + destruct (IH _ _ _ F' (N1 eq_refl) H) as (z & rest & T & E & O). exists (List.concat ps ++ z), rest. split; [now constructor|]. split; [|assumption].
      rewrite <- E, (did_sent _ _ _ _ _ _ D), (did_all _ _ _ _ _ _ D eq_refl). now rewrite app_assoc.
    + injection H as <- <-. destruct (did_some _ _ _ _ _ _ D) as (y & Y). exists (List.concat ps ++ flat_map action_bytes l), (y ++ flat_map action_bytes l).
      split; [constructor; apply thinned_all|]. split; [|discriminate]. rewrite (did_sent _ _ _ _ _ _ D), Y, <- !app_assoc. reflexivity.
  - inversion F as [|? ? S F']; subst. destruct (write_pieces dev s ps) as [s1 ok1] eqn:W. destruct (small_did _ _ _ _ _ S N W) as (a & b & -> & D & N1). cbn [fst] in H.
    destruct (IH _ _ _ F' N1 H) as (z & rest & T & E & O). exists (List.concat a ++ z), rest. split; [now constructor|]. split; [|assumption].
    rewrite <- E, (did_sent _ _ _ _ _ _ D). now rewrite app_assoc.
Qed.

(* On a device that once broken stays so, what is taken is the beginning of everything. *)
Definition on_the_way (dev : device) (s : stream) (full : list N) : Prop :=
  sent s = full \/ broken dev s /\ exists r, full = s_taken s ++ r.
Lemma did_on_the_way dev s b s' ok x full : for_good dev -> did dev s b s' ok x -> on_the_way dev s full -> on_the_way dev s' (full ++ b).
Proof.
  intros G D [E|(B & r & E)].
  - destruct ok.
    + left. rewrite (did_sent _ _ _ _ _ _ D), (did_all _ _ _ _ _ _ D eq_refl), E. reflexivity.
    + right. split; [exact (did_fail _ _ _ _ _ _ D eq_refl)|]. destruct (did_some _ _ _ _ _ _ D) as (y & Y). exists (s_buffer s' ++ y).
      rewrite Y, <- E, app_assoc, <- (did_sent _ _ _ _ _ _ D). unfold sent. now rewrite app_assoc.
  - right. split; [exact (broken_later _ _ _ (did_calls _ _ _ _ _ _ D) B)|]. exists (r ++ b). rewrite (did_good _ _ _ _ _ _ D G B), E. now rewrite app_assoc.
Qed.
Lemma on_the_way_more dev s full more : broken dev s -> on_the_way dev s full -> on_the_way dev s (full ++ more).
Proof.
  intros B [E|(_ & r & E)]; right; (split; [assumption|]).
  - exists (s_buffer s ++ more). rewrite <- E. unfold sent. now rewrite app_assoc.
  - exists (r ++ more). rewrite E. now rewrite app_assoc.
Qed.
Lemma perform_on_the_way dev l : for_good dev -> Forall small_action l -> forall s s' ok full, ~ In 10 (s_buffer s) -> perform dev s l = (s', ok) ->
  on_the_way dev s full -> on_the_way dev s' (full ++ flat_map action_bytes l) /\ (ok = false -> broken dev s').
Proof.
  intros G. induction l as [|[ps|ps] l IH]; intros F s s' ok full N H O; cbn [perform flat_map action_bytes] in *.
  - injection H as <- <-. rewrite app_nil_r. split; [assumption|discriminate].
  - inversion F as [|? ? _ F']; subst. destruct (write_pieces dev s ps) as [s1 ok1] eqn:W. destruct (pieces_did _ _ _ _ _ N W) as (x & D & N1).
    pose proof (did_on_the_way _ _ _ _ _ _ _ G D O) as O1. rewrite app_assoc. destruct ok1.
    + exact (IH F' _ _ _ _ (N1 eq_refl) H O1).
    + injection H as <- <-. pose proof (did_fail _ _ _ _ _ _ D eq_refl) as B. split; [now apply on_the_way_more|trivial].
  - inversion F as [|? ? S F']; subst. destruct (write_pieces dev s ps) as [s1 ok1] eqn:W. destruct (small_did _ _ _ _ _ S N W) as (a & b & -> & D & N1). cbn [fst] in H.
    rewrite app_assoc. exact (IH F' _ _ _ _ N1 H (did_on_the_way _ _ _ _ _ _ _ G D O)).
Qed.

(* On a device that never refuses, everything is taken. *)
Lemma dependable_not_broken dev s : dependable dev -> ~ broken dev s.
Proof. intros Dp (n & _ & [R|R]); destruct (Dp n) as (k & K & P); rewrite K in R; [discriminate|injection R as ->; lia]. Qed.
Lemma perform_dependable dev l : dependable dev -> Forall small_action l -> forall s s' ok, ~ In 10 (s_buffer s) -> perform dev s l = (s', ok) ->
  ok = true /\ sent s' = sent s ++ flat_map action_bytes l.
Proof.
  intros Dp F s s' ok N H. assert (G : for_good dev). { intros n m _ R. exfalso. apply (dependable_not_broken dev (mkStream [] [] (S n)) Dp). exists n. cbn. split; [lia|assumption]. }
  destruct (perform_on_the_way dev l G F s s' ok (sent s) N H (or_introl eq_refl)) as ([E|(B & _)] & Q).
  - split; [|assumption]. destruct ok; [reflexivity|]. exfalso. exact (dependable_not_broken _ _ Dp (Q eq_refl)).
  - exfalso. exact (dependable_not_broken _ _ Dp B).
Qed.

(* Without colours whatever went well has been sent whole. *)
Lemma perform_plain dev l : (forall ps, In (Colour ps) l -> ps = []) -> forall s s' ok, ~ In 10 (s_buffer s) -> perform dev s l = (s', ok) ->
  ok = true -> sent s' = sent s ++ flat_map action_bytes l.
Proof.
  induction l as [|[ps|ps] l IH]; intros C s s' ok N H O; cbn [perform flat_map action_bytes] in *.
  - injection H as <- <-. now rewrite app_nil_r.
  - destruct (write_pieces dev s ps) as [s1 ok1] eqn:W. destruct (pieces_did _ _ _ _ _ N W) as (x & D & N1). destruct ok1; [|injection H as <- <-; discriminate].
    rewrite (IH (fun ps I => C ps (or_intror I)) _ _ _ (N1 eq_refl) H O), (did_sent _ _ _ _ _ _ D), (did_all _ _ _ _ _ _ D eq_refl). now rewrite app_assoc.
  - rewrite (C ps (or_introl eq_refl)) in *. cbn [write_pieces fst] in H. exact (IH (fun ps I => C ps (or_intror I)) _ _ _ N H O).
Qed.

(** ** What is lost

    If a [print!] fails, some of its bytes are not taken, and nothing after them. *)

Definition lost (s : stream) (b : list N) (s' : stream) : Prop :=
  exists x y r, b = x ++ y /\ y <> [] /\ sent s ++ x = s_taken s' ++ r.

Lemma write_raw_lost dev s b s' : s_buffer s = [] -> write_raw dev s b = (s', false) -> lost s b s'.
Proof.
  unfold write_raw. intros E H. destruct (raw_all (List.length b) dev s b) as [[s1 rest] ok1] eqn:R. injection H as <- ->.
  pose proof (raw_all_spec _ _ _ _ _ _ _ R) as ((x & B & T) & _ & _ & _ & O & _). exists x, rest, []. split; [assumption|]. split; [now apply O|].
  unfold sent. now rewrite T, E, !app_nil_r.
Qed.
Lemma flush_lost dev s s' : flush_buf dev s = (s', false) -> s_buffer s' <> [].
Proof.
  unfold flush_buf. intros H. destruct (raw_all (List.length (s_buffer s)) dev s (s_buffer s)) as [[s1 rest] ok1] eqn:R. injection H as <- ->.
  pose proof (raw_all_spec _ _ _ _ _ _ _ R) as (_ & _ & _ & _ & O & _). now apply O.
Qed.
(* A failure after more has been handed over, and before. *)
Lemma lost_after dev s a s1 b s' x : did dev s a s1 true x -> lost s1 b s' -> lost s (a ++ b) s'.
Proof.
  intros D (u & y & r & -> & Y & E). exists (a ++ u), y, r. split; [now rewrite app_assoc|]. split; [assumption|].
  rewrite <- E, (did_sent _ _ _ _ _ _ D), (did_all _ _ _ _ _ _ D eq_refl). now rewrite app_assoc.
Qed.
Lemma lost_before s a b s' : lost s a s' -> lost s (a ++ b) s'.
Proof.
  intros (u & y & r & -> & Y & E). exists u, (y ++ b), r. split; [now rewrite app_assoc|]. split; [|assumption]. destruct y; [now destruct Y|discriminate].
Qed.
Lemma buf_write_lost dev s b s' : buf_write_all dev s b = (s', false) -> lost s b s'.
Proof.
  unfold buf_write_all. destruct (len b <? capacity - len (s_buffer s)) eqn:Sp; [discriminate|].
  destruct (capacity - len (s_buffer s) <? len b) eqn:Fl.
  - destruct (flush_buf dev s) as [s1 ok1] eqn:F. destruct (flush_did _ _ _ _ F) as (D & E & _). destruct ok1; cbn [negb].
    + destruct (capacity <=? len b) eqn:C; [|discriminate]. intros H. exact (lost_after _ _ _ _ _ _ _ D (write_raw_lost _ _ _ _ (E eq_refl) H)).
    + intros H. injection H as <-. exists [], b, (s_buffer s1). split; [reflexivity|]. split; [intros ->; cbn in Fl; lia|]. exact (eq_sym (did_sent _ _ _ _ _ _ D)).
  - cbn [negb]. destruct (capacity <=? len b) eqn:C; [|discriminate]. apply write_raw_lost.
    unfold len in *. destruct (s_buffer s); [reflexivity|]. cbn [List.length] in *. unfold capacity in *. lia.
Qed.
Lemma line_write_lost dev s b s' : ~ In 10 (s_buffer s) -> line_write_all dev s b = (s', false) -> lost s b s'.
Proof.
  intros N H. unfold line_write_all in H. destruct (split_lines b) as [[l t]|] eqn:S.
  - assert (Nl : l <> []).
    { destruct b as [|c b]; [discriminate|]. cbn [split_lines] in S. destruct (split_lines b) as [[? ?]|]; [|destruct (c =? 10); [|discriminate]]; injection S as <- _; discriminate. }
    destruct (split_lines_some _ _ _ S) as (-> & _).
    match type of H with (let '(_, _) := ?X in _) = _ => assert (K : forall s1 ok1, X = (s1, ok1) -> if ok1 then exists x, did dev s l s1 true x else lost s l s1) end.
    { intros s1 ok1 E. destruct (s_buffer s) as [|c w] eqn:B.
      - destruct ok1; [destruct (write_raw_did _ _ _ _ _ B E) as (x & D & _); now exists x|]. exact (write_raw_lost _ _ _ _ B E).
      - destruct (buf_write_all dev s l) as [s2 ok2] eqn:W. destruct ok2; cbn [negb] in E.
        + destruct (buf_write_did _ _ _ _ _ W) as (x & D & _). destruct (flush_did _ _ _ _ E) as (D' & _). destruct ok1.
          * exists (l ++ []). rewrite <- (app_nil_r l) at 1. exact (did_then _ _ _ _ _ _ _ _ _ D D').
          * pose proof (flush_lost _ _ _ E) as Nw. pose proof (did_sent _ _ _ _ _ _ D') as Q. rewrite (did_sent _ _ _ _ _ _ D), (did_all _ _ _ _ _ _ D eq_refl), app_nil_r in Q.
            unfold sent at 1 in Q. symmetry in Q. destruct (app_eq_app _ _ _ _ Q) as (v & [(V1 & V2)|(V1 & V2)]).
            -- exists [], l, v. split; [reflexivity|]. split; [assumption|]. now rewrite app_nil_r.
            -- exists v, (s_buffer s1), []. split; [assumption|]. split; [assumption|]. now rewrite V1, app_nil_r.
        + injection E as <- <-. exact (buf_write_lost _ _ _ _ W). }
    match type of H with (let '(_, _) := ?X in _) = _ => destruct X as [s1 ok1] eqn:W end. specialize (K s1 ok1 eq_refl). destruct ok1; cbn [negb] in H.
    + destruct K as (x & D). exact (lost_after _ _ _ _ _ _ _ D (buf_write_lost _ _ _ _ H)).
    + injection H as <-. now apply lost_before.
  - assert (R : match rev (s_buffer s) with 10 :: _ => flush_buf dev s | _ => (s, true) end = (s, true)).
    { destruct (rev (s_buffer s)) as [|c w] eqn:R; [reflexivity|]. destruct (N.eq_dec c 10) as [->|Nc].
      - exfalso. apply N. apply in_rev. rewrite R. now left.
      - destruct c as [|c]; [reflexivity|]. do 4 (try destruct c as [c|c|]); try reflexivity. now destruct Nc. }
    rewrite R in H. cbn [negb] in H. now apply (buf_write_lost dev).
Qed.
Lemma pieces_lost dev ps : forall s s', ~ In 10 (s_buffer s) -> write_pieces dev s ps = (s', false) -> lost s (List.concat ps) s'.
Proof.
  induction ps as [|b ps IH]; intros s s' N H; cbn [write_pieces List.concat] in *; [discriminate|].
  destruct (line_write_all dev s b) as [s1 ok1] eqn:W. destruct (line_write_did _ _ _ _ _ N W) as (x & D & N1 & _). destruct ok1.
  - exact (lost_after _ _ _ _ _ _ _ D (IH _ _ (N1 eq_refl) H)).
  - injection H as <-. apply lost_before. exact (line_write_lost _ _ _ _ N W).
Qed.
Lemma perform_lost dev l : forall s s', Forall small_action l -> ~ In 10 (s_buffer s) -> perform dev s l = (s', false) ->
  exists l1 ps l2 z x y r, l = l1 ++ Print ps :: l2 /\ thinned l1 z /\ List.concat ps = x ++ y /\ y <> [] /\ sent s ++ z ++ x = s_taken s' ++ r.
Proof.
  induction l as [|[ps|ps] l IH]; intros s s' F N H; cbn [perform] in H; [discriminate| |].
  - inversion F as [|? ? _ F']; subst. destruct (write_pieces dev s ps) as [s1 ok1] eqn:W. destruct (pieces_did _ _ _ _ _ N W) as (x & D & N1). destruct ok1.
    + destruct (IH _ _ F' (N1 eq_refl) H) as (l1 & qs & l2 & z & u & y & r & -> & T & C & Y & E). exists (Print ps :: l1), qs, l2, (List.concat ps ++ z), u, y, r.
      split; [reflexivity|]. split; [now constructor|]. split; [assumption|]. split; [assumption|]. rewrite <- E, (did_sent _ _ _ _ _ _ D), (did_all _ _ _ _ _ _ D eq_refl). now rewrite <- !app_assoc.
    + injection H as <-. destruct (pieces_lost _ _ _ _ N W) as (u & y & r & C & Y & E). exists [], ps, l, [], u, y, r. repeat split; try assumption. constructor.
  - inversion F as [|? ? S F']; subst. destruct (write_pieces dev s ps) as [s1 ok1] eqn:W. destruct (small_did _ _ _ _ _ S N W) as (a & b & -> & D & N1). cbn [fst] in H.
    destruct (IH _ _ F' N1 H) as (l1 & qs & l2 & z & u & y & r & -> & T & C & Y & E). exists (Colour (a ++ b) :: l1), qs, l2, (List.concat a ++ z), u, y, r.
    split; [reflexivity|]. split; [now constructor|]. split; [assumption|]. split; [assumption|]. rewrite <- E, (did_sent _ _ _ _ _ _ D). now rewrite <- !app_assoc.
Qed.

(** ** On the terminal *)

Lemma receive_grows t b : exists w, t_cells (receive t b) = t_cells t ++ w.
Proof.
  unfold receive, put, go. destruct (t_phase t); repeat match goal with |- context [if ?c then _ else _] => destruct c end; cbn [t_cells];
    first [now eexists|exists []; now rewrite app_nil_r].
Qed.
Lemma receives_grows bs : forall t, exists w, t_cells (receives t bs) = t_cells t ++ w.
Proof.
  induction bs as [|b bs IH]; intros t; [exists []; now rewrite app_nil_r|]. change (receives t (b :: bs)) with (receives (receive t b) bs).
  destruct (IH (receive t b)) as (w & ->). destruct (receive_grows t b) as (v & ->). exists (v ++ w). now rewrite app_assoc.
Qed.

Definition spoken (l : list event) : str := flat_map (fun e => match e with Txt s => s | _ => [] end) l.
Lemma spoken_screen l : forall st, map snd (screen st l) = spoken l.
Proof.
  induction l as [|[s|c|] l IH]; intros st; cbn [screen spoken flat_map app]; [reflexivity| |apply IH|apply IH].
  rewrite map_app. fold (spoken l). rewrite <- (IH st). f_equal. unfold ink. rewrite map_map. apply map_id.
Qed.

Definition speakable (e : event) : Prop := match e with Txt s => Forall (fun c => is_scalar c /\ c <> 27) s | _ => True end.
(* Bytes that show exactly this text, wherever the terminal is. *)
Definition says (z : list N) (s : str) : Prop := forall l cells, exists l' w,
  receives (mkTerm Ground l cells) z = mkTerm Ground l' (cells ++ w) /\ map snd w = s.
Lemma says_nil : says [] [].
Proof. intros l cells. exists l, []. split; [now rewrite app_nil_r|reflexivity]. Qed.
Lemma says_app a s b t : says a s -> says b t -> says (a ++ b) (s ++ t).
Proof.
  intros A B l cells. destruct (A l cells) as (l1 & w1 & E1 & M1). destruct (B l1 (cells ++ w1)) as (l2 & w2 & E2 & M2). exists l2, (w1 ++ w2).
  rewrite receives_app, E1, E2, map_app, M1, M2, app_assoc. now split.
Qed.
Lemma says_text s : Forall (fun c => is_scalar c /\ c <> 27) s -> says (utf8 s) s.
Proof. intros F l cells. exists l, (map (pair l) s). split; [now apply receives_text|]. rewrite map_map. apply map_id. Qed.
Lemma says_code b : (exists k, forall l cells, receives (mkTerm Ground l cells) b = mkTerm Ground (k l) cells) -> says b [].
Proof. intros (k & E) l cells. exists (k l), []. split; [now rewrite app_nil_r|reflexivity]. Qed.
Lemma says_pieces a : Forall (fun b => says b []) a -> says (List.concat a) [].
Proof. induction 1 as [|b a B _ IH]; [apply says_nil|]. cbn [List.concat]. change (@nil N) with (@nil N ++ []). now apply says_app. Qed.

Lemma acts_colours colours e ps : acts colours e (Colour ps) -> Forall (fun b => says b []) ps /\ Forall small ps.
Proof.
  assert (R : says write_reset [] /\ small write_reset).
  { split; [|split; [reflexivity|cbn; intuition discriminate]]. apply says_code. exists (fun _ => plain_look). reflexivity. }
  assert (B : says [27; 91; 49; 109] [] /\ small [27; 91; 49; 109]).
  { split; [|split; [reflexivity|cbn; intuition discriminate]]. apply says_code. exists (fun l => mkLook true (lk_colour l)). reflexivity. }
  assert (C : forall c, says (write_fg c) [] /\ small (write_fg c)).
  { intros c. split; [|split; [reflexivity|destruct c; cbn; intuition discriminate]]. apply says_code. exists (fun l => mkLook (lk_bold l) (Some (colour_number c))). destruct c; reflexivity. }
  intros H. assert (Q : Forall (fun b => says b [] /\ small b) ps).
  { inversion H as [|c|]; subst; destruct colours; try constructor; try assumption; try constructor.
    apply Forall_app. split; [destruct (cs_bold c)|destruct (cs_fg c)]; repeat constructor; solve [apply B|apply C]. }
  split; (eapply Forall_impl; [|exact Q]); intros b K; apply K.
Qed.

Lemma acts_small colours evs l : Forall2 (acts colours) evs l -> Forall small_action l.
Proof. induction 1 as [|e a evs l A _ IH]; constructor; [|assumption]. destruct a; [exact I|]. exact (proj2 (acts_colours _ _ _ A)). Qed.
Lemma acts_bytes colours evs l : Forall2 (acts colours) evs l -> flat_map action_bytes l = write_events colours evs.
Proof.
  unfold write_events. induction 1 as [|e a evs l A _ IH]; [reflexivity|]. cbn [flat_map]. rewrite IH. f_equal.
  inversion A; subst; cbn [action_bytes write_event]; [assumption| |]; destruct colours; try reflexivity.
  unfold spec_pieces, write_spec. destruct (cs_bold c), (cs_fg c); reflexivity.
Qed.

Lemma thinned_says colours evs l : Forall2 (acts colours) evs l -> forall z, Forall speakable evs -> thinned l z -> says z (spoken evs).
Proof.
  induction 1 as [|e a evs l A _ IH]; intros z F T.
  - inversion T; subst. apply says_nil.
  - inversion F as [|? ? Fe F']; subst. inversion T as [|ps l' z' T'|u v l' z' T']; subst; cbn [spoken flat_map].
    + inversion A; subst. replace (List.concat ps) with (utf8 s) by congruence. apply says_app; [now apply says_text|now apply IH].
    + assert (U : says (List.concat u) []). { apply says_pieces. exact (proj1 (proj1 (Forall_app _ _ _) (proj1 (acts_colours _ _ _ A)))). }
      destruct e as [s| |]; [inversion A| |]; exact (says_app _ [] _ _ U (IH _ F' T')).
Qed.

Lemma utf8_snoc s c : utf8 (s ++ [c]) = utf8 s ++ utf8_char c.
Proof. unfold utf8. rewrite flat_map_app. cbn [flat_map]. now rewrite app_nil_r. Qed.

(* After the last line end nothing more is shown. *)
Lemma thinned_last colours evs l : Forall2 (acts colours) evs l -> forall z t, Forall speakable evs -> thinned l z -> spoken evs = t ++ [10] ->
  exists z1 z2, z = z1 ++ 10 :: z2 /\ says (z1 ++ [10]) (spoken evs) /\ says z2 [].
Proof.
  induction 1 as [|e a evs l A B IH]; intros z t F T E; [destruct t; discriminate|].
  inversion F as [|? ? Fe F']; subst.
  assert (Cut : exists h z', z = h ++ z' /\ thinned l z' /\ says h (match e with Txt s => s | _ => [] end)
    /\ (forall s u, e = Txt s -> s = u ++ [10] -> exists h', h = h' ++ [10])).
  { inversion T as [|ps l' z' T'|u v l' z' T']; subst.
    - inversion A; subst. exists (List.concat ps), z'. replace (List.concat ps) with (utf8 s) by congruence. split; [reflexivity|]. split; [assumption|]. split; [now apply says_text|].
      intros s0 u K1 K2. injection K1 as <-. exists (utf8 u). rewrite K2. apply utf8_snoc.
    - exists (List.concat u), z'. split; [reflexivity|]. split; [assumption|].
      assert (U : says (List.concat u) []). { apply says_pieces. exact (proj1 (proj1 (Forall_app _ _ _) (proj1 (acts_colours _ _ _ A)))). }
      inversion A; subst; (split; [assumption|discriminate]). }
  destruct Cut as (h & z' & -> & T' & Sh & Last). cbn [spoken flat_map] in *. fold (spoken evs) in *.
  destruct (spoken evs) as [|c r] eqn:Sp using rev_ind.
  - rewrite app_nil_r in *. destruct e as [s| |]; [|destruct t; discriminate|destruct t; discriminate].
    destruct (Last s t eq_refl E) as (h' & ->). exists h', z'. rewrite <- app_assoc. split; [reflexivity|]. split; [assumption|].
    rewrite <- Sp. exact (thinned_says _ _ _ B z' F' T').
  - clear IHr. rewrite app_assoc in E. apply app_inj_tail in E. destruct E as (_ & ->).
    destruct (IH z' r F' T' eq_refl) as (z1 & z2 & -> & S1 & S2). exists (h ++ z1), z2. rewrite <- !app_assoc. split; [reflexivity|]. split; [|assumption].
    now apply says_app.
Qed.

(* If bytes that end no line are left out at the end, nothing is missing on the screen. *)
Lemma says_shown z s : says z s -> characters z = s.
Proof. intros S. unfold characters, fresh. destruct (S plain_look []) as (l & w & -> & <-). reflexivity. Qed.
Lemma characters_grow a b : exists w, characters (a ++ b) = characters a ++ w.
Proof. unfold characters. rewrite receives_app. destruct (receives_grows b (receives fresh a)) as (w & ->). exists (map snd w). apply map_app. Qed.
Lemma suffix_no_lf z1 z2 : forall taken rest, z1 ++ 10 :: z2 = taken ++ rest -> ~ In 10 rest -> exists z3, taken = z1 ++ 10 :: z3 /\ z2 = z3 ++ rest.
Proof.
  induction z1 as [|c z1 IH]; intros taken rest E N; destruct taken as [|d taken]; cbn [app] in E.
  - subst rest. exfalso. apply N. now left.
  - injection E as <- E. exists taken. now split.
  - subst rest. exfalso. apply N. right. apply in_or_app. right. now left.
  - injection E as <- E. destruct (IH _ _ E N) as (z3 & -> & ->). now exists z3.
Qed.
Lemma tail_unseen z1 z2 s taken rest : says (z1 ++ [10]) s -> says z2 [] -> z1 ++ 10 :: z2 = taken ++ rest -> ~ In 10 rest -> characters taken = s.
Proof.
  intros S1 S2 E N. destruct (suffix_no_lf _ _ _ _ E N) as (z3 & -> & ->).
  assert (A : characters (z1 ++ [10]) = s) by now apply says_shown.
  assert (B : characters ((z1 ++ [10]) ++ z3 ++ rest) = s ++ []) by (apply says_shown; now apply says_app).
  change (10 :: z3) with ([10] ++ z3). rewrite (app_assoc z1).
  destruct (characters_grow (z1 ++ [10]) z3) as (w & W). destruct (characters_grow ((z1 ++ [10]) ++ z3) rest) as (v & V). rewrite <- app_assoc, B in V. rewrite W, A, app_nil_r in V.
  rewrite <- app_assoc in V. assert (L : w ++ v = []). { apply (app_inv_head s). now rewrite app_nil_r, <- V. }
  apply app_eq_nil in L. destruct L as (-> & _). now rewrite W, A, app_nil_r.
Qed.

(* A character of which bytes are missing is not shown. *)
Lemma cells_lead l cells b : 128 <= b -> t_cells (receive (mkTerm Ground l cells) b) = cells.
Proof. intros H. unfold receive, go; cbn [t_phase]. replace (b =? 27) with false by lia. replace (b <? 128) with false by lia. repeat match goal with |- context [if ?c then _ else _] => destruct c end; reflexivity. Qed.
Lemma cells_partial k x l cells b : k <> 1 -> t_cells (receive (mkTerm (Partial k x) l cells) b) = cells.
Proof. intros H. unfold receive, go; cbn [t_phase]. replace (k =? 1) with false by lia. destruct ((128 <=? b) && (b <? 192)); reflexivity. Qed.
Lemma receive_partial k x l cells b : k <> 1 -> exists q, receive (mkTerm (Partial k x) l cells) b = mkTerm q l cells /\ (q = Confused \/ exists y, q = Partial (k - 1) y).
Proof. intros H. unfold receive, go; cbn [t_phase t_look t_cells]. replace (k =? 1) with false by lia. destruct ((128 <=? b) && (b <? 192)); eexists; (split; [reflexivity|]); [right; now eexists|now left]. Qed.
Ltac pop E := let K := fresh in pose proof (f_equal (hd 0) E) as K; apply (f_equal (@tl N)) in E; cbn [hd tl app] in K, E;
  symmetry in K; match type of K with ?b = _ => subst b end.
Lemma char_prefix c x y l cells : is_scalar c -> utf8_char c = x ++ y -> y <> [] -> t_cells (receives (mkTerm Ground l cells) x) = cells.
Proof.
  intros Sc E Y. unfold is_scalar in Sc.
  pose proof (N.div_mod c 64 ltac:(lia)) as D1. pose proof (N.mod_lt c 64 ltac:(lia)) as M1.
  pose proof (N.div_mod (c / 64) 64 ltac:(lia)) as D2. pose proof (N.mod_lt (c / 64) 64 ltac:(lia)) as M2.
  pose proof (N.div_mod (c / 4096) 64 ltac:(lia)) as D3. pose proof (N.mod_lt (c / 4096) 64 ltac:(lia)) as M3.
  assert (Q1 : c / 64 / 64 = c / 4096) by (rewrite N.div_div by lia; reflexivity).
  assert (Q2 : c / 4096 / 64 = c / 262144) by (rewrite N.div_div by lia; reflexivity).
  rewrite Q1 in D2. rewrite Q2 in D3. unfold utf8_char in E.
  set (m1 := c mod 64) in *. set (m2 := (c / 64) mod 64) in *. set (m3 := (c / 4096) mod 64) in *.
  set (d1 := c / 64) in *. set (d2 := c / 4096) in *. set (d3 := c / 262144) in *. clearbody m1 m2 m3 d1 d2 d3. clear Q1 Q2.
  assert (Nil : forall b : N, t_cells (receives (mkTerm Ground l cells) []) = cells) by reflexivity.
  destruct x as [|b1 x]; [reflexivity|]. change (receives (mkTerm Ground l cells) (b1 :: x)) with (receives (receive (mkTerm Ground l cells) b1) x).
  destruct (c <? 0x80) eqn:C1. { pop E. symmetry in E. apply app_eq_nil in E. now destruct Y. }
  destruct (c <? 0x800) eqn:C2.
  { pop E. destruct x as [|b2 x]; [apply cells_lead; lia|]. exfalso. pop E. symmetry in E. apply app_eq_nil in E. now destruct Y. }
  destruct (c <? 0x10000) eqn:C3.
  { pop E. destruct x as [|b2 x]; [apply cells_lead; lia|]. pop E. destruct x as [|b3 x].
    - assert (H : receive (mkTerm Ground l cells) (0xE0 + d2) = mkTerm (Partial 2 (0xE0 + d2 - 224)) l cells).
      { unfold receive; cbn [t_phase]. replace (0xE0 + d2 =? 27) with false by lia. replace (0xE0 + d2 <? 128) with false by lia.
        replace ((192 <=? 0xE0 + d2) && (0xE0 + d2 <? 224)) with false by lia.
        replace ((224 <=? 0xE0 + d2) && (0xE0 + d2 <? 240)) with true by lia. reflexivity. }
      rewrite H. apply cells_partial. discriminate.
    - exfalso. pop E. symmetry in E. apply app_eq_nil in E. now destruct Y. }
  pop E. destruct x as [|b2 x]; [apply cells_lead; lia|].
  assert (H : receive (mkTerm Ground l cells) (0xF0 + d3) = mkTerm (Partial 3 (0xF0 + d3 - 240)) l cells).
  { unfold receive; cbn [t_phase]. replace (0xF0 + d3 =? 27) with false by lia. replace (0xF0 + d3 <? 128) with false by lia.
    replace ((192 <=? 0xF0 + d3) && (0xF0 + d3 <? 224)) with false by lia.
    replace ((224 <=? 0xF0 + d3) && (0xF0 + d3 <? 240)) with false by lia.
    replace ((240 <=? 0xF0 + d3) && (0xF0 + d3 <? 248)) with true by lia. reflexivity. }
  rewrite H. change (receives ?t (b2 :: x)) with (receives (receive t b2) x). destruct (receive_partial 3 (0xF0 + d3 - 240) l cells b2 ltac:(discriminate)) as (q & -> & Q).
  pop E. destruct x as [|b3 x]; [reflexivity|]. pop E. destruct x as [|b4 x].
  - destruct Q as [->|(v & ->)]; [reflexivity|]. apply cells_partial. discriminate.
  - exfalso. pop E. symmetry in E. apply app_eq_nil in E. now destruct Y.
Qed.
Lemma text_prefix s : forall x y l cells, Forall (fun c => is_scalar c /\ c <> 27) s -> utf8 s = x ++ y -> y <> [] ->
  (List.length (t_cells (receives (mkTerm Ground l cells) x)) < List.length cells + List.length s)%nat.
Proof.
  induction s as [|c s IH]; intros x y l cells F E Y; unfold utf8 in *; cbn [flat_map] in *.
  - symmetry in E. apply app_eq_nil in E. now destruct Y.
  - inversion F as [|? ? [Sc Ne] F']; subst. destruct (app_eq_app _ _ _ _ E) as (v & [(V1 & V2)|(V1 & V2)]).
    + destruct v as [|b v].
      * rewrite app_nil_r in V1. subst x. rewrite receives_char by assumption. cbn [t_cells]. rewrite app_length. cbn [List.length].
        destruct s; [cbn in V2; now destruct Y|]. cbn [List.length]. lia.
      * rewrite (char_prefix c x (b :: v)) by (assumption || discriminate). cbn [List.length]. lia.
    + subst x. rewrite receives_app, receives_char by assumption. specialize (IH v y l (cells ++ [(l, c)]) F' V2 Y). rewrite app_length in IH. cbn [List.length] in *. lia.
Qed.
(* So if a [print!] fails, characters are missing. *)
Lemma lost_characters colours evs dev l s' : Forall2 (acts colours) evs l -> Forall speakable evs -> perform dev new_stream l = (s', false) ->
  (List.length (characters (s_taken s')) < List.length (spoken evs))%nat.
Proof.
  intros A F H. destruct (perform_lost dev l new_stream s' (acts_small _ _ _ A) ltac:(intros []) H) as (l1 & ps & l2 & z & x & y & r & -> & T & C & Y & E).
  apply Forall2_app_inv_r in A. destruct A as (e1 & e2 & A1 & A2 & ->). inversion A2 as [|e a e2' l2' Ae A3]; subst. inversion Ae as [s ps' Es| |]; subst.
  apply Forall_app in F. destruct F as (F1 & F2). inversion F2 as [|? ? Fs F3]; subst. cbn [speakable] in Fs. cbn [sent new_stream s_taken s_buffer app] in E.
  destruct (characters_grow (s_taken s') r) as (w & W). rewrite <- E in W.
  assert (L : (List.length (characters (z ++ x)) < List.length (spoken e1) + List.length s)%nat).
  { unfold characters, fresh. rewrite receives_app. destruct (thinned_says _ _ _ A1 z F1 T plain_look []) as (l' & v & -> & V). rewrite map_length, <- V, map_length.
    apply (text_prefix s x y); [assumption|congruence|assumption]. }
  rewrite W, app_length in L. unfold spoken in *. rewrite flat_map_app, app_length. cbn [flat_map]. rewrite app_length. lia.
Qed.
