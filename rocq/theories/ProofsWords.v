(** Lemmas about the words of a command line. *)

From Coq Require Import NArith List String Ascii Bool PeanoNat Lia ZifyN ZifyBool ZifyNat.
From Verif Require Import Base ModelUtil ModelTlv ModelProcess ProofsValues ModelCli SpecCli ModelMain SpecMain ProofsMain ProofsCli
  ModelWords SpecWords.
Import ListNotations.
Local Open Scope N_scope.

(** ** The table *)

Lemma long_chars n x : spells n (Long x) -> lit x <> [] /\ (forall c, In c (lit x) -> c <> 61).
Proof.
  intros H. apply spells_spelt in H. apply spelt_in in H.
  assert (K : forallb (fun x => negb (leqb (lit x) []) && forallb (fun c => negb (c =? 61)) (lit x)) (a_longs (arg_of n)) = true)
    by (destruct n as [| | | | | |[]]; vm_compute; reflexivity).
  rewrite forallb_forall in K. specialize (K x H). apply andb_true_iff in K. destruct K as [K1 K2]. split.
  - intros E. rewrite E in K1. discriminate K1.
  - intros c I. rewrite forallb_forall in K2. specialize (K2 c I). apply negb_true_iff, N.eqb_neq in K2. exact K2.
Qed.
Lemma short_char n x : spells n (Short x) -> exists c, lit x = [c] /\ c <> 45 /\ c <> 61.
Proof.
  intros H. apply spells_spelt in H. apply spelt_in in H.
  assert (K : forallb (fun x => match lit x with [c] => negb (c =? 45) && negb (c =? 61) | _ => false end) (a_shorts (arg_of n)) = true)
    by (destruct n as [| | | | | |[]]; vm_compute; reflexivity).
  rewrite forallb_forall in K. specialize (K x H). destruct (lit x) as [|c [|d t]]; try discriminate K. exists c. split; [reflexivity|].
  apply andb_true_iff in K. destruct K as [K1 K2]. apply negb_true_iff, N.eqb_neq in K1, K2. auto.
Qed.
Lemma find_long_spells n x : spells n (Long x) -> find_long (lit x) = Some (x, arg_of n).
Proof.
  intros H. apply spells_spelt in H. apply spelt_in in H.
  destruct n as [| | | | | |[]]; cbn in H; repeat (destruct H as [<-|H]; [vm_compute; reflexivity|]); destruct H.
Qed.
Lemma find_short_spells n x c : spells n (Short x) -> lit x = [c] -> find_short c = Some (x, arg_of n).
Proof.
  intros H. apply spells_spelt in H. apply spelt_in in H.
  destruct n as [| | | | | |[]]; cbn in H; repeat (destruct H as [<-|H]; [intros E; injection E as <-; vm_compute; reflexivity|]); destruct H.
Qed.
Lemma find_long_some w x a : find_long w = Some (x, a) -> w = lit x /\ exists n, spells n (Long x) /\ a = arg_of n.
Proof.
  intros F. apply find_some in F. destruct F as [I E]. cbn [fst] in E. apply leqb_eq in E. split; [now symmetry|].
  apply in_flat_map in I. destruct I as (b & Ib & Ix). apply in_map_iff in Ix. destruct Ix as (y & Ey & Iy). injection Ey as -> ->.
  apply in_args in Ib. destruct Ib as (n & ->). exists n. split; [|reflexivity]. apply spells_spelt, spelt_in. exact Iy.
Qed.
Lemma find_short_some c x a : find_short c = Some (x, a) -> lit x = [c] /\ exists n, spells n (Short x) /\ a = arg_of n.
Proof.
  intros F. apply find_some in F. destruct F as [I E]. cbn [fst] in E. apply leqb_eq in E. split; [assumption|].
  apply in_flat_map in I. destruct I as (b & Ib & Ix). apply in_map_iff in Ix. destruct Ix as (y & Ey & Iy). injection Ey as -> ->.
  apply in_args in Ib. destruct Ib as (n & ->). exists n. split; [|reflexivity]. apply spells_spelt, spelt_in. exact Iy.
Qed.
Lemma takes_value_of n : takes_value (arg_of n) = negb (informs n).
Proof. destruct n as [| | | | | |[]]; reflexivity. Qed.
Lemma no_value_iff n : no_value n <-> informs n = true.
Proof. unfold no_value. destruct n; cbn; split; intros H; try discriminate; try tauto; destruct H; discriminate. Qed.
Lemma accepts_more_of n k : informs n = false -> (accepts_more (arg_of n) (N.of_nat k) = true <-> value_limit n (S k)).
Proof.
  intros H. destruct n as [| | | | | |op]; try discriminate H; [..|destruct op]; cbn [value_limit]; unfold accepts_more;
    match goal with |- context [a_max ?a] => let v := eval vm_compute in (a_max a) in change (a_max a) with v end; cbn iota; lia.
Qed.

(** ** Words *)

Lemma split_equals_none s : (forall c, In c s -> c <> 61) -> split_equals s = (s, None).
Proof.
  induction s as [|c t IH]; intros H; [reflexivity|]. cbn [split_equals]. unfold equals. rewrite (proj2 (N.eqb_neq c 61)) by (apply H; left; reflexivity).
  rewrite IH; [reflexivity|]. intros d I. apply H. now right.
Qed.
Lemma split_equals_some s v : (forall c, In c s -> c <> 61) -> split_equals (s ++ 61 :: v) = (s, Some v).
Proof.
  induction s as [|c t IH]; intros H; [reflexivity|]. cbn [split_equals app]. unfold equals. rewrite (proj2 (N.eqb_neq c 61)) by (apply H; left; reflexivity).
  rewrite IH; [reflexivity|]. intros d I. apply H. now right.
Qed.
Lemma split_equals_back s a b : split_equals s = (a, b) -> s = a ++ match b with Some v => 61 :: v | None => [] end.
Proof.
  revert a b. induction s as [|c t IH]; cbn [split_equals]; intros a b H.
  - injection H as <- <-. reflexivity.
  - unfold equals in H. destruct (N.eqb_spec c 61) as [->|N].
    + injection H as <- <-. reflexivity.
    + destruct (split_equals t) as [a' b']. injection H as <- <-. cbn [app]. f_equal. now apply IH.
Qed.
Lemma kind_value w : word_kind_of w = ValueWord <-> plain_word w.
Proof.
  unfold plain_word. destruct w as [|c [|d t]]; cbn [word_kind_of]; unfold hyphen.
  - split; [intros _; right; discriminate|reflexivity].
  - destruct (N.eqb_spec c 45) as [->|N]; (split; [intros _|reflexivity]); [left; reflexivity|right; intros t E; now injection E].
  - destruct (N.eqb_spec c 45) as [->|N]; [|split; [intros _; right; intros u E; now injection E|reflexivity]].
    destruct (N.eqb_spec d 45) as [->|N].
    + destruct t as [|e t]; [split; [discriminate|intros [E|E]; [discriminate|now elim (E [45])]]|].
      destruct (split_equals (e :: t)). split; [discriminate|intros [E|E]; [discriminate|now elim (E (45 :: e :: t))]].
    + split; [discriminate|intros [E|E]; [discriminate|now elim (E (d :: t))]].
Qed.
Lemma kind_long n x : spells n (Long x) -> word_kind_of (45 :: 45 :: lit x) = LongWord (lit x) None.
Proof.
  intros H. destruct (long_chars n x H) as [NE C]. cbn [word_kind_of]. unfold hyphen. cbn [N.eqb Pos.eqb].
  destruct (lit x) as [|c t]; [congruence|]. now rewrite (split_equals_none _ C).
Qed.
Lemma kind_long_attached n x v : spells n (Long x) -> word_kind_of (45 :: 45 :: lit x ++ 61 :: v) = LongWord (lit x) (Some v).
Proof.
  intros H. destruct (long_chars n x H) as [NE C]. cbn [word_kind_of]. unfold hyphen. cbn [N.eqb Pos.eqb].
  pose proof (split_equals_some _ v C) as S. destruct (lit x) as [|c t]; [congruence|]. cbn [app] in *. now rewrite S.
Qed.
Lemma kind_short n x r : spells n (Short x) -> word_kind_of (45 :: lit x ++ r) = ShortWord (lit x ++ r).
Proof.
  intros H. destruct (short_char n x H) as (c & -> & N1 & N2). cbn [word_kind_of app]. unfold hyphen. cbn [N.eqb Pos.eqb]. now rewrite (proj2 (N.eqb_neq c 45) N1).
Qed.
Lemma kind_escape w : word_kind_of w = Escape <-> w = [45; 45].
Proof.
  destruct w as [|c [|d t]]; cbn [word_kind_of]; unfold hyphen; try (split; discriminate).
  - destruct (c =? 45); split; discriminate.
  - destruct (N.eqb_spec c 45) as [->|N]; [|split; [discriminate|intros E; now injection E]].
    destruct (N.eqb_spec d 45) as [->|N]; [|split; [discriminate|intros E; now injection E]].
    destruct t as [|e t]; [tauto|]. destruct (split_equals (e :: t)). split; discriminate.
Qed.
Lemma kind_long_inv w a b : word_kind_of w = LongWord a b -> w = 45 :: 45 :: a ++ match b with Some v => 61 :: v | None => [] end.
Proof.
  destruct w as [|c [|d t]]; cbn [word_kind_of]; unfold hyphen; try discriminate.
  - destruct (c =? 45); discriminate.
  - destruct (N.eqb_spec c 45) as [->|N]; [|discriminate]. destruct (N.eqb_spec d 45) as [->|N]; [|discriminate].
    destruct t as [|e t]; [discriminate|]. destruct (split_equals (e :: t)) as [a' b'] eqn:E. intros K. injection K as <- <-. now rewrite (split_equals_back _ _ _ E).
Qed.
Lemma kind_short_inv w cs : word_kind_of w = ShortWord cs -> w = 45 :: cs /\ cs <> [].
Proof.
  destruct w as [|c [|d t]]; cbn [word_kind_of]; unfold hyphen; try discriminate.
  - destruct (c =? 45); discriminate.
  - destruct (N.eqb_spec c 45) as [->|N]; [|discriminate]. destruct (N.eqb_spec d 45) as [->|N].
    + destruct t as [|e t]; [discriminate|]. destruct (split_equals (e :: t)). discriminate.
    + intros K. injection K as <-. split; [reflexivity|discriminate].
Qed.

(** ** Reading what is written *)

Lemma prepend_nil (r : list occurrence * bool) : (let '(l, s) := r in ([] ++ l, s)) = r.
Proof. now destruct r. Qed.

(* A pending option ends where its spec says so. *)
Definition stops (p : pending) (ws : list str) : Prop :=
  match p with
  | None => True
  | Some (sp, a, vs) => match ws with [] => True | w :: _ => ~ plain_word w end
  end.
Lemma read_stop p ws : stops p ws -> read_words p ws = let '(l, s) := read_words None ws in (flush p ++ l, s).
Proof.
  intros S. destruct p as [[[sp a] vs]|]; [|cbn [flush]; now rewrite prepend_nil]. destruct ws as [|w t]; cbn [read_words].
  - reflexivity.
  - cbn [stops] in S. destruct (word_kind_of w) as [|name at_|cs|] eqn:K; [reflexivity| | |].
    + destruct (find_long name) as [[x b]|]; [|now rewrite ?app_nil_r]. destruct at_ as [v|]; [|destruct (takes_value b)];
        (destruct (read_words _ t) as [l s]; reflexivity).
    + destruct (read_cluster cs) as [l1 [p'|]]; [|reflexivity]. destruct (read_words p' t) as [l s]. reflexivity.
    + apply kind_value in K. contradiction.
Qed.
(* Values gathered one by one. *)
Lemma gather n sp ws : informs n = false ->
  forall vs acc, Forall plain_word vs -> value_limit n (List.length acc + List.length vs) -> value_limit n (S (List.length acc)) ->
  closed n (List.length acc + List.length vs) ws ->
  read_words (Some (sp, arg_of n, acc)) (vs ++ ws) = let '(l, s) := read_words None ws in ((sp, acc ++ vs) :: l, s).
Proof.
  intros I. induction vs as [|v vs IH]; intros acc F L M C.
  - cbn [app List.length] in *. rewrite Nat.add_0_r in *. rewrite app_nil_r.
    destruct C as [C|C]; [contradiction|]. rewrite read_stop; [destruct (read_words None ws); reflexivity|exact C].
  - inversion F as [|? ? Fv Fvs]; subst. cbn [app read_words]. rewrite (proj2 (kind_value v) Fv).
    assert (Lacc : len (acc ++ [v]) = N.of_nat (S (List.length acc))) by (unfold len; rewrite app_length; cbn [List.length]; f_equal; lia).
    rewrite Lacc. destruct (accepts_more (arg_of n) (N.of_nat (S (List.length acc)))) eqn:A.
    + apply (accepts_more_of n _ I) in A. rewrite (IH (acc ++ [v])).
      * rewrite <- app_assoc. reflexivity.
      * assumption.
      * rewrite app_length. cbn [List.length] in *. now replace (List.length acc + 1 + List.length vs)%nat with (List.length acc + S (List.length vs))%nat by lia.
      * rewrite app_length. cbn [List.length]. now replace (S (List.length acc + 1)) with (S (S (List.length acc))) by lia.
      * rewrite app_length. cbn [List.length] in *. now replace (List.length acc + 1 + List.length vs)%nat with (List.length acc + S (List.length vs))%nat by lia.
    + destruct vs as [|v2 vs]; [reflexivity|]. exfalso.
      assert (X : accepts_more (arg_of n) (N.of_nat (S (List.length acc))) = true); [|congruence].
      apply (accepts_more_of n _ I). cbn [List.length] in L. clear -L I. destruct n; cbn [value_limit] in *; try discriminate I; lia.
Qed.
Lemma limit_one n : informs n = false -> value_limit n 1.
Proof. destruct n; cbn; try discriminate; auto. Qed.
Lemma read_option n sp t : spells n sp -> informs n = false ->
  read_words None (option_word sp :: t) = let '(l, s) := read_words (Some (sp, arg_of n, [])) t in (l, s).
Proof.
  intros S I. destruct sp as [x|x]; cbn [option_word read_words].
  - destruct (short_char n x S) as (c & E & _). pose proof (kind_short n x [] S) as K. rewrite app_nil_r in K. rewrite K.
    rewrite E. cbn [read_cluster]. rewrite (find_short_spells n x c S E), takes_value_of, I. cbn [negb flush app]. reflexivity.
  - rewrite (kind_long n x S), (find_long_spells n x S), takes_value_of, I. reflexivity.
Qed.
Lemma read_flag n sp t : spells n sp -> informs n = true ->
  read_words None (option_word sp :: t) = let '(l, s) := read_words None t in ((sp, []) :: l, s).
Proof.
  intros S I. destruct sp as [x|x]; cbn [option_word read_words].
  - destruct (short_char n x S) as (c & E & _). pose proof (kind_short n x [] S) as K. rewrite app_nil_r in K. rewrite K.
    rewrite E. cbn [read_cluster]. rewrite (find_short_spells n x c S E), takes_value_of, I. cbn [negb flush app]. reflexivity.
  - rewrite (kind_long n x S), (find_long_spells n x S), takes_value_of, I. reflexivity.
Qed.
Lemma read_long n x v t : spells n (Long x) ->
  read_words None ((45 :: 45 :: lit x ++ 61 :: v) :: t) = let '(l, s) := read_words None t in ((Long x, [v]) :: l, s).
Proof. intros S. cbn [read_words]. rewrite (kind_long_attached n x v S), (find_long_spells n x S). reflexivity. Qed.
Lemma read_joined n x v t : spells n (Short x) -> informs n = false -> v <> [] -> (forall u, v <> 61 :: u) ->
  read_words None ((45 :: lit x ++ v) :: t) = let '(l, s) := read_words None t in ((Short x, [v]) :: l, s).
Proof.
  intros S I NE Q. cbn [read_words]. rewrite (kind_short n x v S). destruct (short_char n x S) as (c & E & _). rewrite E. cbn [app read_cluster].
  rewrite (find_short_spells n x c S E), takes_value_of, I. cbn [negb]. destruct v as [|d v]; [congruence|]. unfold equals.
  rewrite (proj2 (N.eqb_neq d 61)) by (intros ->; now apply (Q v)). reflexivity.
Qed.
Lemma read_short n x v t : spells n (Short x) -> informs n = false ->
  read_words None ((45 :: lit x ++ 61 :: v) :: t) = let '(l, s) := read_words None t in ((Short x, [v]) :: l, s).
Proof.
  intros S I. cbn [read_words]. rewrite (kind_short n x (61 :: v) S). destruct (short_char n x S) as (c & E & _). rewrite E. cbn [app read_cluster].
  rewrite (find_short_spells n x c S E), takes_value_of, I. reflexivity.
Qed.
Lemma not_informs n : ~ no_value n -> informs n = false.
Proof. intros H. destruct (informs n) eqn:E; [|reflexivity]. elim H. now apply no_value_iff. Qed.

(* What is written is read, whatever follows that is no value. *)
Lemma read_written_app ws l ws2 : written ws l -> ~ In [45; 45] ws -> match ws2 with [] => True | w :: _ => ~ plain_word w end ->
  read_words None (ws ++ ws2) = let '(l2, s) := read_words None ws2 in (l ++ l2, s).
Proof.
  intros W NI N2. induction W as [| |sp n vs ws l S F L C W IH|n x v ws l S W IH|n x v ws l S NV NE Q W IH|n x v ws l S NV W IH].
  - cbn [app]. now rewrite prepend_nil.
  - elim NI. left. reflexivity.
  - assert (NI' : ~ In [45; 45] ws) by (intros K; apply NI; right; apply in_or_app; now right). specialize (IH NI').
    cbn [app]. destruct (informs n) eqn:I.
    + assert (vs = []) as -> by (destruct n; try discriminate I; destruct vs; [reflexivity|discriminate L|reflexivity|discriminate L]).
      cbn [app]. rewrite (read_flag n sp _ S I), IH. destruct (read_words None ws2). reflexivity.
    + rewrite (read_option n sp _ S I). rewrite <- app_assoc, (gather n sp (ws ++ ws2) I vs []); [| | | |].
      * rewrite IH. destruct (read_words None ws2). reflexivity.
      * assumption.
      * assumption.
      * now apply limit_one.
      * cbn [List.length Nat.add]. destruct C as [C|C]; [left; assumption|right]. destruct ws; assumption.
  - assert (NI' : ~ In [45; 45] ws) by (intros K; apply NI; now right). cbn [app].
    rewrite (read_long n x v _ S), (IH NI'). destruct (read_words None ws2). reflexivity.
  - assert (NI' : ~ In [45; 45] ws) by (intros K; apply NI; now right). cbn [app].
    rewrite (read_joined n x v _ S (not_informs n NV) NE Q), (IH NI'). destruct (read_words None ws2). reflexivity.
  - assert (NI' : ~ In [45; 45] ws) by (intros K; apply NI; now right). cbn [app].
    rewrite (read_short n x v _ S (not_informs n NV)), (IH NI'). destruct (read_words None ws2). reflexivity.
Qed.
Lemma read_written ws l : written ws l -> read_words None ws = (l, false).
Proof.
  intros W. induction W as [| |sp n vs ws l S F L C W IH|n x v ws l S W IH|n x v ws l S NV NE Q W IH|n x v ws l S NV W IH].
  - reflexivity.
  - reflexivity.
  - destruct (informs n) eqn:I.
    + assert (vs = []) as -> by (destruct n; try discriminate I; destruct vs; [reflexivity|discriminate L|reflexivity|discriminate L]).
      cbn [app]. now rewrite (read_flag n sp _ S I), IH.
    + rewrite (read_option n sp _ S I), (gather n sp ws I vs []); [now rewrite IH|assumption|assumption|now apply limit_one|assumption].
  - now rewrite (read_long n x v _ S), IH.
  - now rewrite (read_joined n x v _ S (not_informs n NV) NE Q), IH.
  - now rewrite (read_short n x v _ S (not_informs n NV)), IH.
Qed.

(** ** Nothing else is read *)

Lemma no_info_word n w ws : no_information_words (w :: ws) -> informs n = true -> ~ information_word n w.
Proof. intros H I. inversion H as [|? ? [H1 H2] _]; subst. destruct n; try discriminate I; assumption. Qed.
Lemma info_option n sp : spells n sp -> information_word n (option_word sp).
Proof.
  destruct sp as [x|x]; intros S; cbn [option_word]; [|now constructor]. rewrite <- (app_nil_r (lit x)). now constructor.
Qed.

Lemma flush_pair p l1 l2 (s1 s2 : bool) : (flush p ++ l1, s1) = (l2, s2) -> l2 = flush p ++ l1 /\ s2 = s1.
Proof. intros H. injection H as <- <-. auto. Qed.
Lemma read_complete ws : no_information_words ws ->
  (forall l, read_words None ws = (l, false) -> written ws l)
  /\ (forall n sp acc l, spells n sp -> informs n = false -> value_limit n (S (List.length acc)) ->
      read_words (Some (sp, arg_of n, acc)) ws = (l, false) ->
      exists vs ws' l', ws = vs ++ ws' /\ l = (sp, acc ++ vs) :: l' /\ Forall plain_word vs
        /\ value_limit n (List.length acc + List.length vs) /\ closed n (List.length acc + List.length vs) ws' /\ written ws' l').
Proof.
  induction ws as [|w t IH]; intros NI.
  { split.
    - intros l H. injection H as <-. constructor.
    - intros n sp acc l S I L H. injection H as <-. exists [], [], []. cbn [app List.length]. rewrite app_nil_r, Nat.add_0_r.
      split; [reflexivity|]. split; [reflexivity|]. split; [constructor|]. split; [destruct n; cbn [value_limit] in *; try discriminate I; lia|].
      split; [right; exact Logic.I|constructor]. }
  assert (NIt : no_information_words t) by now inversion NI. specialize (IH NIt). destruct IH as [IHn IHs].
  assert (None_case : forall l, read_words None (w :: t) = (l, false) -> written (w :: t) l).
  { intros l H. cbn [read_words] in H. destruct (word_kind_of w) as [|name at_|cs|] eqn:K.
    - apply kind_escape in K. subst w. destruct t; [|discriminate H]. injection H as <-. constructor.
    - pose proof (kind_long_inv w name at_ K) as E. destruct (find_long name) as [[x a]|] eqn:F; [|discriminate H].
      apply find_long_some in F. destruct F as (-> & n & S & ->). destruct at_ as [v|].
      + destruct (read_words None t) as [l' s] eqn:R. apply flush_pair in H. destruct H as [-> <-]. subst w. cbn [flush app]. apply (written_long n); [assumption|now apply IHn].
      + rewrite app_nil_r in E. rewrite takes_value_of in H. destruct (informs n) eqn:I; cbn [negb] in H.
        * elim (no_info_word n w t NI I). subst w. now constructor.
        * destruct (read_words (Some (Long x, arg_of n, [])) t) as [l' s] eqn:R. apply flush_pair in H. destruct H as [-> <-]. cbn [flush app].
          destruct (IHs n (Long x) [] l' S I (limit_one n I) R) as (vs & ws' & l2 & -> & -> & Fv & L & C & W). subst w. cbn [app].
          apply (written_apart (Long x) n); assumption.
    - destruct (kind_short_inv w cs K) as [E NE]. destruct cs as [|c rest]; [congruence|]. cbn [read_cluster] in H.
      destruct (find_short c) as [[x a]|] eqn:F; [|discriminate H]. apply find_short_some in F. destruct F as (Ex & n & S & ->).
      rewrite takes_value_of in H. destruct (informs n) eqn:I; cbn [negb] in H.
      { elim (no_info_word n w t NI I). subst w. change (c :: rest) with ([c] ++ rest). rewrite <- Ex. now constructor. }
      assert (NV : ~ no_value n) by (intros V; apply no_value_iff in V; congruence). destruct rest as [|d rest].
      + destruct (read_words (Some (Short x, arg_of n, [])) t) as [l' s] eqn:R. apply flush_pair in H. destruct H as [-> <-]. cbn [flush app].
        destruct (IHs n (Short x) [] l' S I (limit_one n I) R) as (vs & ws' & l2 & -> & -> & Fv & L & C & W). subst w. rewrite <- Ex.
        apply (written_apart (Short x) n); assumption.
      + destruct (read_words None t) as [l' s] eqn:R. apply flush_pair in H. destruct H as [-> <-]. cbn [flush app]. subst w. change (c :: d :: rest) with ([c] ++ d :: rest). rewrite <- Ex.
        unfold equals. destruct (N.eqb_spec d 61) as [->|N].
        * apply (written_short n); [assumption|assumption|now apply IHn].
        * apply (written_joined n); [assumption|assumption|discriminate|intros u Eu; now injection Eu|now apply IHn].
    - discriminate H. }
  split; [exact None_case|]. intros n sp acc l S I L H. destruct (word_kind_of w) as [|name at_|cs|] eqn:K.
  4: { apply kind_value in K. cbn [read_words] in H. rewrite (proj2 (kind_value w) K) in H.
       assert (Lacc : len (acc ++ [w]) = N.of_nat (Datatypes.S (List.length acc))) by (unfold len; rewrite app_length; cbn [List.length]; f_equal; lia).
       rewrite Lacc in H. destruct (accepts_more (arg_of n) (N.of_nat (Datatypes.S (List.length acc)))) eqn:A.
       - apply (accepts_more_of n _ I) in A. assert (Ll : List.length (acc ++ [w]) = Datatypes.S (List.length acc)) by (rewrite app_length; cbn [List.length]; lia).
         destruct (IHs n sp (acc ++ [w]) l S I) as (vs & ws' & l2 & -> & -> & Fv & L2 & C & W); [now rewrite Ll|assumption|].
         rewrite Ll in *. exists (w :: vs), ws', l2. rewrite <- app_assoc. cbn [app List.length]. replace (List.length acc + Datatypes.S (List.length vs))%nat with (Datatypes.S (List.length acc) + List.length vs)%nat by lia.
         split; [reflexivity|]. split; [reflexivity|]. split; [constructor; assumption|]. auto.
       - destruct (read_words None t) as [l' s] eqn:R. injection H as <- ->. exists [w], t, l'. cbn [app List.length]. replace (List.length acc + 1)%nat with (Datatypes.S (List.length acc)) by lia.
         split; [reflexivity|]. split; [reflexivity|]. split; [constructor; [assumption|constructor]|]. split; [assumption|]. split; [|now apply IHn]. left. intros V. apply (accepts_more_of n _ I) in V. congruence. }
  all: assert (NP : ~ plain_word w) by (intros V; apply kind_value in V; congruence);
    rewrite (read_stop (Some (sp, arg_of n, acc)) (w :: t) NP) in H; destruct (read_words None (w :: t)) as [l' s] eqn:R; apply flush_pair in H; destruct H as [-> <-];
    exists [], (w :: t), l'; cbn [app List.length flush]; rewrite app_nil_r, Nat.add_0_r;
    (split; [reflexivity|]); (split; [reflexivity|]); (split; [constructor|]);
    (split; [destruct n; cbn [value_limit] in *; try discriminate I; lia|]); (split; [right; assumption|now apply None_case]).
Qed.

(** ** The options that were read *)

Lemma read_known ws : forall p, match p with Some (sp, a, _) => exists n, spells n sp | None => True end ->
  forall o, In o (fst (read_words p ws)) -> exists n, spells n (fst o).
Proof.
  assert (Fl : forall p : pending, match p with Some (sp, a, _) => exists n, spells n sp | None => True end -> forall o, In o (flush p) -> exists n, spells n (fst o)).
  { intros [[[sp a] vs]|] H o I; [destruct I as [<-|[]]; exact H|destruct I]. }
  assert (Cl : forall cs, (forall o, In o (fst (read_cluster cs)) -> exists n, spells n (fst o))
                          /\ match snd (read_cluster cs) with Some (Some (sp, a, _)) => exists n, spells n sp | _ => True end).
  { induction cs as [|c rest IH]; cbn [read_cluster fst snd]; [split; [intros o []|exact I]|].
    destruct (find_short c) as [[x a]|] eqn:F; [|cbn; split; [intros o []|exact I]]. apply find_short_some in F. destruct F as (_ & n & S & ->).
    destruct (takes_value (arg_of n)).
    - destruct rest as [|d rest]; cbn [fst snd]; [split; [intros o []|now exists n]|]. split; [|exact I]. intros o [<-|[]]. now exists n.
    - destruct (read_cluster rest) as [l e]. cbn [fst snd] in *. split; [|exact (proj2 IH)]. intros o [<-|J]; [now exists n|now apply (proj1 IH)]. }
  induction ws as [|w t IH]; intros p Hp o; cbn [read_words].
  - apply Fl, Hp.
  - destruct (word_kind_of w) as [|name at_|cs|].
    + apply Fl, Hp.
    + destruct (find_long name) as [[x a]|] eqn:F; [|apply Fl, Hp]. apply find_long_some in F. destruct F as (_ & n & S & ->).
      destruct at_ as [v|]; [|destruct (takes_value (arg_of n))].
      * specialize (IH None I). destruct (read_words None t) as [l s]. cbn [fst] in *. rewrite in_app_iff. intros [J|[<-|J]]; [now apply (Fl p Hp)|now exists n|auto].
      * specialize (IH (Some (Long x, arg_of n, [])) (ex_intro _ n S)). destruct (read_words _ t) as [l s]. cbn [fst] in *. rewrite in_app_iff. intros [J|J]; [now apply (Fl p Hp)|auto].
      * specialize (IH None I). destruct (read_words None t) as [l s]. cbn [fst] in *. rewrite in_app_iff. intros [J|[<-|J]]; [now apply (Fl p Hp)|now exists n|auto].
    + specialize (Cl cs). destruct (read_cluster cs) as [l1 [p'|]]; cbn [fst snd] in *; [|rewrite in_app_iff; intros [J|J]; [now apply (Fl p Hp)|now apply (proj1 Cl)]].
      specialize (IH p'). destruct (read_words p' t) as [l s]. cbn [fst] in *. rewrite !in_app_iff. intros [J|[J|J]]; [now apply (Fl p Hp)|now apply (proj1 Cl)|apply IH; [apply Cl|assumption]].
    + destruct p as [[[sp a] vs]|]; [|intros []]. destruct (accepts_more a (len (vs ++ [w]))); [now apply IH|].
      specialize (IH None I). destruct (read_words None t) as [l s]. cbn [fst] in *. intros [<-|J]; [exact Hp|auto].
Qed.
(* Without a word asking for help or the version, no occurrence does. *)
Definition quiet (l : list occurrence) : Prop := forall o n, In o l -> spells n (fst o) -> informs n = true -> snd o <> [].
Lemma read_quiet ws : no_information_words ws -> forall p, match p with Some (sp, a, _) => exists n, spells n sp /\ informs n = false | None => True end ->
  quiet (fst (read_words p ws)).
Proof.
  assert (Fl : forall p : pending, match p with Some (sp, a, _) => exists n, spells n sp /\ informs n = false | None => True end -> quiet (flush p)).
  { intros [[[sp a] vs]|] H o n J S I; [|destruct J]. destruct J as [<-|[]]. destruct H as (n' & S' & I'). cbn [fst] in S. rewrite (spells_one n n' sp S S') in I. congruence. }
  assert (App : forall l1 l2, quiet l1 -> quiet l2 -> quiet (l1 ++ l2)) by (intros l1 l2 H1 H2 o n J S I; apply in_app_iff in J; destruct J as [J|J]; eauto).
  assert (One : forall sp v l, quiet l -> quiet ((sp, [v]) :: l)) by (intros sp v l H o n [<-|J] S I; [discriminate|eauto]).
  induction ws as [|w t IH]; intros NI p Hp; cbn [read_words].
  - apply Fl, Hp.
  - assert (NIt : no_information_words t) by now inversion NI. specialize (IH NIt). destruct (word_kind_of w) as [|name at_|cs|] eqn:K.
    + apply Fl, Hp.
    + pose proof (kind_long_inv w name at_ K) as E. destruct (find_long name) as [[x a]|] eqn:F; [|apply Fl, Hp]. apply find_long_some in F. destruct F as (-> & n & S & ->).
      destruct at_ as [v|]; [|rewrite takes_value_of; destruct (informs n) eqn:I; cbn [negb]].
      * specialize (IH None Logic.I). destruct (read_words None t) as [l s]. cbn [fst] in *. apply App; [now apply Fl|now apply One].
      * elim (no_info_word n w t NI I). rewrite E, app_nil_r. now constructor.
      * assert (Hq : exists m, spells m (Long x) /\ informs m = false) by eauto. specialize (IH (Some (Long x, arg_of n, [])) Hq). destruct (read_words _ t) as [l s]. cbn [fst] in *. apply App; [now apply Fl|assumption].
    + destruct (kind_short_inv w cs K) as [E NE]. destruct cs as [|c rest]; [congruence|]. cbn [read_cluster].
      destruct (find_short c) as [[x a]|] eqn:F; [|cbn [fst]; apply App; [now apply Fl|intros o n []]]. apply find_short_some in F. destruct F as (Ex & n & S & ->).
      rewrite takes_value_of. destruct (informs n) eqn:I; cbn [negb].
      { elim (no_info_word n w t NI I). subst w. change (c :: rest) with ([c] ++ rest). rewrite <- Ex. now constructor. }
      destruct rest as [|d rest].
      * assert (Hq : exists m, spells m (Short x) /\ informs m = false) by eauto. specialize (IH (Some (Short x, arg_of n, [])) Hq). destruct (read_words _ t) as [l s]. cbn [fst app] in *. apply App; [now apply Fl|assumption].
      * specialize (IH None Logic.I). destruct (read_words None t) as [l s]. cbn [fst app] in *. apply App; [now apply Fl|]. now apply One.
    + destruct p as [[[sp a] vs]|]; [|intros o n []]. destruct (accepts_more a (len (vs ++ [w]))); [now apply IH|].
      specialize (IH None Logic.I). destruct (read_words None t) as [l s]. cbn [fst] in *. intros o n [<-|J] S I; [destruct vs; discriminate|eauto].
Qed.
Lemma quiet_steps l : quiet l -> forall g, (exists g', cli_steps g l = CliOk g') \/ cli_steps g l = CliError.
Proof.
  induction l as [|[sp vs] l IH]; intros Q g; [left; eexists; reflexivity|]. cbn [cli_steps].
  assert (Ql : quiet l) by (intros o n J; apply Q; now right).
  destruct (spells_some_dec sp) as [[n S]|U]; [|rewrite (step_unknown g sp vs U); now right].
  rewrite (step_known g n sp vs S). destruct (fine n vs) eqn:Fi; [|now right].
  destruct (informs n) eqn:I.
  - exfalso. apply (Q (sp, vs) n (or_introl eq_refl) S I). cbn [snd]. apply fine_takes in Fi. destruct n; try discriminate I; exact Fi.
  - destruct n; try discriminate I; repeat match goal with |- context [if ?b then _ else _] => destruct b end; auto.
Qed.
