(** Lemmas about finding and reading the configuration file. *)

From Coq Require Import NArith String List Bool PeanoNat Lia ZifyN ZifyBool ZifyNat.
From Verif Require Import Base ModelMain ModelCli ModelWords ModelEnv ModelFiles SpecMain SpecCli SpecEnv ProofsUtil ProofsValues ProofsEnv SpecFiles.
Import ListNotations.
Local Open Scope N_scope.

Lemma absolute_iff s : path_is_absolute s = true <-> absolute s.
Proof.
  unfold absolute. split.
  - destruct s as [|c s]; [discriminate|]. cbn. intros H. destruct (N.eq_dec c 47) as [->|N]; [eauto|].
    destruct c as [|c]; [discriminate|]. repeat (destruct c as [c|c|]; try discriminate; try congruence).
  - intros (r & ->). reflexivity.
Qed.
Lemma relative_iff s : path_is_absolute s = false <-> ~ absolute s.
Proof. rewrite <- absolute_iff. now destruct (path_is_absolute s). Qed.
Lemma file_iff d path : is_file d path = true <-> file_at d path.
Proof. unfold is_file, file_at. destruct (d path); split; congruence. Qed.

Lemma split_last_none n : ~ In 47 n -> split_last n = None.
Proof.
  induction n as [|c n IH]; intros H; [reflexivity|]. cbn [split_last]. rewrite IH by (intros K; apply H; now right).
  destruct (N.eqb_spec c 47) as [->|]; [|reflexivity]. exfalso. apply H. now left.
Qed.
Lemma split_last_app a n : ~ In 47 n -> split_last (a ++ 47 :: n) = Some (a, n).
Proof.
  intros H. induction a as [|c a IH]; cbn [app split_last]; [now rewrite (split_last_none n H)|now rewrite IH].
Qed.
Lemma steps_snoc (up : directory) (n : str) : steps (up ++ [n]) = steps up ++ 47 :: n.
Proof. unfold steps. rewrite flat_map_app. cbn [flat_map]. now rewrite app_nil_r. Qed.
Lemma dir_text_snoc (up : directory) (n : str) : dir_text (up ++ [n]) = steps up ++ 47 :: n.
Proof. rewrite <- steps_snoc. destruct up; reflexivity. Qed.
Lemma parent_root : path_parent (dir_text []) = None.
Proof. reflexivity. Qed.
Lemma parent_snoc (up : directory) (n : str) : n <> [] -> ~ In 47 n -> path_parent (dir_text (up ++ [n])) = Some (dir_text up).
Proof.
  intros N H. rewrite dir_text_snoc. unfold path_parent. destruct (leqb (steps up ++ 47 :: n) [47]) eqn:E.
  - exfalso. apply leqb_eq in E. apply (f_equal (@List.length _)) in E. rewrite app_length in E. cbn in E. destruct n; [congruence|cbn in E; lia].
  - rewrite split_last_app by assumption. destruct up as [|u up]; reflexivity.
Qed.
Lemma last_snoc {A} (l : list A) x d : last (l ++ [x]) d = x.
Proof. apply last_last. Qed.
Lemma join_in dir name : proper dir -> ~ absolute name -> path_join (dir_text dir) name = file_in dir name.
Proof.
  intros P R. unfold path_join. rewrite (proj2 (relative_iff name) R). destruct dir as [|m dir] using rev_ind; [reflexivity|]. clear IHdir.
  unfold file_in. apply Forall_app in P. destruct P as [_ P]. inversion P as [|? ? [N S] _]; subst.
  rewrite dir_text_snoc, steps_snoc. destruct (exists_last N) as (m' & c & ->).
  assert (L : last (steps dir ++ 47 :: m' ++ [c]) 0 = c) by (rewrite app_comm_cons, app_assoc; apply last_last).
  rewrite L. destruct (N.eqb_spec c 47) as [->|_]; [exfalso; apply S; apply in_or_app; right; now left|]. destruct (steps dir); reflexivity.
Qed.

Lemma above_root up : above up [] -> up = [].
Proof. intros (b & E). destruct up; [reflexivity|discriminate]. Qed.
Lemma above_snoc (up dir : directory) (n : str) : above up (dir ++ [n]) <-> up = dir ++ [n] \/ above up dir.
Proof.
  split.
  - intros (b & E). destruct b as [|m b] using rev_ind; [left; now rewrite app_nil_r in E|]. rewrite app_assoc in E. apply app_inj_tail in E. right. exists b. apply E.
  - intros [->|(b & ->)]; [exists []; now rewrite app_nil_r|exists (b ++ [n]); now rewrite app_assoc].
Qed.
Lemma above_length up dir : above up dir -> (length up <= length dir)%nat.
Proof. intros (b & ->). rewrite app_length. lia. Qed.
Lemma above_same up up' dir : above up dir -> above up' dir -> length up = length up' -> up = up'.
Proof.
  intros (b & E) (b' & E') L. subst dir. revert up' L E'. induction up as [|u up IH]; intros [|u' up'] L E; try discriminate; [reflexivity|].
  cbn in *. injection E as -> E. injection L as L. f_equal. now apply IH.
Qed.

Lemma find_up_iff d name : ~ absolute name -> forall dir fuel, proper dir -> (length dir < fuel)%nat -> forall path,
  find_up fuel d (dir_text dir) name = Some path <-> chosen d dir name path.
Proof.
  intros R. induction dir as [|n dir IH] using rev_ind; intros fuel P F path; (destruct fuel as [|fuel]; [lia|]); cbn [find_up]; rewrite join_in by assumption.
  - rewrite parent_root. unfold chosen. destruct (is_file d (file_in [] name)) eqn:E.
    + apply file_iff in E. split.
      * intros H. injection H as <-. split; [assumption|]. right. split; [assumption|]. exists []. split; [now exists []|]. split; [reflexivity|].
        intros nr A L. apply above_root in A. subst nr. cbn in L. lia.
      * intros (_ & [[A _]|(_ & up & A & -> & _)]); [contradiction|]. apply above_root in A. now subst up.
    + split; [discriminate|]. intros (K & [[A _]|(_ & up & A & -> & _)]); [contradiction|]. apply above_root in A. subst up. apply file_iff in K. congruence.
  - assert (P' := P). apply Forall_app in P'. destruct P' as [Pd Pn]. inversion Pn as [|? ? [N S] _]; subst. rewrite (parent_snoc dir n N S).
    rewrite app_length in F. cbn in F. destruct (is_file d (file_in (dir ++ [n]) name)) eqn:E.
    + apply file_iff in E. unfold chosen. split.
      * intros H. injection H as <-. split; [assumption|]. right. split; [assumption|]. exists (dir ++ [n]). split; [exists []; now rewrite app_nil_r|]. split; [reflexivity|].
        intros nr A L. apply above_length in A. lia.
      * intros (_ & [[A _]|(_ & up & A & -> & H)]); [contradiction|]. apply above_snoc in A. destruct A as [->|A]; [reflexivity|].
        exfalso. apply (H (dir ++ [n])); [exists []; now rewrite app_nil_r| |assumption]. apply above_length in A. rewrite app_length. cbn. lia.
    + rewrite (IH fuel Pd ltac:(lia) path). unfold chosen. split; intros (K & [[A _]|(_ & up & A & -> & H)]); try contradiction; (split; [assumption|]); right; (split; [assumption|]); exists up.
      * split; [apply above_snoc; now right|]. split; [reflexivity|]. intros nr A' L. apply above_snoc in A'. destruct A' as [->|A']; [|now apply H].
        intros K'. apply file_iff in K'. congruence.
      * apply above_snoc in A. destruct A as [->|A]; [exfalso; apply file_iff in K; congruence|]. split; [assumption|]. split; [reflexivity|].
        intros nr A' L. apply H; [apply above_snoc; now right|assumption].
Qed.
Lemma steps_length dir : proper dir -> (length dir <= length (dir_text dir))%nat.
Proof.
  intros P. assert (H : (length dir <= length (steps dir))%nat).
  { induction P as [|n dir [N _] P IH]; [cbn; lia|]. change (steps (n :: dir)) with ((47 :: n) ++ steps dir). rewrite app_length. cbn [length]. lia. }
  destruct dir; [cbn; lia|exact H].
Qed.
Lemma find_file_iff d dir name path : proper dir -> find_file d (Some (dir_text dir)) name = Some path <-> chosen d dir name path.
Proof.
  intros P. unfold find_file. destruct (path_is_absolute name) eqn:A.
  - apply absolute_iff in A. unfold chosen. destruct (is_file d name) eqn:F.
    + apply file_iff in F. split; [intros H; injection H as <-; auto|]. intros (_ & [[_ ->]|[N _]]); [reflexivity|contradiction].
    + split; [discriminate|]. intros (K & [[_ ->]|[N _]]); [apply file_iff in K; congruence|contradiction].
  - apply relative_iff in A. apply find_up_iff; [assumption|assumption|]. pose proof (steps_length dir P). lia.
Qed.
Lemma find_file_none d dir name : proper dir -> find_file d (Some (dir_text dir)) name = None <-> forall path, ~ chosen d dir name path.
Proof.
  intros P. split.
  - intros E path C. apply (find_file_iff d dir name path P) in C. congruence.
  - intros H. destruct (find_file d (Some (dir_text dir)) name) as [path|] eqn:E; [|reflexivity]. apply (find_file_iff d dir name path P) in E. now apply H in E.
Qed.

Lemma profile_eqb_eq a b : profile_eqb a b = true <-> a = b.
Proof.
  destruct a, b; cbn; split; intros H; try discriminate; try reflexivity.
  - apply leqb_eq in H. now subst.
  - injection H as ->. now apply leqb_eq.
Qed.
Lemma called_iff key pr : profile_eqb pr (profile_named key) = true <-> profile_called key pr.
Proof. rewrite profile_eqb_eq, <- profile_iff. split; congruence. Qed.
Lemma called_existsb t pr : existsb (fun x : str * toml_value => profile_eqb pr (profile_named (fst x))) t = false <-> Forall (fun y => ~ profile_called (fst y) pr) t.
Proof.
  induction t as [|x t IH]; cbn [existsb]; [split; [constructor|reflexivity]|]. rewrite orb_false_iff, IH. split.
  - intros [H K]. constructor; [|assumption]. rewrite <- called_iff. congruence.
  - intros H. inversion H as [|? ? H1 H2]; subst. split; [|assumption]. rewrite <- called_iff in H1. now destruct (profile_eqb pr (profile_named (fst x))).
Qed.
Lemma nested_tables t f : toml_nested t = Some f -> only_tables t /\ forall pr, table_of t pr (f pr).
Proof.
  revert f. induction t as [|[k [d|]] t IH]; intros f; cbn [toml_nested]; intros H; [| |discriminate].
  - injection H as <-. split; [constructor|]. intros pr. right. split; [constructor|reflexivity].
  - destruct (toml_nested t) as [g|]; [|discriminate]. injection H as <-. destruct (IH g eq_refl) as [O T]. split; [constructor; [discriminate|assumption]|].
    intros pr. destruct (profile_eqb pr (profile_named k)) eqn:K; [destruct (existsb (fun x => profile_eqb pr (profile_named (fst x))) t) eqn:X|]; cbn [andb negb].
    + destruct (T pr) as [(b & key & a & E & C & F)|[F _]]; [left; exists ((k, TTable d) :: b), key, a; rewrite E; auto|]. apply called_existsb in F. congruence.
    + left. exists [], k, t. split; [reflexivity|]. split; [now apply called_iff|now apply called_existsb].
    + destruct (T pr) as [(b & key & a & E & C & F)|[F E]]; [left; exists ((k, TTable d) :: b), key, a; rewrite E; auto|].
      right. split; [|assumption]. constructor; [|assumption]. cbn. rewrite <- called_iff. congruence.
Qed.
Lemma nested_none t : toml_nested t = None -> ~ only_tables t.
Proof.
  induction t as [|[k [d|]] t IH]; cbn [toml_nested]; intros H O; [discriminate| |].
  - inversion O; subst. destruct (toml_nested t); [discriminate|now apply IH].
  - inversion O as [|? ? K]; subst. now apply K.
Qed.
Lemma table_once t pr x y : table_of t pr x -> table_of t pr y -> x = y.
Proof.
  assert (G : forall t : toml, forall b key a b' key' a' x y, t = b ++ (key, TTable x) :: a -> t = b' ++ (key', TTable y) :: a' -> profile_called key pr -> profile_called key' pr ->
    Forall (fun y => ~ profile_called (fst y) pr) a -> Forall (fun y => ~ profile_called (fst y) pr) a' -> x = y).
  { clear. intros t b. revert t. induction b as [|z b IH]; intros t key a b' key' a' x y E E' C C' F F'; subst t.
    - destruct b' as [|z' b']; cbn in E'; [congruence|]. injection E' as _ E'. subst a. exfalso. apply Forall_app in F. destruct F as [_ F]. inversion F; subst. contradiction.
    - destruct b' as [|z' b']; cbn in E'; [|injection E' as _ E'; now apply (IH _ key a b' key' a' x y eq_refl E')].
      injection E' as _ E'. exfalso. rewrite <- E' in F'. apply Forall_app in F'. destruct F' as [_ F']. inversion F'; subst. contradiction. }
  intros [(b & key & a & E & C & F)|[F ->]] [(b' & key' & a' & E' & C' & F')|[F' ->]].
  - now apply (G t b key a b' key' a').
  - exfalso. subst t. apply Forall_app in F'. destruct F' as [_ F']. inversion F'; subst. contradiction.
  - exfalso. subst t. apply Forall_app in F. destruct F as [_ F]. inversion F; subst. contradiction.
  - reflexivity.
Qed.

Lemma read_contents d dir name file : proper dir -> read_file d (Some (dir_text dir)) name = Some file -> contents d dir name file.
Proof.
  intros P. unfold read_file. destruct (find_file d (Some (dir_text dir)) name) as [path|] eqn:E.
  - apply (find_file_iff d dir name path P) in E. destruct (d path) as [[t|]|] eqn:D; try discriminate. intros N. apply nested_tables in N. destruct N. left. exists path, t. auto.
  - intros H. injection H as <-. right. split; [now apply (find_file_none d dir name P)|reflexivity].
Qed.
Lemma read_broken d dir name : proper dir -> read_file d (Some (dir_text dir)) name = None <-> broken d dir name.
Proof.
  intros P. unfold read_file, broken. split.
  - destruct (find_file d (Some (dir_text dir)) name) as [path|] eqn:E; [|discriminate]. apply (find_file_iff d dir name path P) in E. intros H. exists path. split; [assumption|].
    intros t D. rewrite D in H. now apply nested_none.
  - intros (path & C & H). apply (find_file_iff d dir name path P) in C. rewrite C. destruct (d path) as [[t|]|] eqn:D; try reflexivity.
    destruct (toml_nested t) as [f|] eqn:N; [|reflexivity]. apply nested_tables in N. destruct N as [O _]. now apply (H t eq_refl) in O.
Qed.
Lemma contents_read d dir name file : proper dir -> contents d dir name file -> exists file', read_file d (Some (dir_text dir)) name = Some file' /\ forall pr, file' pr = file pr.
Proof.
  intros P. unfold read_file. intros [(path & t & C & D & O & T)|[H E]].
  - apply (find_file_iff d dir name path P) in C. rewrite C, D. destruct (toml_nested t) as [f|] eqn:N; [|now apply nested_none in N].
    exists f. split; [reflexivity|]. intros pr. apply (table_once t pr); [now apply nested_tables|apply T].
  - apply (find_file_none d dir name P) in H. rewrite H. eexists. split; [reflexivity|]. intros pr. now rewrite E.
Qed.
