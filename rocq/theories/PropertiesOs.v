(** The properties of command lines of bytes. *)

From Coq Require Import ZArith NArith List String Ascii Bool PeanoNat Lia ZifyN ZifyBool ZifyNat.
From Verif Require Import Base ModelUtil ModelTlv ModelValues ModelProcess ModelDisplay ModelCli SpecUtil SpecTlv SpecIngenico SpecDisplay SpecCli
  ProofsUtil ProofsValues PropertiesBer ModelMain SpecMain ProofsMain PropertiesMain ProofsCli PropertiesCli ModelWords SpecWords ProofsWords PropertiesWords ModelOs SpecOs.
Import ListNotations.
Local Open Scope N_scope.

(** ** Decoding *)

Ltac nlia := zify; Z.div_mod_to_equations; lia.
Lemma decode_char c t : is_scalar c -> utf8_decode (utf8_char c ++ t) = option_map (cons c) (utf8_decode t).
Proof.
  intros H. unfold is_scalar in H. unfold utf8_char.
  destruct (c <? 0x80) eqn:A; [|destruct (c <? 0x800) eqn:B; [|destruct (c <? 0x10000) eqn:C]]; cbn [app].
  - cbn [utf8_decode]. now rewrite A.
  - assert (K : 0x80 <= c < 0x800) by lia. clear H A B.
    assert (X : 2 <= c / 64 <= 31) by nlia. assert (Y : c mod 64 < 64) by nlia.
    assert (Z : (192 + c / 64 - 192) * 64 + (128 + c mod 64 - 128) = c) by nlia.
    set (q := c / 64) in *. set (r := c mod 64) in *. cbn [utf8_decode]. unfold in_range.
    replace (192 + q <? 128) with false by lia. replace ((194 <=? 192 + q) && (192 + q <=? 223)) with true by lia.
    replace ((128 <=? 128 + r) && (128 + r <=? 191)) with true by lia. now rewrite Z.
  - assert (K : 0x800 <= c < 0x10000) by lia.
    assert (X : c / 4096 <= 15) by nlia. assert (Y : (c / 64) mod 64 < 64) by nlia. assert (W : c mod 64 < 64) by nlia.
    assert (Z : (224 + c / 4096 - 224) * 4096 + (128 + (c / 64) mod 64 - 128) * 64 + (128 + c mod 64 - 128) = c) by nlia.
    assert (Lo : c / 4096 = 0 -> 32 <= (c / 64) mod 64) by nlia.
    assert (Hi : c / 4096 = 13 -> (c / 64) mod 64 <= 31) by nlia.
    set (q := c / 4096) in *. set (r := (c / 64) mod 64) in *. set (u := c mod 64) in *. cbn [utf8_decode]. unfold in_range.
    replace (224 + q <? 128) with false by lia. replace ((194 <=? 224 + q) && (224 + q <=? 223)) with false by lia.
    replace ((224 <=? 224 + q) && (224 + q <=? 239)) with true by lia.
    replace (((if 224 + q =? 224 then 160 else 128) <=? 128 + r) && (128 + r <=? (if 224 + q =? 237 then 159 else 191)) && ((128 <=? 128 + u) && (128 + u <=? 191))) with true.
    + now rewrite Z.
    + symmetry. destruct (224 + q =? 224) eqn:E1; destruct (224 + q =? 237) eqn:E2; lia.
  - assert (K : 0x10000 <= c < 0x110000) by lia. clear H A B C.
    assert (X : c / 262144 <= 4) by nlia. assert (Y : (c / 4096) mod 64 < 64) by nlia. assert (W : (c / 64) mod 64 < 64) by nlia. assert (V : c mod 64 < 64) by nlia.
    assert (Z : (240 + c / 262144 - 240) * 262144 + (128 + (c / 4096) mod 64 - 128) * 4096 + (128 + (c / 64) mod 64 - 128) * 64 + (128 + c mod 64 - 128) = c) by nlia.
    assert (Lo : c / 262144 = 0 -> 16 <= (c / 4096) mod 64) by nlia.
    assert (Hi : c / 262144 = 4 -> (c / 4096) mod 64 <= 15) by nlia.
    set (q := c / 262144) in *. set (r := (c / 4096) mod 64) in *. set (u := (c / 64) mod 64) in *. set (v := c mod 64) in *. cbn [utf8_decode]. unfold in_range.
    replace (240 + q <? 128) with false by lia. replace ((194 <=? 240 + q) && (240 + q <=? 223)) with false by lia.
    replace ((224 <=? 240 + q) && (240 + q <=? 239)) with false by lia. replace ((240 <=? 240 + q) && (240 + q <=? 244)) with true by lia.
    replace (((if 240 + q =? 240 then 144 else 128) <=? 128 + r) && (128 + r <=? (if 240 + q =? 244 then 143 else 191)) && ((128 <=? 128 + u) && (128 + u <=? 191)) && ((128 <=? 128 + v) && (128 + v <=? 191))) with true.
    + now rewrite Z.
    + symmetry. destruct (240 + q =? 240) eqn:E1; destruct (240 + q =? 244) eqn:E2; lia.
Qed.
Lemma decode_text s t : str_ok s -> utf8_decode (utf8 s ++ t) = option_map (app s) (utf8_decode t).
Proof.
  unfold utf8. induction 1 as [|c s H _ IH]; cbn [flat_map app].
  - now destruct (utf8_decode t).
  - rewrite <- app_assoc, decode_char, IH by assumption. now destruct (utf8_decode t).
Qed.
(* Whether bytes start with a character. *)
Definition starts (l : list N) : bool :=
  match l with
  | [] => false
  | b0 :: t =>
      if b0 <? 0x80 then true
      else if in_range 0xC2 0xDF b0 then match t with b1 :: _ => in_range 0x80 0xBF b1 | _ => false end
      else if in_range 0xE0 0xEF b0
      then match t with
           | b1 :: b2 :: _ => in_range (if b0 =? 0xE0 then 0xA0 else 0x80) (if b0 =? 0xED then 0x9F else 0xBF) b1 && in_range 0x80 0xBF b2
           | _ => false
           end
      else if in_range 0xF0 0xF4 b0
      then match t with
           | b1 :: b2 :: b3 :: _ => in_range (if b0 =? 0xF0 then 0x90 else 0x80) (if b0 =? 0xF4 then 0x8F else 0xBF) b1
                                    && in_range 0x80 0xBF b2 && in_range 0x80 0xBF b3
           | _ => false
           end
      else false
  end.
Lemma starts_not l : l <> [] -> starts l = false -> utf8_decode l = None.
Proof.
  intros Ne. destruct l as [|b0 t]; [now destruct Ne|]. cbn [starts utf8_decode].
  destruct (b0 <? 0x80); [discriminate|]. destruct (in_range 0xC2 0xDF b0).
  { destruct t as [|b1 t]; [reflexivity|]. now intros ->. }
  destruct (in_range 0xE0 0xEF b0).
  { destruct t as [|b1 [|b2 t]]; [reflexivity..|]. now intros ->. }
  destruct (in_range 0xF0 0xF4 b0); [|reflexivity].
  destruct t as [|b1 [|b2 [|b3 t]]]; [reflexivity..|]. now intros ->.
Qed.
Lemma starts_char c r : is_scalar c -> starts (utf8_char c ++ r) = true.
Proof.
  intros H. destruct (starts (utf8_char c ++ r)) eqn:E; [reflexivity|exfalso].
  assert (K : starts (utf8_char c ++ []) = false).
  { rewrite <- E. unfold utf8_char. destruct (c <? 0x80) eqn:A; [|destruct (c <? 0x800) eqn:B; [|destruct (c <? 0x10000) eqn:C]]; cbn [app]; unfold starts;
      repeat match goal with |- context [if ?b then _ else _] => destruct b eqn:?; try reflexivity end; unfold in_range in *; exfalso.
    all: unfold is_scalar in H; nlia. }
  apply starts_not in K; [|unfold utf8_char; destruct (c <? 0x80), (c <? 0x800), (c <? 0x10000); discriminate].
  rewrite (decode_char c [] H) in K. discriminate.
Qed.
Lemma starts_some l : starts l = true -> exists c r, is_scalar c /\ l = utf8_char c ++ r.
Proof.
  destruct l as [|b0 t]; [discriminate|]. cbn [starts]. unfold is_scalar, utf8_char.
  destruct (b0 <? 0x80) eqn:A.
  { intros _. exists b0, t. rewrite A. split; [lia|reflexivity]. }
  destruct (in_range 0xC2 0xDF b0) eqn:B.
  { destruct t as [|b1 t]; [discriminate|]. unfold in_range in *. intros C. exists ((b0 - 0xC0) * 64 + (b1 - 0x80)), t.
    replace ((b0 - 192) * 64 + (b1 - 128) <? 128) with false by lia. replace ((b0 - 192) * 64 + (b1 - 128) <? 2048) with true by lia.
    split; [lia|]. cbn [app]. f_equal; [|f_equal]; nlia. }
  destruct (in_range 0xE0 0xEF b0) eqn:C.
  { destruct t as [|b1 [|b2 t]]; [discriminate..|]. unfold in_range in *. intros D. exists ((b0 - 0xE0) * 4096 + (b1 - 0x80) * 64 + (b2 - 0x80)), t.
    assert (L : b0 = 0xE0 -> 0xA0 <= b1) by (intros ->; cbn in D; lia). assert (M : b0 = 0xED -> b1 <= 0x9F) by (intros ->; cbn in D; lia).
    assert (N1 : 128 <= b1 <= 191 /\ 128 <= b2 <= 191) by (destruct (b0 =? 224), (b0 =? 237); lia). clear A B D.
    replace ((b0 - 224) * 4096 + (b1 - 128) * 64 + (b2 - 128) <? 128) with false by lia.
    replace ((b0 - 224) * 4096 + (b1 - 128) * 64 + (b2 - 128) <? 2048) with false by lia.
    replace ((b0 - 224) * 4096 + (b1 - 128) * 64 + (b2 - 128) <? 65536) with true by lia.
    split; [lia|]. cbn [app]. f_equal; [|f_equal; [|f_equal]]; nlia. }
  destruct (in_range 0xF0 0xF4 b0) eqn:D; [|discriminate].
  destruct t as [|b1 [|b2 [|b3 t]]]; [discriminate..|]. unfold in_range in *. intros E. exists ((b0 - 0xF0) * 262144 + (b1 - 0x80) * 4096 + (b2 - 0x80) * 64 + (b3 - 0x80)), t.
  assert (L : b0 = 0xF0 -> 0x90 <= b1) by (intros ->; cbn in E; lia). assert (M : b0 = 0xF4 -> b1 <= 0x8F) by (intros ->; cbn in E; lia).
  assert (N1 : 128 <= b1 <= 191 /\ 128 <= b2 <= 191 /\ 128 <= b3 <= 191) by (destruct (b0 =? 240), (b0 =? 244); lia). clear A B C E.
  replace ((b0 - 240) * 262144 + (b1 - 128) * 4096 + (b2 - 128) * 64 + (b3 - 128) <? 128) with false by lia.
  replace ((b0 - 240) * 262144 + (b1 - 128) * 4096 + (b2 - 128) * 64 + (b3 - 128) <? 2048) with false by lia.
  replace ((b0 - 240) * 262144 + (b1 - 128) * 4096 + (b2 - 128) * 64 + (b3 - 128) <? 65536) with false by lia.
  split; [lia|]. cbn [app]. f_equal; [|f_equal; [|f_equal; [|f_equal]]]; nlia.
Qed.
Lemma char_nonempty c : utf8_char c <> [].
Proof. unfold utf8_char. destruct (c <? 0x80), (c <? 0x800), (c <? 0x10000); discriminate. Qed.
(* Every word is a text or broken after one. *)
Lemma text_or_broken b : (exists s, text_bytes s b) \/ exists a, broken_after a b.
Proof.
  induction b as [b IH] using (well_founded_induction (Wf_nat.well_founded_ltof _ (@List.length N))). unfold Wf_nat.ltof in IH.
  destruct b as [|b0 t]; [left; exists []; split; [constructor|reflexivity]|].
  destruct (starts (b0 :: t)) eqn:E.
  - destruct (starts_some _ E) as (c & r & Sc & Eq). destruct (IH r) as [(s & S & ->)|(a & A & rest & -> & Ne & No)].
    + rewrite Eq, app_length. pose proof (char_nonempty c). destruct (utf8_char c); [congruence|cbn; lia].
    + left. exists (c :: s). split; [now constructor|exact Eq].
    + right. exists (c :: a). split; [now constructor|]. exists rest. rewrite Eq. unfold utf8 at 2. cbn [flat_map]. rewrite <- app_assoc. auto.
  - right. exists []. split; [constructor|]. exists (b0 :: t). split; [reflexivity|]. split; [discriminate|].
    intros c r Sc K. rewrite K, starts_char in E by assumption. discriminate.
Qed.
Lemma decode_iff b s : utf8_decode b = Some s <-> text_bytes s b.
Proof.
  split.
  - intros E. destruct (text_or_broken b) as [(s' & S & ->)|(a & A & rest & -> & Ne & No)].
    + rewrite <- (app_nil_r (utf8 s')), decode_text in E by assumption. cbn in E. rewrite app_nil_r in E. injection E as <-. now split.
    + exfalso. rewrite decode_text in E by assumption. rewrite starts_not in E; [discriminate|assumption|].
      destruct (starts rest) eqn:St; [|reflexivity]. destruct (starts_some _ St) as (c & r & Sc & K). now destruct (No c r Sc).
  - intros (S & ->). rewrite <- (app_nil_r (utf8 s)), decode_text by assumption. cbn. now rewrite app_nil_r.
Qed.
Lemma decode_broken a b : broken_after a b -> utf8_decode b = None.
Proof.
  intros (A & rest & -> & Ne & No). rewrite decode_text by assumption. rewrite starts_not; [reflexivity|assumption|].
  destruct (starts rest) eqn:St; [|reflexivity]. destruct (starts_some _ St) as (c & r & Sc & K). now destruct (No c r Sc).
Qed.

(** ** One word *)

(* What is left to do after a word: nothing fits any more, only nothing may follow, or go on. *)
Inductive next_state : Type := Stop | Closed | Go (p : pending).
Definition read_word (p : pending) (w : str) : list occurrence * next_state :=
  match word_kind_of w with
  | Escape => (flush p, Closed)
  | LongWord name attached =>
      match find_long name with
      | None => (flush p, Stop)
      | Some (x, a) =>
          match attached with
          | Some v => (flush p ++ [(Long x, [v])], Go None)
          | None => if takes_value a then (flush p, Go (Some (Long x, a, []))) else (flush p ++ [(Long x, [])], Go None)
          end
      end
  | ShortWord cluster =>
      match read_cluster cluster with
      | (l1, None) => (flush p ++ l1, Stop)
      | (l1, Some p') => (flush p ++ l1, Go p')
      end
  | ValueWord =>
      match p with
      | None => ([], Stop)
      | Some (sp, a, vs) =>
          let vs' := vs ++ [w] in
          if accepts_more a (len vs') then ([], Go (Some (sp, a, vs'))) else ([(sp, vs')], Go None)
      end
  end.
Lemma read_words_cons p w t : read_words p (w :: t) =
  match read_word p w with
  | (l, Stop) => (l, true)
  | (l, Closed) => (l, match t with [] => false | _ :: _ => true end)
  | (l, Go p') => let '(l', s) := read_words p' t in (l ++ l', s)
  end.
Proof.
  cbn [read_words]. unfold read_word. destruct (word_kind_of w) as [|name attached|cluster|].
  - reflexivity.
  - destruct (find_long name) as [[x a]|]; [|reflexivity]. destruct attached as [v|].
    + destruct (read_words None t). now rewrite <- app_assoc.
    + destruct (takes_value a); [now destruct (read_words _ t)|]. destruct (read_words None t). now rewrite <- app_assoc.
  - destruct (read_cluster cluster) as [l1 [p'|]]; [|reflexivity]. destruct (read_words p' t). now rewrite <- app_assoc.
  - destruct p as [[[sp a] vs]|]; [|reflexivity]. cbn zeta. destruct (accepts_more a (len (vs ++ [w]))); [now destruct (read_words _ t)|].
    now destruct (read_words None t).
Qed.

(* The same in bytes. *)
Definition occ_text (o : occurrence) (b : spelling * list (list N)) : Prop := fst b = fst o /\ Forall2 text_bytes (snd o) (snd b).
Definition pending_text (p q : pending) : Prop :=
  match p, q with
  | None, None => True
  | Some (sp, a, vs), Some (sp', a', vs') => sp = sp' /\ a = a' /\ Forall2 text_bytes vs vs'
  | _, _ => False
  end.
Definition next_text (x y : next_state) : Prop :=
  match x, y with Stop, Stop | Closed, Closed => True | Go p, Go q => pending_text p q | _, _ => False end.

Lemma utf8_cons c s : utf8 (c :: s) = utf8_char c ++ utf8 s.
Proof. reflexivity. Qed.
Lemma char_first c : exists b r, utf8_char c = b :: r /\ (c < 128 /\ b = c /\ r = [] \/ 128 <= c /\ 128 <= b /\ Forall (fun x => 128 <= x) r).
Proof.
  destruct (N.lt_ge_cases c 128) as [L|G].
  - exists c, []. rewrite utf8_char_ascii by assumption. auto.
  - pose proof (utf8_char_high c G) as H. pose proof (char_nonempty c) as Ne. destruct (utf8_char c) as [|b r]; [congruence|].
    exists b, r. split; [reflexivity|]. right. inversion H. auto.
Qed.
Lemma split_high l s : Forall (fun x => 128 <= x) l -> split_equals (l ++ s) = (l ++ fst (split_equals s), snd (split_equals s)).
Proof.
  induction 1 as [|x l H _ IH]; cbn [app]; [now destruct (split_equals s)|]. cbn [split_equals]. unfold equals. replace (x =? 61) with false by lia. rewrite IH. reflexivity.
Qed.
Lemma split_text s : str_ok s -> exists a b, split_equals s = (a, b) /\ str_ok a /\ (forall v, b = Some v -> str_ok v)
  /\ forall t, split_equals (utf8 s ++ t) = match b with Some v => (utf8 a, Some (utf8 v ++ t)) | None => (utf8 a ++ fst (split_equals t), snd (split_equals t)) end.
Proof.
  induction 1 as [|c s H S IH].
  - exists [], None. repeat split; [constructor|intros v K; discriminate K|]. intros t. cbn. now destruct (split_equals t).
  - destruct IH as (a & b & E & A & B & T). cbn [split_equals]. rewrite E. destruct (char_first c) as (x & r & X & [(L & -> & ->)|(G & G1 & G2)]).
    + destruct (c =? equals) eqn:Q.
      * exists [], (Some s). repeat split; [constructor|intros v K; now injection K as <-|]. intros t. rewrite utf8_cons, X. cbn [app split_equals]. now rewrite Q.
      * exists (c :: a), b. repeat split; [now constructor|assumption|]. intros t. rewrite !utf8_cons, X. cbn [app split_equals]. rewrite Q, T. destruct b; reflexivity.
    + unfold equals. replace (c =? 61) with false by lia. exists (c :: a), b. repeat split; [now constructor|assumption|]. intros t.
      rewrite !utf8_cons, X, <- !app_assoc. rewrite (split_high (x :: r)) by now constructor. rewrite T. destruct b; reflexivity.
Qed.
Definition spellings_ascii (l : list string) : bool := forallb (fun x => forallb (fun c => c <? 128) (lit x)) l.
Lemma ascii_utf8 s : Forall (fun c => c < 128) s -> utf8 s = s.
Proof. induction 1 as [|c s H _ IH]; [reflexivity|]. rewrite utf8_cons, utf8_char_ascii, IH by assumption. reflexivity. Qed.
Lemma utf8_is_ascii s x : Forall (fun c => c < 128) x -> utf8 s = x -> s = x.
Proof.
  revert x. induction s as [|c s IH]; intros x A E; [exact E|]. rewrite utf8_cons in E. destruct (char_first c) as (b & r & X & [(L & -> & ->)|(G & G1 & _)]); rewrite X in E; subst x; inversion A; subst.
  - cbn [app]. f_equal. now apply IH.
  - lia.
Qed.
Lemma leqb_same x w w' : (lit x = w <-> lit x = w') -> leqb (lit x) w = leqb (lit x) w'.
Proof.
  intros H. destruct (leqb (lit x) w) eqn:E, (leqb (lit x) w') eqn:E'; try reflexivity; exfalso.
  - apply leqb_eq in E. apply H, leqb_eq in E. congruence.
  - apply leqb_eq in E'. apply H, leqb_eq in E'. congruence.
Qed.
Lemma find_same (A : Type) f g (l : list A) : (forall x, In x l -> f x = g x) -> find f l = find g l.
Proof. induction l as [|x l IH]; intros H; [reflexivity|]. cbn [find]. rewrite (H x) by now left. destruct (g x); [reflexivity|]. apply IH. intros y I. apply H. now right. Qed.
Lemma longs_ascii x a : In (x, a) (flat_map (fun a => map (fun x => (x, a)) (a_longs a)) cli_args) -> Forall (fun c => c < 128) (lit x).
Proof.
  intros I. assert (K : forallb (fun xa : string * arg => forallb (fun c => c <? 128) (lit (fst xa))) (flat_map (fun a => map (fun x => (x, a)) (a_longs a)) cli_args) = true) by (vm_compute; reflexivity).
  rewrite forallb_forall in K. specialize (K _ I). cbn [fst] in K. rewrite forallb_forall in K. apply Forall_forall. intros c Ic. specialize (K c Ic). lia.
Qed.
Lemma shorts_ascii x a : In (x, a) (flat_map (fun a => map (fun x => (x, a)) (a_shorts a)) cli_args) -> Forall (fun c => c < 128) (lit x).
Proof.
  intros I. assert (K : forallb (fun xa : string * arg => forallb (fun c => c <? 128) (lit (fst xa))) (flat_map (fun a => map (fun x => (x, a)) (a_shorts a)) cli_args) = true) by (vm_compute; reflexivity).
  rewrite forallb_forall in K. specialize (K _ I). cbn [fst] in K. rewrite forallb_forall in K. apply Forall_forall. intros c Ic. specialize (K c Ic). lia.
Qed.
Lemma find_long_text w : find_long (utf8 w) = find_long w.
Proof.
  apply find_same. intros [x a] I. apply longs_ascii in I. cbn [fst]. apply leqb_same. split; intros E.
  - symmetry. now apply utf8_is_ascii.
  - rewrite <- E. symmetry. now apply ascii_utf8.
Qed.
Lemma find_long_high w b r : 128 <= b -> find_long (w ++ b :: r) = None.
Proof.
  intros H. destruct (find_long (w ++ b :: r)) as [[x a]|] eqn:E; [|reflexivity]. exfalso. apply find_some in E. destruct E as [I E]. apply longs_ascii in I.
  cbn [fst] in E. apply leqb_eq in E. rewrite E in I. apply Forall_app in I. destruct I as [_ I]. inversion I. lia.
Qed.
Lemma find_short_high c : 128 <= c -> find_short c = None.
Proof.
  intros H. destruct (find_short c) as [[x a]|] eqn:E; [|reflexivity]. exfalso. apply find_some in E. destruct E as [I E]. apply shorts_ascii in I.
  cbn [fst] in E. apply leqb_eq in E. rewrite E in I. inversion I. lia.
Qed.
Lemma one_text v : str_ok v -> Forall2 text_bytes [v] [utf8 v].
Proof. intros H. repeat constructor. assumption. Qed.
Lemma cluster_text s : str_ok s -> exists l p lb q, read_cluster s = (l, p) /\ read_cluster (utf8 s) = (lb, q) /\ Forall2 occ_text l lb
  /\ match p, q with None, None => True | Some p, Some q => pending_text p q | _, _ => False end.
Proof.
  induction 1 as [|c s H S IH]; [do 4 eexists; repeat split; constructor|]. destruct IH as (l & p & lb & q & E & Eb & O & P).
  rewrite utf8_cons. cbn [read_cluster]. destruct (char_first c) as (b & r & X & [(L & -> & ->)|(G & G1 & _)]); rewrite X; cbn [app read_cluster].
  - destruct (find_short c) as [[x a]|]; [|do 4 eexists; repeat split; constructor]. destruct (takes_value a).
    + destruct s as [|d s']; [do 4 eexists; repeat split; constructor|]. destruct (char_first d) as (b' & r' & X' & K). rewrite utf8_cons, X'. cbn [app].
      inversion S as [|? ? Sd S']; subst. do 4 eexists. split; [reflexivity|]. split; [reflexivity|]. split; [|exact I]. constructor; [|constructor]. split; [reflexivity|]. cbn [snd].
      destruct K as [(L' & -> & ->)|(G' & G1' & _)].
      * destruct (d =? equals); [now apply one_text|]. cbn [app]. change (d :: utf8 s') with ([d] ++ utf8 s'). rewrite <- X', <- utf8_cons. now apply one_text.
      * unfold equals. replace (d =? 61) with false by lia. replace (b' =? 61) with false by lia. change (b' :: r' ++ utf8 s') with ((b' :: r') ++ utf8 s').
        rewrite <- X', <- utf8_cons. now apply one_text.
    + rewrite E, Eb. do 4 eexists. repeat split; [|exact P]. constructor; [split; [reflexivity|constructor]|assumption].
  - rewrite !find_short_high by assumption. do 4 eexists. repeat split; constructor.
Qed.
Lemma flush_text p q : pending_text p q -> Forall2 occ_text (flush p) (flush q).
Proof.
  destruct p as [[[sp a] vs]|], q as [[[sp' a'] vs']|]; cbn; try tauto; [|constructor]. intros (-> & _ & F). constructor; [|constructor]. now split.
Qed.
Lemma values_length vs vs' : Forall2 text_bytes vs vs' -> len vs = len vs'.
Proof. unfold len. induction 1; cbn [List.length]; [reflexivity|lia]. Qed.
Lemma kind_text w : str_ok w -> match word_kind_of w with
  | Escape => word_kind_of (utf8 w) = Escape
  | LongWord n v => str_ok n /\ (forall x, v = Some x -> str_ok x) /\ word_kind_of (utf8 w) = LongWord (utf8 n) (option_map utf8 v)
  | ShortWord c => str_ok c /\ word_kind_of (utf8 w) = ShortWord (utf8 c)
  | ValueWord => word_kind_of (utf8 w) = ValueWord
  end.
Proof.
  intros S. destruct w as [|c1 t1]; [reflexivity|]. inversion S as [|? ? H1 S1]; subst. rewrite utf8_cons. cbn [word_kind_of].
  destruct (char_first c1) as (b & r & X & [(L & -> & ->)|(G & G1 & _)]); rewrite X; cbn [app word_kind_of].
  - destruct (c1 =? hyphen); [|reflexivity]. destruct t1 as [|c2 t2]; [reflexivity|]. inversion S1 as [|? ? H2 S2]; subst. rewrite utf8_cons.
    destruct (char_first c2) as (b & r & X2 & [(L2 & -> & ->)|(G2 & G3 & _)]); rewrite X2; cbn [app].
    + destruct (c2 =? hyphen).
      * destruct t2 as [|c3 t3]; [reflexivity|]. destruct (split_text _ S2) as (a & v & E & A & B & T). rewrite E. specialize (T []). rewrite app_nil_r in T.
        split; [assumption|]. split; [assumption|]. destruct (utf8 (c3 :: t3)) as [|y z] eqn:U.
        { rewrite utf8_cons in U. apply app_eq_nil in U. destruct U as [U _]. now apply char_nonempty in U. }
        rewrite T. destruct v; cbn; now rewrite ?app_nil_r.
      * split; [assumption|]. now rewrite utf8_cons, X2.
    + unfold hyphen. replace (c2 =? 45) with false by lia. replace (b =? 45) with false by lia. split; [assumption|]. now rewrite utf8_cons, X2.
  - unfold hyphen. replace (c1 =? 45) with false by lia. now replace (b =? 45) with false by lia.
Qed.
Lemma word_text p q w : pending_text p q -> str_ok w -> Forall2 occ_text (fst (read_word p w)) (fst (read_word q (utf8 w)))
  /\ next_text (snd (read_word p w)) (snd (read_word q (utf8 w))).
Proof.
  intros P S. pose proof (kind_text w S) as K. pose proof (flush_text p q P) as F. unfold read_word. destruct (word_kind_of w) as [|n v|c|].
  - rewrite K. split; [exact F|exact I].
  - destruct K as (N0 & V & ->). rewrite find_long_text. destruct (find_long n) as [[x a]|]; [|split; [exact F|exact I]]. destruct v as [v|]; cbn [option_map].
    + split; [|exact I]. cbn [fst]. apply Forall2_app; [exact F|]. constructor; [|constructor]. split; [reflexivity|]. now apply one_text, V.
    + destruct (takes_value a); (split; [|cbn; auto]); cbn [fst]; [exact F|]. apply Forall2_app; [exact F|]. constructor; [|constructor]. split; [reflexivity|constructor].
  - destruct K as (C & ->). destruct (cluster_text c C) as (l & x & lb & y & -> & -> & O & X). destruct x as [x|], y as [y|]; try tauto; cbn [fst snd]; (split; [now apply Forall2_app|]); cbn; auto.
  - rewrite K. destruct p as [[[sp a] vs]|], q as [[[sp' a'] vs']|]; try (now destruct P). destruct P as (-> & -> & V). cbn zeta.
    assert (V' : Forall2 text_bytes (vs ++ [w]) (vs' ++ [utf8 w])) by (apply Forall2_app; [assumption|now apply one_text]). pose proof (values_length _ _ V') as VL. unfold str in *. rewrite <- VL.
    destruct (accepts_more a' (len (vs ++ [w]))); cbn [fst snd]; (split; [|cbn; auto]); [constructor|]. constructor; [|constructor]. now split.
Qed.
Lemma words_text ws : Forall str_ok ws -> forall p q, pending_text p q -> Forall2 occ_text (fst (read_words p ws)) (fst (read_words q (map utf8 ws)))
  /\ snd (read_words p ws) = snd (read_words q (map utf8 ws)).
Proof.
  induction 1 as [|w ws H _ IH]; intros p q P; [split; [now apply flush_text|reflexivity]|]. cbn [map]. rewrite !read_words_cons. destruct (word_text p q w P H) as [F N0].
  destruct (read_word p w) as [l n], (read_word q (utf8 w)) as [l' n']. cbn [fst snd] in *. destruct n as [| |p'], n' as [| |q']; cbn [next_text] in N0; try contradiction.
  - now split.
  - split; [assumption|]. now destruct ws.
  - specialize (IH p' q' N0). destruct (read_words p' ws), (read_words q' (map utf8 ws)). cbn [fst snd] in *. split; [now apply Forall2_app|tauto].
Qed.

(** ** The options *)

Lemma decode_texts vs bs : Forall2 text_bytes vs bs -> decode_all bs = Some vs.
Proof. induction 1 as [|v b vs bs H _ IH]; [reflexivity|]. cbn [decode_all]. apply decode_iff in H. now rewrite H, IH. Qed.
Lemma steps_text l lb : Forall2 occ_text l lb -> forall g, os_steps g lb = cli_steps g l.
Proof.
  induction 1 as [|[sp vs] [sp' bs] l lb [E F] _ IH]; intros g; [reflexivity|]. cbn [os_steps cli_steps]. unfold os_step. cbn [fst snd] in *. subst sp'.
  rewrite (decode_texts _ _ F). destruct (cli_step g (sp, vs)); [apply IH|reflexivity..].
Qed.
Lemma step_something g o : cli_step g o <> CliNothing.
Proof.
  unfold cli_step. destruct (find _ _) as [a|]; [|discriminate]. destruct (_ || _); [discriminate|]. cbn zeta.
  destruct (a_action a); try discriminate; destruct (negb _); try discriminate. destruct (is_given _ _); discriminate.
Qed.
Lemma steps_something l : forall g, cli_steps g l <> CliNothing.
Proof. induction l as [|o l IH]; intros g; [discriminate|]. cbn [cli_steps]. pose proof (step_something g o). destruct (cli_step g o); try congruence. Qed.
Lemma steps_app l l' : forall g, cli_steps g (l ++ l') = match cli_steps g l with CliOk g' => cli_steps g' l' | r => r end.
Proof. induction l as [|o l IH]; intros g; [reflexivity|]. cbn [app cli_steps]. destruct (cli_step g o); [apply IH|reflexivity..]. Qed.
Lemma os_steps_app l l' : forall g, os_steps g (l ++ l') = match os_steps g l with CliOk g' => os_steps g' l' | r => r end.
Proof. induction l as [|o l IH]; intros g; [reflexivity|]. cbn [app os_steps]. destruct (os_step g o); [apply IH|reflexivity..]. Qed.

(** ** C96: command lines that are not text *)

(* Words that are text are read as that text. *)
Theorem C96_text : forall p e us ws, Forall2 text_bytes us ws -> run_os p e ws = run_words p e us.
Proof.
  intros p e us ws H. assert (S : Forall str_ok us /\ ws = map utf8 us).
  { induction H as [|u w us ws [U ->] _ [A ->]]; [now split|]. split; [now constructor|reflexivity]. }
  destruct S as [S ->]. clear H. unfold run_os, run_words, os_parse, words_parse, cli_parse.
  destruct (words_text us S None None I) as [F E]. destruct (read_words None us) as [l s], (read_words None (map utf8 us)) as [l' s']. cbn [fst snd] in *. subst s'.
  rewrite (steps_text _ _ F). pose proof (steps_something l []). destruct (cli_steps [] l) as [g| | | |], s; try reflexivity; congruence.
Qed.

(** ** A word that is not text *)

(* A value that contains bytes that are no text. *)
Lemma broken_high a b : broken_after a b -> str_ok a /\ exists x r, b = utf8 a ++ x :: r /\ 128 <= x /\ forall c t, is_scalar c -> x :: r <> utf8_char c ++ t.
Proof.
  intros (A & rest & -> & Ne & No). split; [assumption|]. destruct rest as [|x r]; [congruence|]. exists x, r. split; [reflexivity|]. split; [|exact No].
  destruct (N.lt_ge_cases x 128) as [L|G]; [|assumption]. exfalso. apply (No x r); [left; lia|]. now rewrite utf8_char_ascii.
Qed.
Lemma broken_tail a x r : str_ok a -> (forall c t, is_scalar c -> x :: r <> utf8_char c ++ t) -> utf8_decode (utf8 a ++ x :: r) = None.
Proof. intros A No. apply (decode_broken a). split; [assumption|]. exists (x :: r). repeat split; [discriminate|exact No]. Qed.
Lemma none_in vs v : In v vs -> utf8_decode v = None -> decode_all vs = None.
Proof.
  induction vs as [|w vs IH]; intros J E; [destruct J|]. destruct J as [->|I]; cbn [decode_all]; [now rewrite E|]. rewrite (IH I E). now destruct (utf8_decode w).
Qed.
Lemma pending_kept ws : forall sp a vs, vs <> [] -> exists more l s, read_words (Some (sp, a, vs)) ws = ((sp, vs ++ more) :: l, s).
Proof.
  induction ws as [|w ws IH]; intros sp a vs Ne; [exists [], [], false; cbn; now rewrite app_nil_r|]. rewrite read_words_cons. unfold read_word. cbn [flush].
  assert (K : forall r, (exists l1, fst r = (sp, vs) :: l1) -> exists more l s, match r with
    | (l, Stop) => (l, true) | (l, Closed) => (l, match ws with [] => false | _ :: _ => true end)
    | (l, Go p') => let '(l', s) := read_words p' ws in (l ++ l', s) end = ((sp, vs ++ more) :: l, s)).
  { intros [l0 n] [l1 E]. cbn [fst] in E. subst l0. exists []. rewrite app_nil_r. destruct n as [| |p']; [eauto..|]. destruct (read_words p' ws). cbn [app]. eauto. }
  destruct (word_kind_of w) as [|n v|c|].
  - apply (K (_, Closed)). eexists. reflexivity.
  - destruct (find_long n) as [[x b]|]; [|apply (K (_, Stop)); eexists; reflexivity]. destruct v; [|destruct (takes_value b)]; apply (K (_, Go _)); eexists; reflexivity.
  - destruct (read_cluster c) as [l1 [p'|]]; [apply (K (_, Go _))|apply (K (_, Stop))]; eexists; reflexivity.
  - cbn zeta. destruct (accepts_more a (len (vs ++ [w]))).
    + destruct (IH sp a (vs ++ [w])) as (more & l & s & ->); [intros Q; apply app_eq_nil in Q; destruct Q; discriminate|]. exists (w :: more), l, s. now rewrite <- app_assoc.
    + destruct (read_words None ws) as [l s]. exists [w], l, s. reflexivity.
Qed.
(* What such a word does, next to a text that has another strange character in its place. *)
Definition ends (lb : list (spelling * list (list N))) (sb : bool) (l : list occurrence) (s : bool) : Prop :=
  exists l0 lb0, Forall2 occ_text l0 lb0
    /\ (lb = lb0 /\ sb = true /\ l = l0 /\ s = true
        \/ exists sp bs rest v vs, lb = lb0 ++ (sp, bs) :: rest /\ decode_all bs = None /\ l = l0 ++ [(sp, v :: vs)]).
Lemma ends_more l1 lb1 lb sb l s : Forall2 occ_text l1 lb1 -> ends lb sb l s -> ends (lb1 ++ lb) sb (l1 ++ l) s.
Proof.
  intros F (l0 & lb0 & F0 & [(-> & -> & -> & ->)|(sp & bs & rest & v & vs & -> & D & ->)]); exists (l1 ++ l0), (lb1 ++ lb0); (split; [now apply Forall2_app|]).
  - left. auto.
  - right. exists sp, bs, rest, v, vs. rewrite !app_assoc. auto.
Qed.
Lemma ends_stop l lb : Forall2 occ_text l lb -> ends lb true l true.
Proof. intros F. exists l, lb. split; [assumption|]. left. auto. Qed.
Lemma ends_bad sp bs rest sb v vs s : decode_all bs = None -> ends ((sp, bs) :: rest) sb [(sp, v :: vs)] s.
Proof. intros D. exists [], []. split; [constructor|]. right. exists sp, bs, rest, v, vs. auto. Qed.

Lemma cluster_ends a x r c : str_ok a -> 128 <= x -> (forall d t, is_scalar d -> x :: r <> utf8_char d ++ t) -> 128 <= c ->
  exists l0 lb0, Forall2 occ_text l0 lb0 /\ (read_cluster (utf8 a ++ x :: r) = (lb0, None) /\ read_cluster (a ++ [c]) = (l0, None)
    \/ exists sp b v, read_cluster (utf8 a ++ x :: r) = (lb0 ++ [(sp, [b])], Some None) /\ utf8_decode b = None /\ read_cluster (a ++ [c]) = (l0 ++ [(sp, [v])], Some None)).
Proof.
  intros A Hx No Hc. induction A as [|d a D A IH].
  { exists [], []. split; [constructor|]. left. cbn [utf8 flat_map app read_cluster]. now rewrite !find_short_high. }
  rewrite utf8_cons. cbn [app]. destruct (char_first d) as (b & r' & X & [(L & -> & ->)|(G & G1 & _)]); rewrite X; cbn [app read_cluster].
  - destruct (find_short d) as [[y ar]|]; [|exists [], []; split; [constructor|left; auto]]. destruct (takes_value ar).
    + assert (K : exists z t, utf8 a ++ x :: r = z :: t) by (destruct (utf8 a); cbn; eauto). destruct K as (z & t & K). rewrite K.
      assert (K' : exists z' t', a ++ [c] = z' :: t') by (destruct a; cbn; eauto). destruct K' as (z' & t' & K'). rewrite K'.
      exists [], []. split; [constructor|]. right. do 3 eexists. split; [reflexivity|]. split; [|reflexivity].
      destruct (z =? equals) eqn:Q; [|rewrite <- K; now apply broken_tail]. apply N.eqb_eq in Q. subst z.
      destruct a as [|f a']; [cbn in K; injection K as -> _; unfold equals in Hx; lia|]. rewrite utf8_cons in K. inversion A; subst.
      destruct (char_first f) as (b' & r'' & X' & [(L' & -> & ->)|(G' & G1' & _)]); rewrite X' in K; cbn [app] in K.
      * injection K as _ <-. now apply broken_tail.
      * injection K as -> _. unfold equals in G1'. lia.
    + destruct IH as (l0 & lb0 & F & [[-> ->]|(sp & v & w & -> & V & ->)]); exists ((Short y, []) :: l0), ((Short y, []) :: lb0);
        (split; [constructor; [split; [reflexivity|constructor]|assumption]|]); [left; auto|]. right. exists sp, v, w. auto.
  - rewrite !find_short_high by assumption. exists [], []. split; [constructor|]. left. auto.
Qed.
Lemma split_char s c : 128 <= c -> split_equals (s ++ [c]) = match split_equals s with (a, Some v) => (a, Some (v ++ [c])) | (a, None) => (a ++ [c], None) end.
Proof.
  intros H. induction s as [|d s IH]; cbn [app split_equals]; [unfold equals; replace (c =? 61) with false by lia; reflexivity|].
  destruct (d =? equals); [reflexivity|]. rewrite IH. now destruct (split_equals s) as [a [v|]].
Qed.
Lemma broken_ends a w p q ws c : broken_after a w -> pending_text p q -> 128 <= c ->
  ends (fst (read_words q (w :: ws))) (snd (read_words q (w :: ws))) (fst (read_words p [a ++ [c]])) (snd (read_words p [a ++ [c]])).
Proof.
  intros B P Hc. apply broken_high in B. destruct B as (A & x & r & -> & Hx & No). pose proof (flush_text p q P) as F. rewrite !read_words_cons.
  assert (Val : word_kind_of (utf8 a ++ x :: r) = ValueWord -> word_kind_of (a ++ [c]) = ValueWord ->
    let R := match read_word q (utf8 a ++ x :: r) with
      | (l, Stop) => (l, true) | (l, Closed) => (l, match ws with [] => false | _ :: _ => true end)
      | (l, Go p') => let '(l', s) := read_words p' ws in (l ++ l', s) end in
    let T := match read_word p (a ++ [c]) with
      | (l, Stop) => (l, true) | (l, Closed) => (l, false)
      | (l, Go p') => let '(l', s) := read_words p' [] in (l ++ l', s) end in ends (fst R) (snd R) (fst T) (snd T)).
  { intros E1 E2. unfold read_word. rewrite E1, E2. destruct p as [[[sp ar] vs]|], q as [[[sp' ar'] vs']|]; cbn [pending_text] in P; try contradiction; [|apply ends_stop; constructor].
    destruct P as (<- & <- & V). cbn zeta. assert (VL : len (vs ++ [a ++ [c]]) = len (vs' ++ [utf8 a ++ x :: r])).
    { pose proof (values_length _ _ V) as VL. unfold len in *. rewrite !app_length. cbn [List.length]. unfold str in *. lia. }
    unfold str in *. rewrite VL. assert (Dn : forall more, decode_all ((vs' ++ [utf8 a ++ x :: r]) ++ more) = None).
    { intros more. apply (none_in _ (utf8 a ++ x :: r)); [apply in_or_app; left; apply in_or_app; right; now left|now apply broken_tail]. }
    assert (Hd : exists v0 vs0, vs ++ [a ++ [c]] = v0 :: vs0) by (destruct vs; cbn; eauto). destruct Hd as (v0 & vs0 & Hd).
    destruct (accepts_more ar (len (vs' ++ [utf8 a ++ x :: r]))); cbn [read_words flush].
    - destruct (pending_kept ws sp ar (vs' ++ [utf8 a ++ x :: r])) as (more & l & s & E); [intros Q; apply app_eq_nil in Q; destruct Q; discriminate|]. unfold str in *. rewrite E.
      cbn [fst snd app]. rewrite Hd. apply ends_bad, Dn.
    - match goal with |- context [read_words ?P ws] => destruct (read_words P ws) as [l s] end. cbn [fst snd app]. rewrite Hd. apply ends_bad. specialize (Dn []). now rewrite app_nil_r in Dn. }
  assert (Sh : forall a1, str_ok a1 -> word_kind_of (utf8 a ++ x :: r) = ShortWord (utf8 a1 ++ x :: r) -> word_kind_of (a ++ [c]) = ShortWord (a1 ++ [c]) ->
    let R := match read_word q (utf8 a ++ x :: r) with
      | (l, Stop) => (l, true) | (l, Closed) => (l, match ws with [] => false | _ :: _ => true end)
      | (l, Go p') => let '(l', s) := read_words p' ws in (l ++ l', s) end in
    let T := match read_word p (a ++ [c]) with
      | (l, Stop) => (l, true) | (l, Closed) => (l, false)
      | (l, Go p') => let '(l', s) := read_words p' [] in (l ++ l', s) end in ends (fst R) (snd R) (fst T) (snd T)).
  { intros a1 A1 E1 E2. unfold read_word. rewrite E1, E2. destruct (cluster_ends a1 x r c A1 Hx No Hc) as (l0 & lb0 & F0 & [[-> ->]|(sp & b & v & -> & Db & ->)]).
    - apply ends_stop. now apply Forall2_app.
    - destruct (read_words None ws) as [l s]. cbn [read_words flush fst snd]. rewrite app_nil_r, <- app_assoc. apply ends_more; [assumption|]. rewrite <- app_assoc. apply ends_more; [assumption|].
      cbn [app]. apply ends_bad. cbn [decode_all]. now rewrite Db. }
  destruct a as [|c1 t1].
  { apply Val; cbn [utf8 flat_map app word_kind_of]; unfold hyphen; [now replace (x =? 45) with false by lia|now replace (c =? 45) with false by lia]. }
  inversion A as [|? ? A1 At]; subst. destruct (c1 =? hyphen) eqn:H1.
  2: { apply Val; rewrite ?utf8_cons; cbn [app word_kind_of]; [|now rewrite H1]. destruct (char_first c1) as (b & r' & X & [(L & -> & ->)|(G & G1 & _)]); rewrite X; cbn [app word_kind_of].
       - now rewrite H1.
       - unfold hyphen. now replace (b =? 45) with false by lia. }
  apply N.eqb_eq in H1. subst c1. assert (X1 : utf8_char hyphen = [hyphen]) by reflexivity. destruct t1 as [|c2 t2].
  { apply (Sh []); [constructor|cbn [app]; unfold utf8 at 1; cbn [flat_map]; rewrite X1; cbn [app word_kind_of]; rewrite N.eqb_refl; unfold hyphen; now replace (x =? 45) with false by lia|].
    cbn [app word_kind_of]. rewrite N.eqb_refl. unfold hyphen. now replace (c =? 45) with false by lia. }
  inversion At as [|? ? A2 At2]; subst. destruct (c2 =? hyphen) eqn:H2.
  2: { apply (Sh (c2 :: t2)); [assumption|rewrite utf8_cons, X1|].
       - cbn [app word_kind_of]. rewrite N.eqb_refl. rewrite utf8_cons. destruct (char_first c2) as (b & r' & X & [(L & -> & ->)|(G & G1 & _)]); rewrite X; cbn [app].
         + now rewrite H2.
         + unfold hyphen. now replace (b =? 45) with false by lia.
       - cbn [app word_kind_of]. now rewrite N.eqb_refl, H2. }
  apply N.eqb_eq in H2. subst c2. unfold read_word.
  assert (E1 : word_kind_of (utf8 (hyphen :: hyphen :: t2) ++ x :: r) = let '(a, b) := split_equals (utf8 t2 ++ x :: r) in LongWord a b).
  { rewrite !utf8_cons, !X1. cbn [app word_kind_of]. rewrite N.eqb_refl. destruct (utf8 t2 ++ x :: r) as [|y z] eqn:Q; [|reflexivity]. apply app_eq_nil in Q. destruct Q; discriminate. }
  assert (E2 : word_kind_of ((hyphen :: hyphen :: t2) ++ [c]) = let '(a, b) := split_equals (t2 ++ [c]) in LongWord a b).
  { cbn [app word_kind_of]. rewrite N.eqb_refl. destruct (t2 ++ [c]) as [|y z] eqn:Q; [|reflexivity]. apply app_eq_nil in Q. destruct Q; discriminate. }
  rewrite E1, E2. destruct (split_text t2 At2) as (n & v & Sp & Sn & Sv & T). rewrite T, (split_char _ _ Hc), Sp. destruct v as [v|].
  - rewrite find_long_text. destruct (find_long n) as [[y ar]|]; [|now apply ends_stop]. destruct (read_words None ws) as [l s]. cbn [read_words flush fst snd].
    rewrite app_nil_r, <- app_assoc. apply ends_more; [assumption|]. cbn [app]. apply ends_bad. cbn [decode_all]. rewrite broken_tail; [reflexivity|now apply Sv|assumption].
  - destruct (split_equals (x :: r)) as [n1 v1] eqn:Q. cbn [split_equals] in Q. unfold equals in Q. replace (x =? 61) with false in Q by lia.
    destruct (split_equals r) as [n2 v2]. injection Q as <- <-. cbn [fst snd]. rewrite !find_long_high by assumption. now apply ends_stop.
Qed.
Lemma words_end us a w ws c : Forall str_ok us -> broken_after a w -> 128 <= c -> forall p q, pending_text p q ->
  ends (fst (read_words q (map utf8 us ++ w :: ws))) (snd (read_words q (map utf8 us ++ w :: ws))) (fst (read_words p (us ++ [a ++ [c]]))) (snd (read_words p (us ++ [a ++ [c]]))).
Proof.
  intros S B Hc. induction S as [|u us U S IH]; intros p q P; [now apply (broken_ends a)|]. cbn [map app]. rewrite !read_words_cons. destruct (word_text p q u P U) as [F N0].
  destruct (read_word p u) as [l n], (read_word q (utf8 u)) as [l' n']. cbn [fst snd] in *. destruct n as [| |p'], n' as [| |q']; cbn [next_text] in N0; try contradiction.
  - now apply ends_stop.
  - destruct (map utf8 us ++ w :: ws) as [|y z] eqn:Q; [apply app_eq_nil in Q; destruct Q; discriminate|].
    destruct (us ++ [a ++ [c]]) as [|y' z'] eqn:Q'; [apply app_eq_nil in Q'; destruct Q'; discriminate|]. now apply ends_stop.
  - specialize (IH p' q' N0). destruct (read_words p' (us ++ [a ++ [c]])), (read_words q' (map utf8 us ++ w :: ws)). cbn [fst snd] in *. now apply ends_more.
Qed.
Lemma step_value g sp v vs : cli_step g (sp, v :: vs) <> CliHelp /\ cli_step g (sp, v :: vs) <> CliVersion.
Proof.
  unfold cli_step. cbn [fst snd]. destruct (find (spelt sp) cli_args) as [a|] eqn:E; [|split; discriminate].
  apply find_some in E. destruct E as [I _].
  assert (K : forallb (fun a => match a_action a with ActHelp | ActVersion => match a_max a with Some 0%N => true | _ => false end | _ => true end) cli_args = true) by (vm_compute; reflexivity).
  rewrite forallb_forall in K. specialize (K a I). destruct (_ || _) eqn:Q; [split; discriminate|]. cbn zeta. destruct (a_action a) eqn:Act.
  - destruct (negb _); [split; discriminate|]. destruct (is_given _ _); split; discriminate.
  - destruct (negb _); split; discriminate.
  - destruct (a_max a) as [[|m]|]; try discriminate. apply orb_false_iff in Q. destruct Q as [_ Q]. unfold len in Q. cbn [List.length] in Q. lia.
  - destruct (a_max a) as [[|m]|]; try discriminate. apply orb_false_iff in Q. destruct Q as [_ Q]. unfold len in Q. cbn [List.length] in Q. lia.
Qed.

(* The first word that is not text decides, together with the words before it: the program
   shows its help or version if they have asked for it by then, otherwise it is a usage
   error. Compare a strange character in the place of the bytes that are no text. *)
Theorem C96_broken : forall p e us ws w a rest c, Forall2 text_bytes us ws -> broken_after a w -> 128 <= c ->
  run_os p e (ws ++ w :: rest) = help_or_error (run_words p e (us ++ [a ++ [c]])).
Proof.
  intros p e us ws w a rest c H B Hc. assert (S : Forall str_ok us /\ ws = map utf8 us).
  { induction H as [|u x us ws [U ->] _ [A ->]]; [now split|]. split; [now constructor|reflexivity]. }
  destruct S as [S ->]. clear H. unfold run_os, run_words, os_parse, words_parse, cli_parse.
  pose proof (words_end us a w rest c S B Hc None None I) as E.
  destruct (read_words None (us ++ [a ++ [c]])) as [l s], (read_words None (map utf8 us ++ w :: rest)) as [lb sb]. cbn [fst snd] in E.
  destruct E as (l0 & lb0 & F & [(-> & -> & -> & ->)|(sp & bs & more & v & vs & -> & D & ->)]).
  - rewrite (steps_text _ _ F). pose proof (steps_something l0 []). destruct (cli_steps [] l0); try reflexivity.
  - rewrite os_steps_app, steps_app, (steps_text _ _ F). pose proof (steps_something l0 []). destruct (cli_steps [] l0) as [g| | | |]; try congruence; try (now destruct s).
    cbn [os_steps cli_steps]. unfold os_step. cbn [snd]. rewrite D. destruct (step_value g sp v vs) as [K1 K2]. pose proof (step_something g (sp, v :: vs)).
    destruct (cli_step g (sp, v :: vs)) as [g'| | | |]; try congruence; destruct s; try reflexivity. cbn [cli_steps]. destruct g'; [reflexivity|]. now destruct (cli_valid _).
Qed.
(* So the program never does anything else with words that are not text, and what comes after
   them does not matter. *)
Theorem C96_never : forall p e ws, ~ (exists us, Forall2 text_bytes us ws) -> run_os p e ws = ShowsHelp \/ run_os p e ws = ShowsVersion \/ run_os p e ws = UsageError.
Proof.
  intros p e ws H. assert (K : exists us ts w a rest, ws = ts ++ w :: rest /\ Forall2 text_bytes us ts /\ broken_after a w).
  { induction ws as [|w ws IH]; [destruct H; exists []; constructor|]. destruct (text_or_broken w) as [(u & U)|(a & B)].
    - destruct IH as (us & ts & w' & a & rest & -> & F & B); [intros (us & F); apply H; exists (u :: us); now constructor|].
      exists (u :: us), (w :: ts), w', a, rest. split; [reflexivity|split; [now constructor|assumption]].
    - exists [], [], w, a, ws. split; [reflexivity|split; [constructor|assumption]]. }
  destruct K as (us & ts & w & a & rest & -> & F & B). rewrite (C96_broken p e us ts w a rest 0xFFFD F B) by lia. destruct (run_words _ _ _); cbn; auto.
Qed.
Theorem C96_rest : forall p p' e e' us ws w a rest rest', Forall2 text_bytes us ws -> broken_after a w -> run_os p e (ws ++ w :: rest) = run_os p' e' (ws ++ w :: rest').
Proof.
  intros p p' e e' us ws w a rest rest' F B. rewrite (C96_broken p e us ws w a rest 0xFFFD F B), (C96_broken p' e' us ws w a rest' 0xFFFD F B) by lia.
  unfold run_words. destruct (words_parse _); cbn [help_or_error]; reflexivity.
Qed.
(* Every command line of bytes is of one of the two kinds. *)
Theorem C96_status : forall p e ws, (exists us, Forall2 text_bytes us ws /\ run_os p e ws = run_words p e us) \/ exit_status (run_os p e ws) = 0 \/ exit_status (run_os p e ws) = 2.
Proof.
  intros p e ws. assert (K : (exists us, Forall2 text_bytes us ws) \/ ~ exists us, Forall2 text_bytes us ws).
  { induction ws as [|w ws IH]; [left; exists []; constructor|]. destruct (text_or_broken w) as [(u & U)|(a & B)].
    - destruct IH as [(us & F)|N0]; [left; exists (u :: us); now constructor|]. right. intros (us & F). apply N0. inversion F; subst. eauto.
    - right. intros (us & F). inversion F as [|u ? us' ? T _]; subst. apply decode_iff in T. apply decode_broken in B. congruence. }
  destruct K as [(us & F)|N0].
  - left. exists us. split; [assumption|]. now apply C96_text.
  - right. destruct (C96_never p e ws N0) as [->|[->| ->]]; cbn; auto.
Qed.
Example C96_example : run_os p64 plain_env [lit "-b"; [0x39; 0xFF]; lit "--help"] = UsageError
  /\ run_os p64 plain_env [[0x2D; 0x68; 0xC3]] = ShowsHelp /\ run_os p64 plain_env [[0x2D; 0x6D; 0xC3; 0x97]; lit "--ber=9F360105"] <> UsageError.
Proof. split; [vm_compute; reflexivity|]. split; [vm_compute; reflexivity|]. vm_compute. intros K. discriminate K. Qed.
