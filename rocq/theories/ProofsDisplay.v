(** Proofs about the display code. *)

From Coq Require Import ZArith NArith List String Ascii Bool Lia ZifyN ZifyBool ZifyNat.
From Verif Require Import Base ModelUtil ModelEnums ModelBitflag ModelSchemas ModelTags ModelTlv ModelValues ModelProcess ModelDisplay
  SpecUtil SpecCodes SpecValues SpecDisplay ProofsUtil ProofsBer ProofsValues PropertiesValues.
Import ListNotations.
Local Open Scope N_scope.

(** ** Output algebra *)

Lemma dead_then a b : dead (a >>> b) = dead a || dead b.
Proof. unfold dthen. destruct (dead a) eqn:E; [now rewrite E|reflexivity]. Qed.
Lemma evs_then a b : dead a = false -> evs (a >>> b) = evs a ++ evs b.
Proof. unfold dthen. now intros ->. Qed.
Lemma screen_app a : forall st b, screen st (a ++ b) = screen st a ++ screen (style_after st a) b.
Proof. induction a as [|[s|c|] a IH]; intros st b; cbn; rewrite ?IH, ?app_assoc; reflexivity. Qed.
Lemma style_after_app a : forall st b, style_after st (a ++ b) = style_after (style_after st a) b.
Proof. induction a as [|[s|c|] a IH]; intros st b; cbn; auto. Qed.
Lemma ink_app st a b : ink st (a ++ b) = ink st a ++ ink st b.
Proof. apply map_app. Qed.

(* Complete output that starts and ends without style. *)
Definition prints (d : disp) (s : list (style * N)) : Prop :=
  dead d = false /\ screen None (evs d) = s /\ style_after None (evs d) = None.
(* Text in one style throughout. *)
Definition writes (d : disp) (s : str) : Prop :=
  dead d = false /\ forall st, screen st (evs d) = ink st s /\ style_after st (evs d) = st.

Lemma prints_nil : prints dnil [].
Proof. repeat split. Qed.
Lemma prints_then a b x y : prints a x -> prints b y -> prints (a >>> b) (x ++ y).
Proof.
  intros (Da & Sa & Fa) (Db & Sb & Fb). unfold prints. rewrite dead_then, Da, Db. split; [reflexivity|].
  rewrite evs_then by assumption. rewrite screen_app, style_after_app, Sa, Fa, Sb. auto.
Qed.
Lemma writes_nil : writes dnil [].
Proof. repeat split. Qed.
Lemma writes_txt s : writes (dtxt s) s.
Proof. split; [reflexivity|]. intros st. cbn. now rewrite app_nil_r. Qed.
Lemma writes_ln s : writes (dln s) (s ++ [10]).
Proof. split; [reflexivity|]. intros st. cbn. now rewrite app_nil_r. Qed.
Lemma writes_then a b x y : writes a x -> writes b y -> writes (a >>> b) (x ++ y).
Proof.
  intros (Da & Ha) (Db & Hb). unfold writes. rewrite dead_then, Da, Db. split; [reflexivity|]. intros st.
  rewrite evs_then by assumption. rewrite screen_app, style_after_app, ink_app. destruct (Ha st) as [-> ->]. destruct (Hb st) as [-> ->]. auto.
Qed.
Lemma writes_prints d s : writes d s -> prints d (ink None s).
Proof. intros (D & H). split; [assumption|]. apply H. Qed.
Lemma prints_styled c d s : writes d s -> prints (dset c >>> d >>> dreset) (ink (Some c) s).
Proof.
  intros (D & H). unfold prints. rewrite !dead_then, D. split; [reflexivity|].
  assert (E : evs (dset c >>> d >>> dreset) = SetColor c :: evs d ++ [ResetColor]).
  { rewrite (evs_then (dset c)) by reflexivity. rewrite evs_then by assumption. reflexivity. }
  rewrite E. cbn [screen style_after]. rewrite screen_app, style_after_app. destruct (H (Some c)) as [-> ->]. cbn. now rewrite app_nil_r.
Qed.
Lemma then_assoc a b c : (a >>> b) >>> c = a >>> b >>> c.
Proof.
  unfold dthen. destruct (dead a) eqn:A; [now rewrite A|]. destruct (dead b) eqn:B; cbn [dead evs]; rewrite ?B; [|now rewrite app_assoc].
  cbn. reflexivity.
Qed.
Lemma prints_eq d x y : prints d x -> x = y -> prints d y.
Proof. now intros H <-. Qed.
Lemma writes_eq d x y : writes d x -> x = y -> writes d y.
Proof. now intros H <-. Qed.
Lemma dfor_writes {A} (l : list A) f g : (forall x, In x l -> writes (f x) (g x)) -> writes (dfor l f) (flat_map g l).
Proof.
  induction l as [|x l IH]; intros H; [apply writes_nil|]. cbn [dfor flat_map]. apply writes_then; [apply H; now left|].
  apply IH. intros y Hy. apply H. now right.
Qed.
Lemma dfor_prints {A} (l : list A) f g : (forall x, In x l -> prints (f x) (g x)) -> prints (dfor l f) (flat_map g l).
Proof.
  induction l as [|x l IH]; intros H; [apply prints_nil|]. cbn [dfor flat_map]. apply prints_then; [apply H; now left|].
  apply IH. intros y Hy. apply H. now right.
Qed.
Lemma shows_prints d ls : shows_lines d ls <-> prints d (render ls).
Proof. reflexivity. Qed.
Lemma render_app a b : render (a ++ b) = render a ++ render b.
Proof. apply flat_map_app. Qed.
Lemma shows_then a b x y : shows_lines a x -> shows_lines b y -> shows_lines (a >>> b) (x ++ y).
Proof. rewrite !shows_prints, render_app. apply prints_then. Qed.
Lemma shows_nil : shows_lines dnil [].
Proof. apply prints_nil. Qed.
Lemma shows_line d i spans e : prints d (render_line (mkLine i spans e)) -> shows_lines d [mkLine i spans e].
Proof. intros H. apply shows_prints. unfold render. cbn [flat_map]. now rewrite app_nil_r. Qed.

(* The tabs of an indentation known modulo 256. *)
Lemma prints_tabs i : prints (print_indentation (i mod 256)) (ink None (repeat 9 (N.to_nat (i mod 256)))).
Proof. apply writes_prints, writes_txt. Qed.

Lemma u8_add_one p i : fits p (i + 1) -> u8_add p (i mod 256) 1 = Ok ((i + 1) mod 256).
Proof.
  unfold fits, u8_add, checked. intros H. destruct (overflow_checks p).
  - specialize (H eq_refl). rewrite (N.mod_small i) by lia. rewrite (proj2 (N.ltb_lt _ _) H). f_equal. rewrite N.mod_small; [reflexivity|assumption].
  - destruct (N.ltb_spec (i mod 256 + 1) 256).
    + f_equal. rewrite <- N.add_mod_idemp_l by discriminate. now rewrite (N.mod_small (i mod 256 + 1)).
    + f_equal. now rewrite N.add_mod_idemp_l by discriminate.
Qed.
Lemma fits_le p a b : fits p b -> a <= b -> fits p a.
Proof. unfold fits. intros H L E. specialize (H E). lia. Qed.

Lemma label_prints i c s : prints (label (i mod 256) c s) (ink None (repeat 9 (N.to_nat (i mod 256))) ++ ink (Some c) s).
Proof. unfold label. apply prints_then; [apply prints_tabs|]. apply prints_styled, writes_txt. Qed.
Lemma label_ln_shows i c s : shows_lines (label_ln (i mod 256) c s) [mkLine i [(Some c, s)] (Some c)].
Proof.
  apply shows_line. unfold label_ln, render_line. cbn [l_tabs l_spans l_end flat_map fst snd]. apply prints_then; [apply prints_tabs|].
  eapply prints_eq; [apply prints_styled, writes_ln|]. now rewrite ink_app, app_nil_r.
Qed.
Lemma titled_shows i c s t : shows_lines (label (i mod 256) c s >>> dln t) [row i [(Some c, s); (None, t)]].
Proof.
  apply shows_line. unfold render_line. cbn [l_tabs l_spans l_end flat_map fst snd].
  eapply prints_eq; [apply prints_then; [apply label_prints|apply writes_prints, writes_ln]|].
  rewrite ink_app, app_nil_r, <- !app_assoc. reflexivity.
Qed.

(** ** Decimal numbers *)

Lemma dec_fuel_spec fuel : forall n acc, n < 10 ^ N.of_nat fuel -> (0 < fuel)%nat ->
  exists ds, dec_fuel fuel n acc = ds ++ acc /\ Forall is_dec_digit ds /\ dec_value ds = n
             /\ (n < 10 /\ List.length ds = 1%nat \/ 10 <= n /\ (1 < List.length ds)%nat
                 /\ 10 ^ (N.of_nat (List.length ds) - 1) <= n /\ n < 10 ^ N.of_nat (List.length ds)).
Proof.
  induction fuel as [|f IH]; intros n acc Hn Hf; [lia|].
  cbn [dec_fuel]. destruct (N.ltb_spec n 10) as [H|H].
  - exists [48 + n mod 10]. rewrite N.mod_small by assumption. split; [reflexivity|]. split.
    { constructor; [unfold is_dec_digit; lia|constructor]. }
    cbn [dec_value List.length]. change (10 ^ N.of_nat 0) with 1. split; [lia|]. left. split; [assumption|reflexivity].
  - rewrite Nat2N.inj_succ, N.pow_succ_r' in Hn.
    assert (Hf' : (0 < f)%nat). { destruct f; [|lia]. cbn in Hn. lia. }
    assert (Hd : n / 10 < 10 ^ N.of_nat f) by lia.
    destruct (IH (n / 10) ((48 + n mod 10) :: acc) Hd Hf') as (ds & E & F & V & L).
    exists (ds ++ [48 + n mod 10]). rewrite E, <- app_assoc. split; [reflexivity|]. split.
    { apply Forall_app. split; [assumption|]. constructor; [unfold is_dec_digit; lia|constructor]. }
    assert (Va : forall a d, dec_value (a ++ [d]) = 10 * dec_value a + (d - 48)).
    { clear. induction a as [|x a IH]; intros d; [cbn [app dec_value List.length]; change (10 ^ N.of_nat 0) with 1; lia|]. cbn [app dec_value]. rewrite IH, app_length. cbn [List.length].
      rewrite Nat2N.inj_add. change (N.of_nat 1) with 1. rewrite N.pow_add_r. change (10 ^ 1) with 10. lia. }
    rewrite Va, V. split; [lia|]. right. rewrite app_length. cbn [List.length]. split; [assumption|].
    destruct L as [[L1 L2]|(L1 & L2 & L3 & L4)].
    + rewrite L2. cbn. lia.
    + split; [lia|]. rewrite Nat2N.inj_add. change (N.of_nat 1) with 1. replace (N.of_nat (List.length ds) + 1 - 1) with (N.succ (N.of_nat (List.length ds) - 1)) by lia.
      rewrite N.add_1_r, !N.pow_succ_r'. lia.
Qed.
Lemma size_pow n : n < 10 ^ N.of_nat (S (N.to_nat (N.size n))).
Proof.
  assert (n < 2 ^ N.size n) by (apply N.size_gt). eapply N.lt_le_trans; [exact H|].
  rewrite Nat2N.inj_succ, N2Nat.id. etransitivity; [|apply N.pow_le_mono_r; [discriminate|apply N.le_succ_diag_r]].
  apply N.pow_le_mono_l. discriminate.
Qed.
Lemma dec_spec n : Forall is_dec_digit (dec n) /\ dec_value (dec n) = n
   /\ (n < 10 /\ List.length (dec n) = 1%nat \/ 10 <= n /\ (1 < List.length (dec n))%nat
       /\ 10 ^ (N.of_nat (List.length (dec n)) - 1) <= n /\ n < 10 ^ N.of_nat (List.length (dec n))).
Proof.
  unfold dec. destruct (dec_fuel_spec (S (N.to_nat (N.size n))) n [] (size_pow n)) as (ds & E & F & V & L); [lia|].
  rewrite app_nil_r in E. now rewrite E.
Qed.
Lemma dec_inj a b : dec a = dec b -> a = b.
Proof. intros H. destruct (dec_spec a) as (_ & <- & _). destruct (dec_spec b) as (_ & <- & _). now rewrite H. Qed.
Lemma pow_between a b n : 10 ^ (a - 1) <= n -> n < 10 ^ b -> 0 < a -> a <= b.
Proof.
  intros H1 H2 Ha. destruct (N.le_gt_cases a b) as [|L]; [assumption|].
  assert (b <= a - 1) by lia. pose proof (N.pow_le_mono_r 10 b (a - 1) ltac:(discriminate) H). lia.
Qed.
Lemma dec_length n : n < 2 ^ 32 -> len (dec n) = num_dec_digits n.
Proof.
  intros H. unfold len. destruct (dec_spec n) as (_ & _ & L). pose proof (num_dec_digits_spec n H) as D. cbn zeta in D.
  destruct L as [[L1 L2]|(L1 & L2 & L3 & L4)]; destruct D as [[D1 D2]|(D1 & D2 & D3 & D4)]; try lia.
  apply N.le_antisymm; [apply (pow_between _ _ n); [assumption|assumption|lia]|apply (pow_between _ _ n); [assumption|assumption|lia]].
Qed.
Lemma digits_visible l : Forall is_dec_digit l -> visible l.
Proof. apply Forall_impl. unfold is_dec_digit. lia. Qed.
Lemma dec_visible n : visible (dec n).
Proof. apply digits_visible, dec_spec. Qed.

(** ** Hex *)

Lemma hex_char_upper v : v < 16 -> hex_char v = hex_digit_upper v.
Proof.
  intros H. unfold hex_char, hex_digit_upper.
  assert (C : v = 0 \/ v = 1 \/ v = 2 \/ v = 3 \/ v = 4 \/ v = 5 \/ v = 6 \/ v = 7 \/ v = 8 \/ v = 9 \/ v = 10 \/ v = 11 \/ v = 12 \/ v = 13 \/ v = 14 \/ v = 15) by lia.
  repeat (destruct C as [->|C]; [reflexivity|]). now subst.
Qed.
Lemma hex2_text b : is_byte b -> hex2 b = byte_text b.
Proof. intros H. unfold is_byte in H. unfold hex2, byte_text. rewrite !hex_char_upper; [reflexivity|lia|lia]. Qed.
Lemma flat_hex2 l : bytes_ok l -> flat_map hex2 l = flat_map byte_text l.
Proof. induction 1 as [|b l Hb _ IH]; [reflexivity|]. cbn [flat_map]. now rewrite IH, hex2_text. Qed.
Lemma hex_line_spaced l : bytes_ok l -> hex_line l = spaced (map byte_text l).
Proof.
  induction 1 as [|b l Hb Hl IH]; [reflexivity|]. cbn [hex_line map]. rewrite (hex2_text b Hb). destruct l as [|c l]; [cbn; reflexivity|].
  rewrite IH. reflexivity.
Qed.
