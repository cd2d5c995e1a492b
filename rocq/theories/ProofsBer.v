(** Proofs about the BER-TLV parser (src/emv/tlv_parsing/ber_tlv.rs).

    The index loops of the model are shown equal to a parser on list suffixes without
    platform arithmetic ([bp]); the grammar of SpecTlv is proved about [bp]. *)

From Coq Require Import ZArith NArith List String Ascii Bool Lia ZifyN ZifyBool ZifyNat.
From Verif Require Import Base ModelUtil ModelEnums ModelTlv SpecUtil SpecTlv ProofsUtil.
Import ListNotations.
Local Open Scope N_scope.

(** ** Platform arithmetic, lengths, slices *)

(* Enough room in usize for every sum the parsers form on an input of [n] bytes. *)
Definition roomy (p : platform) (n : N) : Prop := n + 2 ^ 33 + 16 <= usize_limit p.

Lemma roomy_64 p n : usize_bits p = 64 -> n < 2 ^ 63 -> roomy p n.
Proof. intros H Hn. unfold roomy, usize_limit. rewrite H. change (2 ^ 64) with (2 ^ 63 * 2). lia. Qed.

Lemma roomy_le p n m : roomy p n -> m <= n -> roomy p m.
Proof. unfold roomy. lia. Qed.

Lemma checked_ok p lim v : v < lim -> checked p lim v = Ok v.
Proof. intros H. unfold checked. now rewrite (proj2 (N.ltb_lt _ _) H). Qed.
Lemma uadd_ok p a b : a + b < usize_limit p -> uadd p a b = Ok (a + b).
Proof. apply checked_ok. Qed.
Lemma umul_ok p a b : a * b < usize_limit p -> umul p a b = Ok (a * b).
Proof. apply checked_ok. Qed.

Lemma len_nil {A} : len (@nil A) = 0.
Proof. reflexivity. Qed.
Lemma len_cons {A} (x : A) l : len (x :: l) = 1 + len l.
Proof. unfold len. cbn [List.length]. lia. Qed.
Lemma len_app {A} (a b : list A) : len (a ++ b) = len a + len b.
Proof. unfold len. rewrite app_length. lia. Qed.
Lemma len_zero {A} (l : list A) : len l = 0 -> l = [].
Proof. destruct l; [reflexivity|]. rewrite len_cons. lia. Qed.
Lemma len_repeat {A} (x : A) n : len (repeat x n) = N.of_nat n.
Proof. unfold len. now rewrite repeat_length. Qed.

Lemma index_app_len {A} (a : list A) x b : index (a ++ x :: b) (len a) = Ok x.
Proof. apply index_app. Qed.

Lemma slice_app {A} (a b c : list A) : slice (a ++ b ++ c) (len a) (len a + len b) = Ok b.
Proof.
  unfold slice. rewrite !len_app.
  rewrite (proj2 (N.leb_le _ _)) by lia. rewrite (proj2 (N.leb_le _ _)) by lia. cbn [andb].
  replace (len a + len b - len a) with (len b) by lia. unfold len. rewrite !Nat2N.id.
  rewrite skipn_app, skipn_all, Nat.sub_diag. cbn [skipn app].
  rewrite firstn_app, firstn_all, Nat.sub_diag. cbn [firstn]. now rewrite app_nil_r.
Qed.

Lemma firstn_len {A} n (l : list A) : n <= len l -> len (firstn (N.to_nat n) l) = n.
Proof. unfold len. intros H. rewrite firstn_length. lia. Qed.

(** ** Tag bytes *)

Lemma tag_metadata_spec b : b < 256 -> parse_tag_metadata b = Ok (class_of b, type_of b).
Proof.
  intros H.
  pose proof (check_all_bytes (fun b => match parse_tag_metadata b with
     | Ok (c, t) => (tag_class_to_u8 c =? tag_class_to_u8 (class_of b))
                    && match t, type_of b with Primitive, Primitive | Constructed, Constructed => true | _, _ => false end
     | _ => false end) eq_refl b H) as E.
  cbn beta in E. destruct (parse_tag_metadata b) as [[c t]| | |]; try discriminate.
  apply andb_prop in E. destruct E as [E1 E2]. f_equal. f_equal.
  - destruct c, (class_of b); try reflexivity; discriminate.
  - destruct t, (type_of b); try reflexivity; discriminate.
Qed.

Lemma top_bit b : b < 256 -> (0 <? N.land 0x80 b) = (128 <=? b).
Proof.
  intros H. apply eqb_prop.
  apply (check_all_bytes (fun b => Bool.eqb (0 <? N.land 0x80 b) (128 <=? b)) eq_refl b H).
Qed.
Lemma low_five b : b < 256 -> (N.land 0x1F b =? 0x1F) = (b mod 32 =? 31).
Proof.
  intros H. apply eqb_prop.
  apply (check_all_bytes (fun b => Bool.eqb (N.land 0x1F b =? 0x1F) (b mod 32 =? 31)) eq_refl b H).
Qed.
Lemma low_seven b : b < 256 -> 128 <= b -> N.land 0x7F b = b - 128.
Proof.
  intros H H1.
  pose proof (check_all_bytes (fun b => (b <? 128) || (N.land 0x7F b =? b - 128)) eq_refl b H) as E.
  cbn beta in E. apply orb_prop in E. destruct E as [E|E]; [apply N.ltb_lt in E; lia|now apply N.eqb_eq].
Qed.

(** ** One object, on a suffix *)

Fixpoint split_more (l : list N) : option (list N * list N) :=
  match l with
  | [] => None
  | b :: r => if 128 <=? b
              then match split_more r with Some (m, r') => Some (b :: m, r') | None => None end
              else Some ([b], r)
  end.

Definition split_tag (l : list N) : option (list N * list N) :=
  match l with
  | [] => None
  | b :: r => if b mod 32 =? 31
              then match split_more r with Some (m, r') => Some (b :: m, r') | None => None end
              else Some ([b], r)
  end.

Definition take_value (n : N) (r : list N) : res (list N * list N) :=
  if len r <? n then Err NonCompliant else Ok (firstn (N.to_nat n) r, skipn (N.to_nat n) r).

Definition split_length (r : list N) : res (N * list N) :=
  match r with
  | [] => Err NonCompliant
  | l0 :: r =>
      if 128 <=? l0
      then if 4 <? l0 - 128 then Err Unsupported
           else if len r <=? l0 - 128 then Err NonCompliant
           else Ok (be_value (firstn (N.to_nat (l0 - 128)) r), skipn (N.to_nat (l0 - 128)) r)
      else Ok (l0, r)
  end.

Definition next (bytes : list N) : res (list N * list N * list N) :=
  match split_tag bytes with
  | None => Err NonCompliant
  | Some (t, r) =>
      match split_length r with
      | Err e => Err e
      | Ok (n, r) => match take_value n r with
                     | Err e => Err e
                     | Ok (v, rest) => Ok (t, v, rest)
                     | Panic => Panic
                     | NoFuel => NoFuel
                     end
      | Panic => Panic
      | NoFuel => NoFuel
      end
  end.

Lemma split_more_app l m r : split_more l = Some (m, r) -> l = m ++ r /\ m <> [].
Proof.
  revert m r. induction l as [|b l IH]; intros m r; cbn [split_more]; [discriminate|].
  destruct (128 <=? b).
  - destruct (split_more l) as [[m' r']|]; [|discriminate]. intros H. inversion H; subst.
    destruct (IH m' r eq_refl) as [-> _]. split; [reflexivity|discriminate].
  - intros H. inversion H; subst. split; [reflexivity|discriminate].
Qed.

Lemma ber_tag_loop_spec p suf : forall fuel pre b,
  (List.length suf < fuel)%nat -> bytes_ok suf -> roomy p (len (pre ++ b :: suf)) ->
  ber_tag_loop fuel p (pre ++ b :: suf) true (len pre)
  = match split_more suf with
    | None => Err NonCompliant
    | Some (m, r) => Ok (len pre + len m)
    end.
Proof.
  unfold roomy. induction suf as [|c suf IH]; intros fuel pre b Hf Hb Hr;
    (destruct fuel as [|fuel]; [cbn in Hf; lia|]); cbn [ber_tag_loop];
    rewrite len_app, !len_cons in Hr;
    (rewrite uadd_ok by lia); cbn [bind]; rewrite len_app, !len_cons.
  - rewrite len_nil. rewrite (proj2 (N.leb_le _ _)) by lia. reflexivity.
  - rewrite (proj2 (N.leb_gt _ _)) by lia.
    apply bytes_ok_cons in Hb. destruct Hb as [Hc Hb].
    replace (len pre + 1) with (len (pre ++ [b])) by (rewrite len_app, len_cons, len_nil; lia).
    replace (pre ++ b :: c :: suf) with ((pre ++ [b]) ++ c :: suf) by (rewrite <- app_assoc; reflexivity).
    rewrite index_app_len. cbn [bind]. rewrite top_bit by assumption. cbn [split_more].
    destruct (128 <=? c).
    + rewrite IH; [|cbn in Hf; lia|assumption|rewrite !len_app, !len_cons, len_nil; lia].
      destruct (split_more suf) as [[m r]|]; [|reflexivity].
      rewrite len_app, !len_cons, len_nil. f_equal. lia.
    + destruct fuel; cbn [ber_tag_loop]; rewrite len_app, !len_cons, len_nil; f_equal; lia.
Qed.

(* The tag of the object at [pre]. *)
Lemma ber_tag_spec p pre b suf fuel :
  (List.length suf < fuel)%nat -> bytes_ok (b :: suf) -> roomy p (len (pre ++ b :: suf)) ->
  ber_tag_loop fuel p (pre ++ b :: suf) (N.land 0x1F b =? 0x1F) (len pre)
  = match split_tag (b :: suf) with
    | None => Err NonCompliant
    | Some (t, r) => Ok (len pre + len t - 1)
    end.
Proof.
  intros Hf Hb Hr. apply bytes_ok_cons in Hb. destruct Hb as [Hb Hs].
  rewrite low_five by assumption. cbn [split_tag]. destruct (b mod 32 =? 31).
  - rewrite ber_tag_loop_spec by assumption.
    destruct (split_more suf) as [[m r]|]; [|reflexivity]. rewrite len_cons. f_equal. lia.
  - destruct fuel; [lia|]. cbn [ber_tag_loop]. rewrite len_cons, len_nil. f_equal. lia.
Qed.

Lemma split_tag_app l t r : split_tag l = Some (t, r) -> l = t ++ r /\ t <> [] /\ first_byte t = first_byte l.
Proof.
  destruct l as [|b l]; cbn [split_tag]; [discriminate|]. destruct (b mod 32 =? 31).
  - destruct (split_more l) as [[m r']|] eqn:E; [|discriminate]. intros H. inversion H; subst.
    apply split_more_app in E. destruct E as [-> _]. repeat split. discriminate.
  - intros H. inversion H; subst. repeat split. discriminate.
Qed.

Lemma ber_length_spec p pre suf :
  bytes_ok suf -> suf <> [] -> roomy p (len (pre ++ suf)) ->
  ber_length p (pre ++ suf) (len pre)
  = match split_length suf with
    | Ok (n, r) => Ok (n, len pre + (len suf - len r))
    | Err e => Err e | Panic => Panic | NoFuel => NoFuel
    end.
Proof.
  unfold roomy. intros Hb Hne Hr. destruct suf as [|l0 suf]; [congruence|]. clear Hne.
  apply bytes_ok_cons in Hb. destruct Hb as [Hl0 Hb].
  unfold ber_length. rewrite index_app_len. cbn [bind]. rewrite top_bit by assumption.
  rewrite len_app, len_cons in Hr. cbn [split_length].
  destruct (N.leb_spec 128 l0) as [H|H].
  - rewrite low_seven by assumption. destruct (N.ltb_spec 4 (l0 - 128)) as [H4|H4]; [reflexivity|].
    set (k := l0 - 128) in *.
    rewrite (uadd_ok p 1 k) by lia. cbn [bind]. rewrite (uadd_ok p (len pre)) by lia. cbn [bind].
    rewrite len_app, len_cons.
    replace (len pre + (1 + len suf) <=? len pre + (1 + k)) with (len suf <=? k)
      by (destruct (N.leb_spec (len suf) k), (N.leb_spec (len pre + (1 + len suf)) (len pre + (1 + k))); lia).
    destruct (N.leb_spec (len suf) k) as [Hk|Hk]; [reflexivity|].
    rewrite !uadd_ok by lia. cbn [bind]. unfold slice_incl.
    assert (Es : slice (pre ++ l0 :: suf) (len pre + 1) (len pre + k + 1) = Ok (firstn (N.to_nat k) suf)).
    { replace (pre ++ l0 :: suf) with ((pre ++ [l0]) ++ firstn (N.to_nat k) suf ++ skipn (N.to_nat k) suf)
        by (rewrite firstn_skipn, <- app_assoc; reflexivity).
      replace (len pre + 1) with (len (pre ++ [l0])) by (rewrite len_app, len_cons, len_nil; lia).
      replace (len pre + k + 1) with (len (pre ++ [l0]) + len (firstn (N.to_nat k) suf))
        by (rewrite firstn_len by lia; rewrite len_app, len_cons, len_nil; lia).
      apply slice_app. }
    rewrite Es. cbn [bind]. unfold byte_slice_to_u32. rewrite byte_slice_to_uint_ok
      by (rewrite firstn_length; lia).
    cbn [bind]. rewrite N.mod_small.
    + f_equal. f_equal. unfold len in *. rewrite skipn_length. lia.
    + assert (Hf : bytes_ok (firstn (N.to_nat k) suf)).
      { rewrite <- (firstn_skipn (N.to_nat k) suf) in Hb. now apply bytes_ok_app in Hb. }
      apply be_value_lt in Hf. eapply N.lt_le_trans; [exact Hf|].
      transitivity (256 ^ 4); [apply N.pow_le_mono_r; [lia|rewrite firstn_length; lia]|].
      change (256 ^ 4) with (2 ^ 32). lia.
  - rewrite uadd_ok by lia. cbn [bind]. f_equal. f_equal. rewrite len_cons. lia.
Qed.

Lemma split_length_app l n r : bytes_ok l -> split_length l = Ok (n, r) -> exists f, l = f ++ r /\ f <> [] /\ n < 2 ^ 32.
Proof.
  intros Hb. destruct l as [|l0 l]; cbn [split_length]; [discriminate|].
  apply bytes_ok_cons in Hb. destruct Hb as [H0 Hb].
  destruct (N.leb_spec 128 l0) as [H|H].
  - destruct (N.ltb_spec 4 (l0 - 128)); [discriminate|]. destruct (N.leb_spec (len l) (l0 - 128)); [discriminate|].
    intros E. inversion E; subst. exists (l0 :: firstn (N.to_nat (l0 - 128)) l).
    repeat split; [cbn [app]; now rewrite firstn_skipn|discriminate|].
    assert (Hf : bytes_ok (firstn (N.to_nat (l0 - 128)) l)).
    { rewrite <- (firstn_skipn (N.to_nat (l0 - 128)) l) in Hb. now apply bytes_ok_app in Hb. }
    apply be_value_lt in Hf. eapply N.lt_le_trans; [exact Hf|].
    transitivity (256 ^ 4); [apply N.pow_le_mono_r; [lia|rewrite firstn_length; lia]|].
    change (256 ^ 4) with (2 ^ 32). lia.
  - intros E. inversion E; subst. exists [n]. repeat split; [discriminate|lia].
Qed.

Lemma take_value_app n r v rest : take_value n r = Ok (v, rest) -> r = v ++ rest /\ len v = n.
Proof.
  unfold take_value. destruct (N.ltb_spec (len r) n); [discriminate|]. intros H'. inversion H'; subst.
  split; [symmetry; apply firstn_skipn|now apply firstn_len].
Qed.

Definition ber_node masks (parse : list N -> res (list raw_node)) (t v : list N) : res raw_node :=
  let d := from_u8_check_for_masked v masks in
  c <- get_child_block parse (type_of (first_byte t)) d;;
  Ok (RawNode (mkRawTag t (class_of (first_byte t)) (type_of (first_byte t)) d) c).

Lemma ber_loop_step f p masks pre suf nodes :
  suf <> [] -> bytes_ok suf -> roomy p (len (pre ++ suf)) ->
  ber_loop (S f) p masks (pre ++ suf) (len pre) nodes
  = match next suf with
    | Ok (t, v, rest) =>
        n <- ber_node masks (fun d => ber_loop f p masks d 0 []) t v;;
        ber_loop f p masks (pre ++ suf) (len pre + (len suf - len rest)) (nodes ++ [n])
    | Err e => Err e | Panic => Panic | NoFuel => NoFuel
    end.
Proof.
  intros Hne Hb Hr. cbn [ber_loop].
  rewrite (proj2 (N.ltb_lt _ _)) by (rewrite len_app; destruct suf; [congruence|rewrite len_cons; lia]).
  destruct suf as [|b suf]; [congruence|]. clear Hne.
  rewrite index_app_len. cbn [bind].
  assert (Hb0 : b < 256) by (apply bytes_ok_cons in Hb; tauto).
  rewrite tag_metadata_spec by assumption. cbn [bind fst snd].
  rewrite ber_tag_spec by (try assumption; rewrite app_length; cbn [List.length]; lia).
  unfold next. destruct (split_tag (b :: suf)) as [[t r]|] eqn:Et; [|reflexivity]. cbn [bind].
  apply split_tag_app in Et. destruct Et as (Et & Hnt & Hfb). cbn [first_byte] in Hfb.
  unfold roomy in Hr.
  assert (Hlt : 1 <= len t) by (destruct t; [congruence|rewrite len_cons; lia]).
  rewrite Et in *. clear Et suf. rewrite len_app in Hr. rewrite len_app in Hr.
  rewrite uadd_ok by lia. cbn [bind].
  replace (len pre + len t - 1 + 1) with (len (pre ++ t)) by (rewrite len_app; lia).
  rewrite (app_assoc pre t r).
  destruct r as [|l0 r0].
  { rewrite app_nil_r. cbn [split_length]. rewrite (proj2 (N.leb_le _ _)) by lia. reflexivity. }
  rewrite (proj2 (N.leb_gt _ _)) by (rewrite (len_app _ (l0 :: r0)), (len_cons l0); lia).
  set (r := l0 :: r0) in *.
  apply bytes_ok_app in Hb. destruct Hb as [Hbt Hbr].
  rewrite ber_length_spec; [|assumption|subst r; discriminate|unfold roomy; rewrite !len_app; lia].
  destruct (split_length r) as [[n r']| | |] eqn:El; try reflexivity. cbn [bind].
  apply split_length_app in El; [|assumption]. destruct El as (lf & El & Hlf & Hn).
  rewrite El in *. clear El l0 r0 r. rewrite len_app in Hr. rewrite (len_app lf r').
  replace (len (pre ++ t) + (len lf + len r' - len r')) with (len ((pre ++ t) ++ lf)) by (rewrite (len_app _ lf); lia).
  rewrite uadd_ok by (rewrite !len_app; lia). cbn [bind].
  rewrite uadd_ok by (rewrite !len_app; lia). cbn [bind].
  rewrite (app_assoc (pre ++ t) lf r').
  replace (len (((pre ++ t) ++ lf) ++ r') + 1 <=? len ((pre ++ t) ++ lf) + n) with (len r' <? n)
    by (rewrite (len_app _ r'); destruct (N.ltb_spec (len r') n), (N.leb_spec (len ((pre ++ t) ++ lf) + len r' + 1) (len ((pre ++ t) ++ lf) + n)); lia).
  destruct (take_value n r') as [[v rest]| | |] eqn:Ev; unfold take_value in Ev.
  2:{ destruct (len r' <? n); congruence. }
  2:{ destruct (len r' <? n); congruence. }
  2:{ destruct (len r' <? n); congruence. }
  destruct (len r' <? n) eqn:Hc; [discriminate|].
  assert (Ev' : take_value n r' = Ok (v, rest)) by (unfold take_value; now rewrite Hc).
  apply take_value_app in Ev'. destruct Ev' as [Ev' Hv]. rewrite Ev' in *. clear Ev Hc Ev' r'.
  subst n. rewrite slice_app. cbn [bind]. unfold ber_node. rewrite Hfb.
  destruct (get_child_block _ (type_of b) _); try reflexivity. cbn [bind].
  unfold slice_incl.
  replace (((pre ++ t) ++ lf) ++ v ++ rest) with (pre ++ t ++ (lf ++ v ++ rest)) by (rewrite <- !app_assoc; reflexivity).
  replace (len pre + len t - 1 + 1) with (len pre + len t) by lia.
  rewrite slice_app. cbn [bind].
  f_equal. rewrite !len_app. lia.
Qed.

(** ** The parser on suffixes *)

Fixpoint bp (fuel : nat) (masks suf : list N) : res (list raw_node) :=
  match fuel with
  | O => NoFuel
  | S f =>
      match suf with
      | [] => Ok []
      | _ => match next suf with
             | Ok (t, v, rest) => n <- ber_node masks (bp f masks) t v;;
                                  ns <- bp f masks rest;;
                                  Ok (n :: ns)
             | Err e => Err e | Panic => Panic | NoFuel => NoFuel
             end
      end
  end.

Lemma next_app suf t v rest : bytes_ok suf -> next suf = Ok (t, v, rest) ->
  exists l, suf = t ++ l ++ v ++ rest /\ t <> [] /\ l <> [].
Proof.
  intros Hb. unfold next. destruct (split_tag suf) as [[t' r]|] eqn:Et; [|discriminate].
  apply split_tag_app in Et. destruct Et as (-> & Ht & _).
  apply bytes_ok_app in Hb. destruct Hb as [_ Hb].
  destruct (split_length r) as [[n r']| | |] eqn:El; try discriminate.
  apply split_length_app in El; [|assumption]. destruct El as (lf & -> & Hlf & _).
  destruct (take_value n r') as [[v' rest']| | |] eqn:Ev; try discriminate.
  apply take_value_app in Ev. destruct Ev as [-> _].
  intros H. inversion H; subst. eauto.
Qed.

Lemma ber_node_ext masks f g t v : f v = g v -> ber_node masks f t v = ber_node masks g t v.
Proof.
  intros H. unfold ber_node, from_u8_check_for_masked, get_child_block.
  destruct (is_masked_u8 v masks), (type_of (first_byte t)); try reflexivity. now rewrite H.
Qed.

Lemma ber_loop_bp p masks : forall fuel pre suf nodes,
  bytes_ok suf -> roomy p (len (pre ++ suf)) ->
  ber_loop fuel p masks (pre ++ suf) (len pre) nodes = rmap (fun ns => nodes ++ ns) (bp fuel masks suf).
Proof.
  induction fuel as [|f IH]; intros pre suf nodes Hb Hr; [reflexivity|].
  destruct suf as [|b suf].
  - cbn [ber_loop bp]. rewrite (app_nil_r pre), N.ltb_irrefl. cbn. now rewrite app_nil_r.
  - rewrite ber_loop_step by (try assumption; discriminate). cbn [bp].
    destruct (next (b :: suf)) as [[[t v] rest]| | |] eqn:En; try reflexivity.
    apply next_app in En; [|assumption]. destruct En as (l & E & Ht & Hl).
    rewrite E in *. clear E b suf.
    apply bytes_ok_app in Hb. destruct Hb as [Hbt Hb]. apply bytes_ok_app in Hb. destruct Hb as [Hbl Hb].
    apply bytes_ok_app in Hb. destruct Hb as [Hbv Hb].
    rewrite (ber_node_ext masks _ (bp f masks)).
    2:{ change (ber_loop f p masks ([] ++ v) (len (@nil N)) [] = bp f masks v).
        rewrite IH; [destruct (bp f masks v); reflexivity|assumption|].
        eapply roomy_le; [exact Hr|]. rewrite !len_app, len_nil. lia. }
    destruct (ber_node masks (bp f masks) t v) as [n| | |]; try reflexivity. cbn [bind].
    replace (pre ++ t ++ l ++ v ++ rest) with ((pre ++ t ++ l ++ v) ++ rest) in * by (rewrite <- !app_assoc; reflexivity).
    replace (len pre + (len (t ++ l ++ v ++ rest) - len rest)) with (len (pre ++ t ++ l ++ v))
      by (rewrite !len_app; lia).
    rewrite IH by assumption. destruct (bp f masks rest); try reflexivity. cbn. now rewrite <- app_assoc.
Qed.

Definition parse_bytes (masks bytes : list N) : res (list raw_node) := bp (S (List.length bytes)) masks bytes.

Lemma ber_parse_eq p masks bytes : bytes_ok bytes -> roomy p (len bytes) ->
  ber_parse p masks bytes = parse_bytes masks bytes.
Proof.
  intros Hb Hr. unfold ber_parse, parse_bytes.
  change (ber_loop (S (List.length bytes)) p masks ([] ++ bytes) (len (@nil N)) [] = bp (S (List.length bytes)) masks bytes).
  rewrite ber_loop_bp by assumption. destruct (bp _ _ _); reflexivity.
Qed.

Lemma take_value_total n r : (exists x, take_value n r = Ok x) \/ take_value n r = Err NonCompliant.
Proof. unfold take_value. destruct (len r <? n); eauto. Qed.
Lemma split_length_total r : (exists x, split_length r = Ok x) \/ (exists e, split_length r = Err e).
Proof.
  destruct r; cbn; [eauto|]. destruct (128 <=? n); eauto.
  destruct (4 <? n - 128); eauto. destruct (len r <=? n - 128); eauto.
Qed.
Lemma next_total bytes : (exists x, next bytes = Ok x) \/ (exists e, next bytes = Err e).
Proof.
  unfold next. destruct (split_tag bytes) as [[t r]|]; [|eauto].
  destruct (split_length_total r) as [[[n r'] ->]|[e ->]]; [|eauto].
  destruct (take_value_total n r') as [[[v rest] ->]| ->]; eauto.
Qed.

Definition settled {A} (r : res A) : Prop := match r with Ok _ | Err _ => True | _ => False end.

Lemma bp_fuel masks : forall fuel suf, bytes_ok suf -> (List.length suf < fuel)%nat ->
  settled (bp fuel masks suf) /\ forall fuel', (List.length suf < fuel')%nat -> bp fuel' masks suf = bp fuel masks suf.
Proof.
  induction fuel as [|f IH]; intros suf Hb Hf; [lia|].
  destruct suf as [|b suf]. { split; [exact I|]. intros [|f'] H; [lia|reflexivity]. }
  cbn [bp]. destruct (next_total (b :: suf)) as [[[[t v] rest] En]|[e En]]; rewrite En.
  2:{ split; [exact I|]. intros [|f'] H; [lia|]. cbn [bp]. now rewrite En. }
  pose proof (next_app _ _ _ _ Hb En) as (l & E & Ht & Hl).
  assert (Hlen : (List.length v + List.length rest + 2 <= List.length (b :: suf))%nat).
  { rewrite E, !app_length. destruct t, l; try congruence. cbn [List.length]. lia. }
  assert (Hbb : bytes_ok v /\ bytes_ok rest).
  { rewrite E in Hb. apply bytes_ok_app in Hb. destruct Hb as [_ Hb]. apply bytes_ok_app in Hb.
    destruct Hb as [_ Hb]. now apply bytes_ok_app in Hb. }
  destruct Hbb as [Hbv Hbr].
  destruct (IH v Hbv ltac:(lia)) as [Sv Iv]. destruct (IH rest Hbr ltac:(lia)) as [Sr Ir].
  split.
  - unfold ber_node, from_u8_check_for_masked, get_child_block.
    destruct (is_masked_u8 v masks), (type_of (first_byte t)); cbn [bind];
      try (destruct (bp f masks rest); cbn in *; tauto).
    destruct (bp f masks v); cbn in Sv |- *; try tauto; destruct (bp f masks rest); cbn in *; tauto.
  - intros [|f'] H; [lia|]. cbn [bp]. rewrite En.
    rewrite (ber_node_ext masks (bp f' masks) (bp f masks)) by (apply Iv; cbn [List.length] in *; lia).
    rewrite (Ir f') by (cbn [List.length] in *; lia). reflexivity.
Qed.

Lemma parse_bytes_settled masks bytes : bytes_ok bytes -> settled (parse_bytes masks bytes).
Proof. intros H. apply bp_fuel; [assumption|lia]. Qed.

Lemma parse_bytes_nil masks : parse_bytes masks [] = Ok [].
Proof. reflexivity. Qed.

Lemma parse_bytes_eq masks bytes : bytes_ok bytes -> bytes <> [] ->
  parse_bytes masks bytes
  = match next bytes with
    | Ok (t, v, rest) => n <- ber_node masks (parse_bytes masks) t v;;
                         ns <- parse_bytes masks rest;; Ok (n :: ns)
    | Err e => Err e | Panic => Panic | NoFuel => NoFuel
    end.
Proof.
  intros Hb Hne. destruct bytes as [|b suf]; [congruence|]. unfold parse_bytes at 1. cbn [bp].
  destruct (next (b :: suf)) as [[[t v] rest]| | |] eqn:En; try reflexivity.
  pose proof (next_app _ _ _ _ Hb En) as (l & E & Ht & Hl).
  assert (Hlen : (List.length v + List.length rest + 2 <= List.length (b :: suf))%nat).
  { rewrite E, !app_length. destruct t, l; try congruence. cbn [List.length]. lia. }
  assert (Hbb : bytes_ok v /\ bytes_ok rest).
  { rewrite E in Hb. apply bytes_ok_app in Hb. destruct Hb as [_ Hb]. apply bytes_ok_app in Hb.
    destruct Hb as [_ Hb]. now apply bytes_ok_app in Hb. }
  destruct Hbb as [Hbv Hbr].
  rewrite (ber_node_ext masks _ (parse_bytes masks)).
  2:{ unfold parse_bytes. apply bp_fuel; [assumption|lia|lia]. }
  unfold parse_bytes at 2 3. cbn [bp] in *.
  destruct (ber_node masks _ t v); try reflexivity. cbn [bind].
  now rewrite (proj2 (bp_fuel masks (S (List.length rest)) rest Hbr ltac:(lia)) (List.length (b :: suf)) ltac:(lia)).
Qed.
