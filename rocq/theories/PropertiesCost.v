(** How much work reading an input takes. *)

From Coq Require Import ZArith NArith List String Ascii Bool Lia ZifyN ZifyBool ZifyNat.
From Verif Require Import Base ModelUtil ModelEnums ModelTlv ModelCost SpecUtil SpecTlv SpecIngenico SpecCost
  ProofsUtil ProofsGrammar ProofsBer ProofsIngenico PropertiesBer ProofsCost.
Import ListNotations.
Local Open Scope N_scope.

(** ** C84: reading takes at most quadratic work *)

(* Counting changes nothing: the first components are the parsers of ModelTlv. *)
Theorem C84_same : forall p masks,
  (forall bytes, fst (ber_parse_run p masks bytes) = ber_parse p masks bytes)
  /\ (forall s, fst (ingenico_parse_run p masks s) = ingenico_parse p masks s).
Proof.
  intros p masks. split; [apply ber_parse_run_fst|]. intros s. unfold ingenico_parse_run, ingenico_parse. destruct (negb (is_ascii s)); [reflexivity|]. apply ingenico_run_fst.
Qed.

(* Whatever the bytes are, correct or not: at most n^2/4 + n bytes are passed over, in calls
   at most n/2 + 1 deep. *)
Theorem C84_ber : forall p masks bytes, input64 p bytes ->
  let '(work, depth) := snd (ber_parse_run p masks bytes) in
  4 * work <= len bytes * len bytes + 4 * len bytes /\ 2 * depth <= len bytes + 2.
Proof.
  intros p masks bytes (Hp & Hb & Hl). pose proof (ber_parse_run_bounds p masks bytes Hb (roomy_64 p _ Hp Hl)) as B. cbv zeta in B.
  destruct (snd (ber_parse_run p masks bytes)) as [work depth]. exact B.
Qed.
Theorem C84_ingenico : forall p masks s, text64 p s ->
  let '(work, depth) := snd (ingenico_parse_run p masks s) in
  4 * work <= (1 + len s) * (1 + len s) + 4 * (1 + len s) /\ 2 * depth <= len s + 3.
Proof.
  intros p masks s (Hp & Hl). unfold ingenico_parse_run. destruct (is_ascii s) eqn:A; cbn [negb]; [|cbn [snd]; lia].
  pose proof (ingenico_run_bounds p masks (S (List.length s)) [] s [] (proj1 (is_ascii_iff s) A) (roomy_64 p _ Hp Hl)) as B. cbv zeta in B. cbn [app] in B. change (len (@nil N)) with 0 in B.
  destruct (snd (ingenico_run _ p masks s 0 [])) as [work depth]. destruct B as [B1 B2]. unfold work_bound, depth_bound in *. cbn [fst snd] in *. lia.
Qed.

(* Everything is passed over at least once, and the value of every constructed object that
   is not masked once more; an accepted input takes calls as deep as its tree. *)
Theorem C84_ber_least : forall p masks bytes ns, input64 p bytes -> ber_parse p masks bytes = Ok ns ->
  let '(work, depth) := snd (ber_parse_run p masks bytes) in
  len bytes + total (map reread ns) <= work /\ N.of_nat (forest_depth ns) <= depth.
Proof.
  intros p masks bytes ns (Hp & Hb & Hl) H. destruct (ber_parse_run_lower p masks bytes Hb (roomy_64 p _ Hp Hl)) as (_ & _ & L).
  rewrite ber_parse_run_fst in L. destruct (L ns H) as (new & E & B). cbn [app] in E. subst new. destruct (snd (ber_parse_run p masks bytes)) as [work depth]. exact B.
Qed.
Theorem C84_ingenico_least : forall p masks s ns, text64 p s -> ingenico_parse p masks s = Ok ns ->
  let '(work, depth) := snd (ingenico_parse_run p masks s) in
  len s + total (map reread ns) <= work /\ N.of_nat (forest_depth ns) <= depth.
Proof.
  intros p masks s ns (Hp & Hl) H. pose proof (proj2 (C84_same p masks) s) as Q. rewrite H in Q. unfold ingenico_parse_run in *. destruct (is_ascii s) eqn:A; cbn [negb] in *; [|discriminate].
  destruct (ingenico_run_lower p masks (S (List.length s)) [] s [] ltac:(lia) (proj1 (is_ascii_iff s) A) (roomy_64 p _ Hp Hl)) as (_ & _ & L). cbn [app] in L. change (len (@nil N)) with 0 in L.
  destruct (L ns Q) as (new & E & B). cbn [app] in E. subst new. destruct (snd (ingenico_run _ p masks s 0 [])) as [work depth]. exact B.
Qed.

(* Both bounds are of the right order: objects in one another. *)
Theorem C84_reached : forall d, 6 * d < 2 ^ 32 ->
  let bytes := std_forest (chain (N.to_nat d)) in
  input64 p64 bytes /\ len bytes <= 6 * d /\ ber_parse p64 [] bytes = Ok (map std_node (chain (N.to_nat d)))
  /\ d * (d + 1) <= fst (snd (ber_parse_run p64 [] bytes)) /\ d <= snd (snd (ber_parse_run p64 [] bytes)).
Proof.
  intros d Hd bytes. assert (Ok1 : forall x, In x (chain (N.to_nat d)) -> tlv_ok x) by (apply chain_ok; lia).
  pose proof (chain_size (N.to_nat d)) as Z. fold bytes in Z. rewrite N2Nat.id in Z.
  assert (I : input64 p64 bytes).
  { split; [reflexivity|]. split; [|lia]. unfold bytes, std_forest. clear -Ok1. induction (chain (N.to_nat d)) as [|x l IH]; [constructor|]. cbn [flat_map]. apply bytes_ok_app.
    split; [apply std_bytes, Ok1; now left|]. apply IH. intros y Hy. apply Ok1. now right. }
  assert (P : ber_parse p64 [] bytes = Ok (map std_node (chain (N.to_nat d)))) by (apply C12_standard_encoding; [reflexivity|assumption|apply I]).
  split; [assumption|]. split; [lia|]. split; [assumption|].
  pose proof (C84_ber_least p64 [] bytes _ I P) as L. pose proof (chain_reread (N.to_nat d)) as R. rewrite chain_depth in L. rewrite N2Nat.id in *.
  destruct (snd (ber_parse_run p64 [] bytes)) as [work depth]. cbn [fst snd]. lia.
Qed.
(* So the work is not at most k times the size, whatever k is (as long as there are inputs
   large enough to show it) … *)
Theorem C84_linear_work_refuted : forall k, k < 2 ^ 20 ->
  exists bytes, input64 p64 bytes /\ k * len bytes < fst (snd (ber_parse_run p64 [] bytes)).
Proof.
  intros k Hk. destruct (C84_reached (6 * k + 1) ltac:(lia)) as (I & L & _ & W & _). eexists. split; [exact I|].
  set (bytes := std_forest _) in *. clearbody bytes. set (work := fst _) in *. clearbody work. pose proof (N.mul_le_mono_l _ _ k L). lia.
Qed.
(* … and there is no limit to the depth of the calls but the size. *)
Theorem C84_limited_depth_refuted : forall k, k < 2 ^ 29 ->
  exists bytes, input64 p64 bytes /\ k <= snd (snd (ber_parse_run p64 [] bytes)).
Proof. intros k Hk. destruct (C84_reached k ltac:(lia)) as (I & _ & _ & _ & D). eexists. split; [exact I|exact D]. Qed.

Example C84_example : snd (ber_parse_run p64 [] sample) = (len sample + 8, 2)
  /\ std_forest (chain 3) = [0x6F; 4; 0x6F; 2; 0x6F; 0] /\ snd (ber_parse_run p64 [] (std_forest (chain 3))) = (12, 4)
  /\ (exists ns, ingenico_parse p64 [] (lit "T6F:04:h8402AABB,S9A:01:hAA") = Ok ns)
  /\ snd (ingenico_parse_run p64 [] (lit "T6F:04:h8402AABB,S9A:01:hAA")) = (32, 2).
Proof. vm_compute. repeat split; try reflexivity. eexists; reflexivity. Qed.
