(** The properties of different builds of the program. *)

From Coq Require Import NArith String List Bool PeanoNat Lia ZifyN ZifyBool ZifyNat.
From Verif Require Import Base ModelUtil ModelTlv ModelProcess ModelDisplay ModelCli ModelWords ModelEnv ModelTerminal ModelFiles SpecUtil SpecTlv SpecIngenico SpecCli SpecWords PropertiesBer
  ModelMain SpecMain ProofsMain PropertiesMain ProofsCli PropertiesCli ProofsWords PropertiesWords SpecBuilds ProofsBuilds.
Import ListNotations.
Local Open Scope N_scope.

(** C86: a build that does not crash does what every other build does. *)
Theorem C86_ber : forall p masks bytes, build p -> bytes_ok bytes -> fits32 bytes ->
  same_or_crash (ber_parse p masks bytes) (ber_parse release64 masks bytes).
Proof. exact ber_parse_same. Qed.
Theorem C86_ingenico : forall p masks s, build p -> doubling_safe p -> fits32 s ->
  same_or_crash (ingenico_parse p masks s) (ingenico_parse release64 masks s).
Proof. exact ingenico_parse_same. Qed.
Theorem C86_auto : forall p masks s, build p -> doubling_safe p -> fits32 s ->
  same_or_crash (auto_parse p masks s) (auto_parse release64 masks s).
Proof. exact auto_parse_same. Qed.
(* The program: for any two builds, unless one of them crashes. *)
Theorem C86_program : forall p p' e m, build p -> build p' -> arguments32 m ->
  doubling_safe p /\ doubling_safe p' \/ m_auto_tlv m = None /\ m_ingenico_tlv m = None ->
  o_panic (run_main p e m) = false -> o_panic (run_main p' e m) = false -> run_main p e m = run_main p' e m.
Proof.
  intros p p' e m B B' A Sf N N'.
  destruct (run_main_same p e m B A ltac:(tauto)) as [K|K]; [congruence|]. destruct (run_main_same p' e m B' A ltac:(tauto)) as [K'|K']; congruence.
Qed.
(* The same from the words typed, with variables and files: the same result and the same bytes on stdout. *)
Lemma written_values ws l : written ws l -> forall sp vs v, In (sp, vs) l -> In v vs -> exists w, In w ws /\ len v <= len w.
Proof.
  assert (L : forall a b : str, len a <= len (b ++ a)) by (intros a b; unfold len; rewrite app_length; lia).
  induction 1 as [| |sp n vs ws l S F Lm Cl W IH|n x v ws l S W IH|n x v ws l S Nv Ne Nq W IH|n x v ws l S Nv W IH]; intros sp' vs' v' I V; try contradiction.
  - destruct I as [I|I].
    + injection I as -> ->. exists v'. split; [right; apply in_or_app; now left|lia].
    + destruct (IH _ _ _ I V) as (w & J & K). exists w. split; [right; apply in_or_app; now right|assumption].
  - destruct I as [I|I].
    + injection I as <- <-. destruct V as [<-|[]]. eexists. split; [left; reflexivity|]. change (45 :: 45 :: lit x ++ 61 :: v) with ((45 :: 45 :: lit x) ++ [61] ++ v). rewrite app_assoc. apply L.
    + destruct (IH _ _ _ I V) as (w & J & K). exists w. split; [now right|assumption].
  - destruct I as [I|I].
    + injection I as <- <-. destruct V as [<-|[]]. eexists. split; [left; reflexivity|]. change (45 :: lit x ++ v) with ((45 :: lit x) ++ v). apply L.
    + destruct (IH _ _ _ I V) as (w & J & K). exists w. split; [now right|assumption].
  - destruct I as [I|I].
    + injection I as <- <-. destruct V as [<-|[]]. eexists. split; [left; reflexivity|]. change (45 :: lit x ++ 61 :: v) with ((45 :: lit x) ++ [61] ++ v). rewrite app_assoc. apply L.
    + destruct (IH _ _ _ I V) as (w & J & K). exists w. split; [now right|assumption].
Qed.
Theorem C86_run : forall p p' pl ws l, build p -> build p' -> doubling_safe p -> doubling_safe p' -> written ws l -> no_information l -> Forall fits32 ws ->
  exit_status (run_in p pl ws) <> 101 -> exit_status (run_in p' pl ws) <> 101 ->
  run_in p pl ws = run_in p' pl ws /\ outside_stdout p (world_of pl) ws = outside_stdout p' (world_of pl) ws.
Proof.
  intros p p' pl ws l B B' Sf Sf' W NI F N N'. unfold run_in, run_outside, run_words, outside_stdout in *. rewrite (parse_written ws l W) in *.
  destruct (parse_exact l NI) as [(_ & m & E & D)|[_ E]]; [|rewrite E; destruct l; split; reflexivity].
  rewrite E in *. cbn [exit_status] in N, N'.
  assert (A : arguments32 m).
  { intros op s G. apply (des_operations l m D) in G. destruct G as (sp & I & _). destruct (written_values ws l W sp [s] s I ltac:(now left)) as (w & J & K).
    rewrite Forall_forall in F. specialize (F w J). unfold fits32 in *. lia. }
  assert (Eq : run_main p (environment_of (world_of pl)) m = run_main p' (environment_of (world_of pl)) m).
  { apply C86_program; try assumption; [left; now split| |].
    - destruct (o_panic (run_main p (environment_of (world_of pl)) m)); [now contradiction N|reflexivity].
    - destruct (o_panic (run_main p' (environment_of (world_of pl)) m)); [now contradiction N'|reflexivity]. }
  rewrite Eq. split; reflexivity.
Qed.
(* A 32-bit build without overflow checks can read Ingenico data that no other build accepts. *)
Definition release32 : platform := {| usize_bits := 32; overflow_checks := false |}.
Definition debug32 : platform := {| usize_bits := 32; overflow_checks := true |}.
Theorem C86_ingenico_unchecked_refuted : exists s ns, build release32 /\ fits32 s /\ ingenico_parse release32 [] s = Ok ns /\ ns <> []
  /\ ingenico_parse release64 [] s = Err NonCompliant /\ ingenico_parse debug32 [] s = Panic.
Proof.
  exists (lit "T9C:80000001:h21"). eexists. split; [unfold build; cbn; lia|]. split; [reflexivity|]. split; [vm_compute; reflexivity|]. split; [discriminate|].
  split; vm_compute; reflexivity.
Qed.
(* What a 64-bit build shows can crash a 32-bit build, with and without overflow checks. *)
Theorem C86_crash_free_refuted : exists bytes ns, bytes_ok bytes /\ fits32 bytes /\ ber_parse release64 [] bytes = Ok ns
  /\ ber_parse release32 [] bytes = Panic /\ ber_parse debug32 [] bytes = Panic.
Proof.
  exists [0xE1; 0x07; 0x91; 0x84; 0xFF; 0xFF; 0xFF; 0xFF; 0x00]. eexists. split; [repeat constructor|]. split; [reflexivity|]. split; [vm_compute; reflexivity|].
  split; vm_compute; reflexivity.
Qed.
Example C86_example : build debug32 /\ doubling_safe debug32 /\ doubling_safe p64 /\ build p64
  /\ (let pl := mkPlace [] (fun _ => None) (Some (lit "/")) false ProfGlobal in
      let ws := [lit "--ber"; lit "9B 02 F8 00"] in
      Forall fits32 ws /\ exit_status (run_in debug32 pl ws) = 0 /\ exit_status (run_in p64 pl ws) = 0).
Proof.
  split; [unfold build; cbn; lia|]. split; [now left|]. split; [right; cbn; lia|]. split; [unfold build; cbn; lia|]. cbn zeta.
  split; [repeat constructor|]. split; vm_compute; reflexivity.
Qed.
