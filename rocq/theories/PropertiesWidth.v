(** The properties of builds with 32-bit pointers on data without huge announced lengths. *)

From Coq Require Import NArith String List Bool PeanoNat Lia ZifyN ZifyBool ZifyNat.
From Verif Require Import Base ModelUtil ModelTlv ModelProcess ModelDisplay ModelCli ModelWords ModelEnv ModelTerminal ModelFiles SpecUtil SpecTlv SpecIngenico SpecDisplay SpecCli SpecWords ProofsUtil PropertiesBer
  ModelMain SpecMain ProofsMain PropertiesMain ProofsCli PropertiesCli ProofsWords PropertiesWords SpecPictures PropertiesPictures SpecBuilds ProofsBuilds PropertiesBuilds SpecWidth ProofsWidth.
Import ListNotations.
Local Open Scope N_scope.

(** C97: a 32-bit build reads ordinary data as a 64-bit build does. *)
Theorem C97_ber : forall p p' masks bytes, build p -> build p' -> bytes_ok bytes -> fits32 bytes -> small_lengths bytes ->
  ber_parse p masks bytes = ber_parse p' masks bytes.
Proof. intros p p' masks bytes B B' O F Sm. now rewrite (ber_parse_small p), (ber_parse_small p'). Qed.
Theorem C97_ingenico : forall p p' masks s, build p -> build p' -> fits32 s -> small_ber s -> small_ingenico s ->
  ingenico_parse p masks s = ingenico_parse p' masks s.
Proof. intros p p' masks s B B' F Sb Si. now rewrite (ingenico_parse_small p), (ingenico_parse_small p'). Qed.
Theorem C97_auto : forall p p' masks s, build p -> build p' -> fits32 s -> small_ber s -> small_ingenico s ->
  auto_parse p masks s = auto_parse p' masks s.
Proof. intros p p' masks s B B' F Sb Si. now rewrite (auto_parse_small p), (auto_parse_small p'). Qed.
(* The program: only the overflow checks make a difference between builds. *)
Definition small_arguments (m : matches) : Prop := forall op s, given m op = Some s -> fits32 s /\ small op s.
Theorem C97_program : forall p p' e m, build p -> build p' -> overflow_checks p = overflow_checks p' -> small_arguments m -> run_main p e m = run_main p' e m.
Proof. intros p p' e m B B' C S. apply run_main_small; try assumption; intros op s G; now apply (S op s G). Qed.
Lemma widened_same p e m : build p -> small_arguments m -> run_main p e m = run_main (widened p) e m.
Proof. intros B S. apply C97_program; try assumption; [unfold build, widened; cbn; lia|reflexivity]. Qed.
Lemma widened_text p s : fits32 s -> text64 (widened p) s.
Proof. unfold fits32. intros F. split; [reflexivity|]. change (2 ^ 31) with 2147483648 in F. change (2 ^ 62) with 4611686018427387904. lia. Qed.
(* So the sheet describes what any build shows, the refusal what it complains about, and deep nesting is all that can crash it. *)
Theorem C97_shown : forall p e m st op s ls, build p -> small_arguments m -> load_settings e m = Ok st -> chosen m op s ->
  sheet (set_masking st) (set_sort st) op s ls -> fits p (deepest ls) -> displays (run_main p e m) ls.
Proof.
  intros p e m st op s ls B S L C H F. rewrite (widened_same p e m B S). apply (C73_shown (widened p) e m st op s ls L C); try assumption. now apply widened_text, (S op s (proj1 C)).
Qed.
Theorem C97_refused : forall p e m st op s er, build p -> small_arguments m -> load_settings e m = Ok st -> chosen m op s ->
  refused (set_masking st) op s er -> complains (run_main p e m) er.
Proof.
  intros p e m st op s er B S L C H. rewrite (widened_same p e m B S). apply (C61_refused (widened p) e m st op s er L C); try assumption. now apply widened_text, (S op s (proj1 C)).
Qed.
Theorem C97_settled : forall masks sort op s, fits32 s ->
  (exists ls, sheet masks sort op s ls /\ (forall ls', sheet masks sort op s ls' -> ls' = ls) /\ forall e, ~ refused masks op s e)
  \/ (exists e, refused masks op s e /\ (forall e', refused masks op s e' -> e' = e) /\ forall ls, ~ sheet masks sort op s ls).
Proof. intros masks sort op s F. apply (C73_total p64). now apply (widened_text p64). Qed.
Theorem C97_crash : forall p e m st, build p -> small_arguments m -> load_settings e m = Ok st ->
  (o_panic (run_main p e m) = true <-> exists op s ls, chosen m op s /\ sheet (set_masking st) (set_sort st) op s ls /\ overflow_checks p = true /\ 256 <= deepest ls).
Proof.
  intros p e m st B S L. rewrite (widened_same p e m B S).
  assert (A : arguments64 (widened p) m) by (intros op s G; now apply widened_text, (S op s G)). rewrite (C64_exact (widened p) e m A). split.
  - intros [H|(st' & op & s & ls & k & L' & C & Br & Ck & K)]; [now contradiction (H st)|]. assert (st' = st) by congruence. subst st'.
    apply (C73_sheet (widened p)) in Br; [|exact (A op s (proj1 C))]. destruct Br as [Sh ->]. now exists op, s, ls.
  - intros (op & s & ls & C & Sh & Ck & K). right. exists st, op, s, ls, (deepest ls). repeat split; try assumption; try apply C. apply (C73_sheet (widened p)); [exact (A op s (proj1 C))|]. now split.
Qed.
(* From the words typed. *)
Theorem C97_run : forall p p' pl ws l, build p -> build p' -> overflow_checks p = overflow_checks p' -> written ws l -> no_information l -> Forall fits32 ws ->
  (forall op s, said l (OptOperation op) [s] -> small op s) ->
  run_in p pl ws = run_in p' pl ws /\ outside_stdout p (world_of pl) ws = outside_stdout p' (world_of pl) ws.
Proof.
  intros p p' pl ws l B B' Ck W NI F Sm. unfold run_in, run_outside, run_words, outside_stdout in *. rewrite (parse_written ws l W) in *.
  destruct (parse_exact l NI) as [(_ & m & E & D)|[_ E]]; [|rewrite E; destruct l; split; reflexivity]. rewrite E in *.
  assert (A : small_arguments m).
  { intros op s G. apply (des_operations l m D) in G. split; [|now apply Sm]. destruct G as (sp & I & _). destruct (written_values ws l W sp [s] s I ltac:(now left)) as (w & J & K).
    rewrite Forall_forall in F. specialize (F w J). unfold fits32 in *. lia. }
  rewrite (C97_program p p' _ m B B' Ck A). split; reflexivity.
Qed.
(* Lengths beyond the limit do make a difference. *)
Theorem C97_needed_refuted : exists s, fits32 s /\ ~ small_ber s /\ ber_parse release32 [] (parse_hex_str s) <> ber_parse release64 [] (parse_hex_str s).
Proof.
  exists (lit "91 84 FF FF FF FF 00"). split; [reflexivity|]. split.
  - intros H. specialize (H [57; 49] 70 (lit "FFFFFFF00") eq_refl). vm_compute in H. discriminate H.
  - intros K. vm_compute in K. discriminate K.
Qed.
Lemma spelt_example (ds : list N) : (forall k, (k < List.length ds)%nat -> nth k ds 0 = 56 -> nth (S k) ds 0 = 52 -> hex_value (nth (S (S k)) ds 0) < 8) -> spelt ds.
Proof.
  intros H a x c ->. specialize (H (List.length a)). rewrite app_nth2, (app_nth2 a _ 0 (n := S (List.length a))), (app_nth2 a _ 0 (n := S (S (List.length a)))) in H by lia.
  rewrite Nat.sub_diag in H. replace (S (List.length a) - List.length a)%nat with 1%nat in H by lia.
  replace (S (S (List.length a)) - List.length a)%nat with 2%nat in H by lia. apply H; [rewrite app_length; cbn [List.length app]; lia|reflexivity|reflexivity].
Qed.
Example C97_example : build debug32 /\ small_arguments (with_ber (lit "6F 04 84 02 5A 00"))
  /\ (let ws := [lit "--ber"; lit "6F 04 84 02 5A 00"] in
      Forall fits32 ws /\ exit_status (run_in debug32 (mkPlace [] (fun _ => None) (Some (lit "/")) false ProfGlobal) ws) = 0)
  /\ small OpIngenico (lit "T9C:00000001:h21") /\ ~ small OpIngenico (lit "T9C:80000001:h21").
Proof.
  split; [unfold build; cbn; lia|]. split.
  - intros op s G. destruct op; try discriminate G. injection G as <-. split; [reflexivity|]. cbn [small]. unfold small_ber.
    change (spelt (filter is_hex_digitb (lit "6F 04 84 02 5A 00"))). apply spelt_example. intros k K. vm_compute in K.
    do 12 (destruct k as [|k]; [vm_compute; intros A B; first [discriminate A|discriminate B|reflexivity]|]). lia.
  - split; [split; [repeat constructor|vm_compute; reflexivity]|]. split.
    + cbn [small]. split.
      * unfold small_ber. change (spelt (filter is_hex_digitb (lit "T9C:00000001:h21"))). apply spelt_example. intros k K. vm_compute in K.
        do 12 (destruct k as [|k]; [vm_compute; intros A B; first [discriminate A|discriminate B|reflexivity]|]). lia.
      * intros a x ds c E F L. vm_compute in E.
        do 3 (destruct a as [|? a]; [discriminate E|injection E as _ E]). destruct a as [|? a]; [injection E as <- E; reflexivity|injection E as _ E].
        do 8 (destruct a as [|? a]; [discriminate E|injection E as _ E]). destruct a as [|? a].
        -- injection E as <- E. apply Forall_cons_iff in F. destruct F as [F _]. unfold is_hex_digit in F. lia.
        -- injection E as _ E. do 3 (destruct a as [|? a]; [discriminate E|injection E as _ E]). destruct a; discriminate E.
    + intros [_ H]. specialize (H (lit "T9C") 56 (lit "0000001") (lit "h21") eq_refl). assert (F : Forall is_hex_digit (56 :: lit "0000001")) by (apply ProofsIngenico.all_hex_iff; vm_compute; reflexivity).
      specialize (H F). assert (L : (7 <= List.length (lit "0000001"))%nat) by (vm_compute; lia). specialize (H L). vm_compute in H. discriminate H.
Qed.
