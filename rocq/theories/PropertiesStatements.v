(** The property of values made of bits in words. *)

From Coq Require Import ZArith NArith Ascii String List Bool Lia ZifyN ZifyBool ZifyNat Permutation Sorting.
From Verif Require Import Base ModelUtil ModelEnums ModelBitflag ModelSchemas ModelTags ModelTlv ModelValues ModelProcess ModelDisplay
  SpecUtil SpecCodes SpecValues SpecTlv SpecIngenico SpecTags SpecProcess SpecDisplay
  ProofsUtil ProofsGrammar ProofsBer ProofsIngenico ProofsValues PropertiesValues
  PropertiesBer PropertiesIngenico ProofsProcess PropertiesProcess ProofsDisplay ProofsDiagram ProofsScreens ProofsLayout PropertiesDisplay
  SpecPictures ProofsPictures ModelMain SpecMain ProofsMain PropertiesMain ModelCli SpecCli ProofsCli PropertiesCli PropertiesPictures
  SpecReading PropertiesReading SpecSame PropertiesSame SpecJoin PropertiesJoin PropertiesCut SpecCopied PropertiesCopied
  SpecReserved PropertiesReserved SpecMatch PropertiesMatch SpecExplain PropertiesExplain PropertiesRuns PropertiesIssuer SpecStatements.
Import ListNotations.
Local Open Scope N_scope.

(** ** Diagrams *)

Definition shade (show : bool) (s : severity) : option color := match show, s with true, SevWarning => Some Yellow | true, SevError => Some Red | _, _ => None end.
Lemma stated_cons l ls c w : stated (l :: ls) c w <-> (exists i arms, l = mkLine i [(None, arms ++ [0x2514; 32]); (Some (mkSpec false c), w)] (Some (mkSpec false c))) \/ stated ls c w.
Proof.
  unfold stated. cbn [In]. split.
  - intros (i & a & [I|I]); [left; eauto|right; eauto].
  - intros [(i & a & ->)|(i & a & I)]; exists i, a; auto.
Qed.
Lemma unstated l ls c w : List.length (l_spans l) <> 2%nat -> (stated (l :: ls) c w <-> stated ls c w).
Proof. intros N. rewrite stated_cons. split; [intros [(i & a & ->)|H]; [exfalso; now apply N|exact H]|tauto]. Qed.
Lemma ranges_stated n raw rs i show c w : Forall (fun r => r_offset r < 8 * n) rs ->
  (stated (diagram n raw rs i show) c w <-> exists r, In r rs /\ shade show (r_sev r) = c /\ r_text r = w).
Proof.
  intros F. rewrite Forall_forall in F. unfold diagram. rewrite unstated by discriminate.
  assert (A : forall ls, stated ((if existsb (fun r => 1 <? r_len r) rs then [row i [(None, draw n (8 * n - last_low rs) (arm_char rs))]] else []) ++ ls) c w <-> stated ls c w).
  { intros ls. destruct (existsb _ rs); [|reflexivity]. cbn [app]. apply unstated. discriminate. }
  rewrite A. unfold stated. split.
  - intros (j & a & I). apply in_map_iff in I. destruct I as (r & E & I). apply in_rev in I. exists r. split; [exact I|]. unfold severity_style in E. injection E as _ _ C W _. split; [exact C|exact W].
  - intros (r & I & C & W). destruct (draw_elbow n rs r (F r I)) as (a & E & _). exists i, a. apply in_map_iff. exists r. split; [|now apply -> in_rev]. rewrite E, W, <- app_assoc. unfold severity_style. fold (shade show (r_sev r)). now rewrite C.
Qed.

(** ** Flags *)

Definition statement_of (show : bool) (e : bit_field) : statement := (N.to_nat (e_byte e - 1), 2 ^ (e_hi e - 1), shade show (e_sev e), e_label e).
Definition all_flags (n : N) (t : list bit_field) : bool := forallb (sound n) t && forallb is_flag t.
Lemma flag_stated n e d show c w : sound n e = true -> is_flag e = true ->
  ((exists r, In r (field_shown n e d) /\ shade show (r_sev r) = c /\ r_text r = w) <-> N.land (nth (N.to_nat (e_byte e - 1)) d 0) (2 ^ (e_hi e - 1)) = 2 ^ (e_hi e - 1) /\ shade show (e_sev e) = c /\ w = lit (e_label e)).
Proof.
  intros S F. unfold is_flag in F. unfold field_shown. destruct (e_kind e) eqn:K; try discriminate F. clear F.
  assert (H1 : 1 <= e_hi e /\ e_hi e = e_lo e) by (unfold sound in S; rewrite K in S; lia). rewrite <- flag_bit. replace (e_hi e - 1 + 1) with (e_hi e) by lia. unfold field_bits. rewrite <- (proj2 H1).
  destruct (N.eqb_spec (bits_of (nth (N.to_nat (e_byte e - 1)) d 0) (e_hi e) (e_hi e)) 1) as [E|E].
  - split; [intros (r & [<-|[]] & C & W); auto|intros (_ & C & W); eexists; split; [now left|]; auto].
  - split; [intros (r & [] & _)|intros (X & _); contradiction].
Qed.
Lemma bits_stated n t used d q i show c w : all_flags n t = true -> bits_picture n t used d = Some q -> (stated (q i show) c w <-> holds (map (statement_of show) t) d c w).
Proof.
  intros A Q. unfold all_flags in A. apply andb_prop in A. destruct A as [S F]. rewrite forallb_forall in S, F. apply bits_shape in Q. destruct Q as (_ & _ & ->). rewrite ranges_stated.
  - unfold all_shown, holds. split.
    + intros (r & I & C & W). apply in_flat_map in I. destruct I as (e & He & I). assert (X : exists r, In r (field_shown n e d) /\ shade show (r_sev r) = c /\ r_text r = w) by eauto. apply (flag_stated n e d show c w (S e He) (F e He)) in X.
      destruct X as (X & C' & W'). do 3 eexists. split; [apply in_map_iff; exists e; split; [unfold statement_of; rewrite C'; reflexivity|exact He]|]. auto.
    + intros (k & v & x & I & K & W). apply in_map_iff in I. destruct I as (e & E & He). unfold statement_of in E. injection E as <- <- C <-. destruct (proj2 (flag_stated n e d show c w (S e He) (F e He))) as (r & I & Y); [auto|]. exists r. split; [|exact Y]. apply in_flat_map. eauto.
  - apply Forall_forall. intros r I. apply in_flat_map in I. destruct I as (e & He & I). exact (proj1 (shown_fits n e d r (S e He) I)).
Qed.
Lemma bits_pictured n t used d : all_flags n t = true -> len d = n -> exists q, bits_picture n t used d = Some q.
Proof.
  intros A L. unfold all_flags in A. apply andb_prop in A. destruct A as [S F]. unfold bits_picture. rewrite L, N.eqb_refl, (flags_allowed n t d S F). eexists. reflexivity.
Qed.
Lemma tvr_checked : map (statement_of true) tvr_bits = tvr_statements.
Proof. vm_compute. reflexivity. Qed.
Lemma tsi_checked : map (statement_of true) tsi_bits = tsi_statements.
Proof. vm_compute. reflexivity. Qed.
Lemma capabilities_checked : map (statement_of true) termcap_bits = capabilities_statements.
Proof. vm_compute. reflexivity. Qed.
Lemma additional_checked : map (statement_of true) addtermcap_bits = additional_statements.
Proof. vm_compute. reflexivity. Qed.
Lemma action_checked : map (statement_of false) tvr_bits = uncoloured tvr_statements.
Proof. vm_compute. reflexivity. Qed.
Lemma flags_checked : all_flags 5 tvr_bits && all_flags 2 tsi_bits && all_flags 3 termcap_bits && all_flags 5 addtermcap_bits = true.
Proof. vm_compute. reflexivity. Qed.

(** C128: values made of bits in words. *)
(* The picture of such a value states exactly what its bits say; every value of the right length has one. *)
Theorem C128_values : forall t n table d, In (t, n, table) statement_tags -> len d = n -> exists q, picture_of t d = Some q /\ forall i c w, stated (q i true) c w <-> holds table d c w.
Proof.
  intros t n table d I L. pose proof tvr_checked as T1. pose proof tsi_checked as T2. pose proof capabilities_checked as T3. pose proof additional_checked as T4. pose proof action_checked as T5. pose proof flags_checked as F. apply andb_prop in F. destruct F as [F F4]. apply andb_prop in F. destruct F as [F F3]. apply andb_prop in F. destruct F as [F1 F2].
  assert (Bits : forall n fs used table, all_flags n fs = true -> map (statement_of true) fs = table -> len d = n -> exists q, bits_picture n fs used d = Some q /\ forall i c w, stated (q i true) c w <-> holds table d c w).
  { intros m fs used tb F E Lm. destruct (bits_pictured m fs used d F Lm) as (q & Q). exists q. split; [exact Q|]. intros i c w. rewrite <- E. now apply (bits_stated m fs used d). }
  assert (Action : forall sentence, len d = 5 -> exists q, action_picture sentence d = Some q /\ forall i c w, stated (q i true) c w <-> holds (uncoloured tvr_statements) d c w).
  { intros sentence L5. destruct (bits_pictured 5 tvr_bits tvr_used d F1 L5) as (q & Q). unfold action_picture. rewrite Q. cbn [option_map]. eexists. split; [reflexivity|]. intros i c w. cbv beta. rewrite unstated by discriminate. rewrite <- T5. now apply (bits_stated 5 tvr_bits tvr_used d). }
  unfold statement_tags in I. cbn [In] in I. destruct I as [I|[I|[I|[I|[I|[I|[I|[]]]]]]]]; injection I as <- <- <-.
  - exact (Bits 5 tvr_bits tvr_used tvr_statements F1 T1 L).
  - exact (Bits 2 tsi_bits tsi_used tsi_statements F2 T2 L).
  - exact (Bits 3 termcap_bits termcap_used capabilities_statements F3 T3 L).
  - exact (Bits 5 addtermcap_bits addtermcap_used additional_statements F4 T4 L).
  - exact (Action _ L).
  - exact (Action _ L).
  - exact (Action _ L).
Qed.

(* Each statement of a table stands for one bit: no two share their words. *)
Lemma tables_apart : forallb (fun x => match x with (_, _, table) => if list_eq_dec string_dec (nodup string_dec (map snd table)) (map snd table) then true else false end) statement_tags = true.
Proof. vm_compute. reflexivity. Qed.
Lemma row_unique (table : list statement) k v c x k' v' c' : NoDup (map snd table) -> In (k, v, c, x) table -> In (k', v', c', x) table -> (k, v, c) = (k', v', c').
Proof.
  induction table as [|[y z] l IH]; intros N I J; [destruct I|]. cbn [map snd] in N. apply NoDup_cons_iff in N. destruct N as [N M]. cbn [In] in I, J. destruct I as [I|I], J as [J|J].
  - injection I as Ey Ez. injection J as Ey' Ez'. congruence.
  - injection I as -> ->. exfalso. apply N. now apply (in_map snd) in J.
  - injection J as -> ->. exfalso. apply N. now apply (in_map snd) in I.
  - now apply IH.
Qed.
Theorem C128_each : forall t n table d q i k v c x, In (t, n, table) statement_tags -> len d = n -> picture_of t d = Some q -> In (k, v, c, x) table ->
  (stated (q i true) c (lit x) <-> N.land (nth k d 0) v = v) /\ forall c', stated (q i true) c' (lit x) -> c' = c.
Proof.
  intros t n table d q i k v c x I L Q R. destruct (C128_values t n table d I L) as (q' & Q' & S). rewrite Q in Q'. injection Q' as <-.
  pose proof tables_apart as A. rewrite forallb_forall in A. specialize (A _ I). cbv beta iota in A. destruct (list_eq_dec _ _ _) as [E|]; [|discriminate A]. clear A. assert (N : NoDup (map snd table)) by (rewrite <- E; apply NoDup_nodup). clear E.
  assert (One : forall c', stated (q i true) c' (lit x) -> N.land (nth k d 0) v = v /\ c' = c).
  { intros c' H. apply S in H. destruct H as (k' & v' & x' & J & V & W). apply lit_inj in W. subst x'. pose proof (row_unique table _ _ _ _ _ _ _ N R J) as X. injection X as -> -> ->. auto. }
  split; [|intros c' H; now apply (One c')]. split; [intros H; now apply (One c)|]. intros V. apply S. exists k, v, x. auto.
Qed.
(* The options --tvr and --tsi. *)
Theorem C128_options : forall masks sort op n table s ls, In (op, n, table) statement_options -> sheet masks sort op s ls -> forall c w, stated ls c w <-> holds table (hex_bytes s) c w.
Proof.
  intros masks sort op n table s ls I H c w. pose proof flags_checked as F. apply andb_prop in F. destruct F as [F F4]. apply andb_prop in F. destruct F as [F F3]. apply andb_prop in F. destruct F as [F1 F2].
  inversion H as [f q J Q|m O Dn M|f ns ns' B M A]; subst.
  - unfold statement_options in I. cbn [In] in I. unfold byte_operations in J. cbn [In] in J. destruct I as [I|[I|[]]]; injection I as <- <- <-; repeat (destruct J as [J|J]; [try discriminate J|]); try contradiction; injection J as <-.
    + rewrite <- tvr_checked. now apply (bits_stated 5 tvr_bits tvr_used (hex_bytes s)).
    + rewrite <- tsi_checked. now apply (bits_stated 2 tsi_bits tsi_used (hex_bytes s)).
  - unfold statement_options in I. cbn [In] in I. destruct I as [I|[I|[]]]; discriminate I.
  - unfold statement_options in I. cbn [In] in I. destruct I as [I|[I|[]]]; injection I as <- <- <-; inversion B.
Qed.
(* Objects in TLV data. *)
Definition object_states (table : list statement) (d : list N) (ls : list line) : Prop :=
  exists i before block after, ls = before ++ heading_row i (lit "Parsed:") :: block ++ after /\ forall c w, stated block c w <-> holds table d c w.
Theorem C128_objects : forall p masks sort op s f ns nd ls t n table d, text64 p s -> tlv_block masks op s f ns -> occurs nd ns -> sheet masks sort op s ls ->
  In (t, n, table) statement_tags -> rt_tag (node_tag nd) = t -> rt_data (node_tag nd) = Normal d -> len d = n -> object_states table d ls.
Proof.
  intros p masks sort op s f ns nd ls t n table d T B O H I Et Ed L. assert (N : d <> []).
  { intros ->. unfold statement_tags in I. cbn [In] in I. repeat (destruct I as [I|I]; [injection I as <- <- <-; discriminate L|]). destruct I. }
  destruct (object_between p masks sort op s f ns nd ls _ T B O H Ed N) as (i & before & after & E). destruct (C128_values t n table d I L) as (q & Q & S).
  assert (M : meaning_lines (node_tag nd) i true = heading_row i (lit "Parsed:") :: q (i + 1) true).
  { unfold meaning_lines. rewrite Et, Ed. now rewrite Q. }
  rewrite M in E. exists i, (before ++ tag_row i (node_tag nd) (tag_title (node_tag nd)) :: heading_row i (lit "Raw:") :: wide_dump (i + 1) d), (q (i + 1) true), after.
  split; [rewrite E; now rewrite <- app_assoc|]. intros c w. apply S.
Qed.
(* Runs of the program. *)
Theorem C128_program : forall p e m st op n table s, In (op, n, table) statement_options -> load_settings e m = Ok st -> SpecMain.chosen m op s -> text64 p s -> len (hex_bytes s) = n ->
  exists ls, displays (run_main p e m) ls /\ forall c w, stated ls c w <-> holds table (hex_bytes s) c w.
Proof.
  intros p e m st op n table s I L C T N. pose proof flags_checked as F. apply andb_prop in F. destruct F as [F F4]. apply andb_prop in F. destruct F as [F F3]. apply andb_prop in F. destruct F as [F1 F2].
  assert (X : exists fs used k, all_flags k fs = true /\ len (hex_bytes s) = k /\ In (op, bits_picture k fs used) byte_operations).
  { pose proof I as I'. unfold statement_options in I'. cbn [In] in I'. destruct I' as [I'|[I'|[]]]; injection I' as <- <- _.
    - exists tvr_bits, tvr_used, 5. split; [exact F1|]. split; [exact N|]. unfold byte_operations. cbn [In]. tauto.
    - exists tsi_bits, tsi_used, 2. split; [exact F2|]. split; [exact N|]. unfold byte_operations. cbn [In]. tauto. }
  destruct X as (fs & used & k & F & K & J). destruct (bits_pictured k fs used (hex_bytes s) F K) as (q & Q). assert (H : sheet (set_masking st) (set_sort st) op s (q 0 true)) by (exact (sheet_value _ _ op s _ q J Q)).
  exists (q 0 true). split; [|now apply (C128_options (set_masking st) (set_sort st) op n table s)]. apply (C73_shown p e m st op s _ L C T H). apply bits_shape in Q. destruct Q as (_ & _ & ->). intros _. rewrite deepest_diagram. lia.
Qed.
Theorem C128_program_objects : forall p e m st op s f ns nd ls t n table d, shows p e m st op s ls -> tlv_block (set_masking st) op s f ns -> occurs nd ns ->
  In (t, n, table) statement_tags -> rt_tag (node_tag nd) = t -> rt_data (node_tag nd) = Normal d -> len d = n -> displays (run_main p e m) ls /\ object_states table d ls.
Proof.
  intros p e m st op s f ns nd ls t n table d A B O I Et Ed L. split; [now apply (shows_displays p e m st op s)|]. destruct A as (_ & _ & T & H & _). now apply (C128_objects p (set_masking st) (set_sort st) op s f ns nd ls t n table d).
Qed.
Example C128_example : exists ls, displays (run_main p64r plain_env (with_tsi (lit "E800"))) ls
  /\ stated ls None (lit "Offline data authentication was performed") /\ ~ stated ls None (lit "Issuer authentication was performed").
Proof.
  destruct (C128_program p64r plain_env (with_tsi (lit "E800")) (mkSettings TAuto [42] true) OpTsi 2 tsi_statements (lit "E800")) as (ls & D & S).
  - unfold statement_options. cbn [In]. tauto.
  - now apply plain_settings.
  - split; [reflexivity|]. exists [OpTvr; OpIad; OpCvr], [OpCvmResults; OpCvmList; OpIdentify; OpAuto; OpBer; OpIngenico; OpServiceCode]. split; [reflexivity|]. repeat constructor.
  - split; vm_compute; reflexivity.
  - reflexivity.
  - exists ls. split; [exact D|]. split.
    + apply S. exists 0%nat, 0x80, "Offline data authentication was performed"%string. split; [unfold tsi_statements; cbn [In]; tauto|]. split; reflexivity.
    + intros H. apply S in H. destruct H as (k & v & x & I & V & W). apply lit_inj in W. subst x. unfold tsi_statements in I. cbn [In] in I. repeat (destruct I as [I|I]; [try discriminate I|]); [injection I as <- <-; vm_compute in V; discriminate V|contradiction].
Qed.
(* An action code with two bits, one of them red in terminal verification results. *)
Example C128_objects_example : exists ls, shows p64r plain_env (with_ber (lit "9F0D050480000000")) (mkSettings TAuto [42] true) OpBer (lit "9F0D050480000000") ls
  /\ (exists ns nd, tlv_block [42] OpBer (lit "9F0D050480000000") None ns /\ occurs nd ns /\ rt_tag (node_tag nd) = [0x9F; 0x0D] /\ rt_data (node_tag nd) = Normal [4; 0x80; 0; 0; 0])
  /\ holds (uncoloured tvr_statements) [4; 0x80; 0; 0; 0] None (lit "CDA (Combined Data Authentication) failed")
  /\ holds tvr_statements [4; 0x80; 0; 0; 0] (Some Red) (lit "CDA (Combined Data Authentication) failed").
Proof.
  destruct (shown_ber (lit "9F0D050480000000")) as (ls & S); [split; vm_compute; reflexivity|vm_compute; reflexivity|]. exists ls. split; [exact S|]. split.
  - eexists. eexists. split; [constructor; apply (ber_block_iff p64r); [split; vm_compute; reflexivity|vm_compute; reflexivity]|]. split; [apply occurs_here; now left|]. split; reflexivity.
  - split; exists 0%nat, 4; eexists; (split; [unfold uncoloured, tvr_statements; cbn [map In]|split; reflexivity]).
    + do 5 right. left. reflexivity.
    + do 5 right. left. reflexivity.
Qed.
(* Two values of the right length that differ in one bit. *)
Example C128_each_example : exists q q', picture_of [0x9F; 0x33] [0x80; 0; 0] = Some q /\ picture_of [0x9F; 0x33] [0; 0; 0] = Some q' /\ (forall i, stated (q i true) None (lit "Manual key entry")) /\ forall i, ~ stated (q' i true) None (lit "Manual key entry").
Proof.
  assert (I : In ([0x9F; 0x33], 3, capabilities_statements) statement_tags) by (unfold statement_tags; cbn [In]; tauto). assert (R : In (0%nat, 0x80, None, "Manual key entry"%string) capabilities_statements) by (unfold capabilities_statements; cbn [In]; tauto).
  destruct (C128_values _ _ _ [0x80; 0; 0] I eq_refl) as (q & Q & _), (C128_values _ _ _ [0; 0; 0] I eq_refl) as (q' & Q' & _). exists q, q'. split; [exact Q|]. split; [exact Q'|]. split; intros i.
  - apply (C128_each _ _ _ [0x80; 0; 0] q i _ _ _ _ I eq_refl Q R). reflexivity.
  - intros H. apply (proj1 (C128_each _ _ _ [0; 0; 0] q' i _ _ _ _ I eq_refl Q' R)) in H. vm_compute in H. discriminate H.
Qed.
