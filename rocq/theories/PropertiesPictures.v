(** From raw bytes to the screen. *)

From Coq Require Import ZArith NArith List String Ascii Bool Lia ZifyN ZifyBool ZifyNat Permutation Sorting.
From Verif Require Import Base ModelUtil ModelEnums ModelBitflag ModelSchemas ModelTags ModelTlv ModelValues ModelProcess ModelDisplay
  SpecUtil SpecCodes SpecValues SpecTlv SpecIngenico SpecTags SpecProcess SpecDisplay
  ProofsUtil ProofsBer ProofsIngenico ProofsValues PropertiesValues
  PropertiesBer PropertiesIngenico ProofsProcess PropertiesProcess ProofsDisplay ProofsDiagram ProofsScreens ProofsLayout PropertiesDisplay
  SpecPictures ProofsPictures ModelMain SpecMain ProofsMain PropertiesMain ModelCli SpecCli ProofsCli PropertiesCli.
Import ListNotations.
Local Open Scope N_scope.

Lemma identify_drawn s b t i : hex_bytes s = b :: t -> ti_tag i = b :: t -> ti_class i = class_of b -> ti_type i = type_of b ->
  (forall x, ti_name i = Some x <-> known_name (b :: t) x) -> is_byte b ->
  exists q, identify_picture (hex_bytes s) = Some q /\ draws q (ValTagInfo i).
Proof.
  intros E T C Y N B. rewrite E. cbn [identify_picture]. eexists. split; [reflexivity|]. intros k show. cbn [value_lines]. unfold tag_info_lines. rewrite T, C, Y.
  assert (Nm : shown_name (ti_name i) = name_of (b :: t)).
  { destruct (ti_name i) as [x|] eqn:I; cbn [shown_name].
    - symmetry. apply name_known. now apply N.
    - symmetry. apply name_unknown. intros x K. apply N in K. discriminate. }
  rewrite Nm.
  assert (Cl : class_word (class_of b) = lit (nth (N.to_nat (b / 64)) ["Universal"; "Application"; "Context-Specific"; "Private"]%string EmptyString)).
  { assert (K : forallb (fun b => leqb (class_word (class_of b)) (lit (nth (N.to_nat (b / 64)) ["Universal"; "Application"; "Context-Specific"; "Private"]%string EmptyString))) all_bytes = true) by (vm_compute; reflexivity).
    apply leqb_eq. exact (check_all_bytes _ K b B). }
  assert (Ty : type_word (type_of b) = if N.testbit b 5 then lit "Constructed" else lit "Primitive").
  { assert (K : forallb (fun b => leqb (type_word (type_of b)) (if N.testbit b 5 then lit "Constructed" else lit "Primitive")) all_bytes = true) by (vm_compute; reflexivity).
    apply leqb_eq. exact (check_all_bytes _ K b B). }
  now rewrite Cl, Ty.
Qed.
Lemma meaning_drawn masks sort op s v : meaning op s v -> sheet masks sort op s (value_lines v 0 true).
Proof.
  pose proof (hex_bytes_ok s) as Hb. intros M.
  assert (V : forall f q, In (op, f) byte_operations -> f (hex_bytes s) = Some q -> draws q v -> sheet masks sort op s (value_lines v 0 true)).
  { intros f q I F D. rewrite D. now apply (sheet_value _ _ _ _ f q). }
  inversion M as [s' v' X|s' v' X|s' v' X|s' v' X|s' v' X|s' v' X|s' b t i X1 X2 X3 X4 X5|s' n sc X1 X2 X3]; subst.
  - destruct (proj1 (pictured_95 _ Hb) v X) as (q & Q & D). eapply V; [|exact Q|exact D]. cbn; tauto.
  - destruct (proj1 (pictured_9F10 _ Hb) v X) as (q & Q & D). eapply V; [|exact Q|exact D]. cbn; tauto.
  - eapply V; [|apply bits_picture_some; split; [exists v'; exact X|reflexivity]|]; [cbn; tauto|]. intros i show. cbn [value_lines].
    now rewrite (bits_diagram_eq cvr_try_from cvr_schema 5 cvr_bits cvr_used (hex_bytes s) v') by (in_bit_values || assumption).
  - destruct (proj1 (pictured_9B _ Hb) v X) as (q & Q & D). eapply V; [|exact Q|exact D]. cbn; tauto.
  - destruct (proj1 (pictured_9F34 _ Hb) v X) as (q & Q & D). eapply V; [|exact Q|exact D]. cbn; tauto.
  - destruct (proj1 (pictured_8E _ Hb) v X) as (q & Q & D). eapply V; [|exact Q|exact D]. cbn; tauto.
  - assert (B : is_byte b) by (rewrite X1 in Hb; now apply bytes_ok_cons in Hb).
    destruct (identify_drawn s b t i X1 X2 X3 X4 X5 B) as (q & Q & D). eapply V; [|exact Q|exact D]. cbn; tauto.
  - rewrite (service_drawn n sc X2 X3). now apply sheet_service_code.
Qed.
(* An operation on bytes that has a picture has a meaning. *)
Lemma picture_meaning op f s q : In (op, f) byte_operations -> f (hex_bytes s) = Some q -> exists v, meaning op s v.
Proof.
  pose proof (hex_bytes_ok s) as Hb. intros I F. unfold byte_operations in I. cbn [In] in I.
  repeat (destruct I as [I|I]; [injection I as <- <-|]); [..|destruct I].
  - destruct (proj2 (pictured_95 _ Hb) q F) as [v V]. exists v. now constructor.
  - destruct (proj2 (pictured_9F10 _ Hb) q F) as [v V]. exists v. now constructor.
  - apply bits_picture_some in F. destruct F as [[v V] _]. exists (ValCvr v). now constructor.
  - destruct (proj2 (pictured_9B _ Hb) q F) as [v V]. exists v. now constructor.
  - destruct (proj2 (pictured_9F34 _ Hb) q F) as [v V]. exists v. now constructor.
  - destruct (proj2 (pictured_8E _ Hb) q F) as [v V]. exists v. now constructor.
  - destruct (hex_bytes s) as [|b t] eqn:E; [discriminate|].
    exists (ValTagInfo (mkTagInfo (b :: t) (identify_tag (b :: t)) (class_of b) (type_of b))). apply (meaning_identify s b t); try reflexivity; [assumption|].
    intros x. cbn [ti_name]. apply identify_iff.
Qed.
Lemma tlv_data_ok p masks op s f ns : text64 p s -> tlv_block masks op s f ns -> forest_data_ok ns.
Proof.
  intros T B. destruct (tlv_op _ _ _ _ _ B) as [_ L]. destruct (L p) as [x X]. destruct (tlv_settles p masks op s x T X) as (Y & _ & _ & _ & _ & G).
  apply forest_ok_data. apply (G f ns). now apply Y.
Qed.
Lemma arranged_sound r r' : arranged r r' -> Forall sound (flat_map all_ptags r) -> Forall sound (flat_map all_ptags r').
Proof.
  intros A F. apply C37_sort_arranges in A. subst r'. pose proof (C67_sorting_keeps_all_tags r) as P. rewrite Forall_forall in *. intros x Hx. apply F.
  now apply (Permutation_in _ (Permutation_sym P)).
Qed.

(** C73: from raw bytes to the screen. *)

(* The lines follow from the bytes alone, and the indentation is that of the lines. *)
Theorem C73_sheet : forall p masks sort op s ls k, text64 p s ->
  (breakdown masks sort op s ls k <-> sheet masks sort op s ls /\ k = deepest ls).
Proof.
  intros p masks sort op s ls k T.
  assert (One : forall ls k, breakdown masks sort op s ls k -> sheet masks sort op s ls /\ k = deepest ls).
  { clear ls k. intros ls k B. destruct B as [v M|f ns r r' B P S].
    - split; [now apply meaning_drawn|]. now rewrite deepest_value.
    - pose proof (tlv_data_ok p masks op s f ns T B) as D. destruct (processed_sound ns r P D) as [So St].
      assert (O : Forall (fun t => forall e, ~ tag_fails t e) (flat_map preorder ns)).
      { apply C33_processed_block in P; [|assumption]. apply Forall_forall. intros t Ht e. exact (proj1 (C34_success ns D) (ex_intro _ r P) t e Ht). }
      assert (So' : Forall sound (flat_map all_ptags r')) by (destruct sort; [now apply (arranged_sound r)|now subst r']).
      rewrite deepest_app, deepest_format, N.max_0_l, deepest_block. split; [|reflexivity]. rewrite (block_drawn true r' 0 So').
      apply (sheet_block _ _ _ _ f ns); try assumption. destruct sort; [rewrite <- St; now apply arranged_strip|now subst]. }
  split; [apply One|]. intros [H ->]. destruct H as [f q I F|n E N L|f ns ns' B O S].
  - destruct (picture_meaning op f s q I F) as [v M].
    assert (E : value_lines v 0 true = q 0 true); [|rewrite <- E, deepest_value; now constructor].
    pose proof (meaning_drawn masks sort op s v M) as Sh. inversion Sh as [f' q' I' F' E'|n E' N' L' E''|f' ns ns' B O S E'].
    + assert (f' = f). { clear -I I'. unfold byte_operations in I, I'. cbn [In] in I, I'. repeat (destruct I as [I|I]; [injection I as <- <-; repeat (destruct I' as [I'|I']; [try discriminate I'; now injection I' as <-|]); destruct I'|]). destruct I. }
      subst f'. congruence.
    + exfalso. subst op. clear -I. cbn in I. repeat (destruct I as [I|I]; [discriminate I|]). destruct I.
    + exfalso. clear -B I. inversion B; subst; cbn in I; repeat (destruct I as [I|I]; [discriminate I|]); destruct I.
  - destruct (all_service_codes n L) as [sc Sc]. assert (SC : service_code_of n (n / 100) (n / 10 mod 10) (n mod 10) sc) by (apply service_code_of_iff; try assumption; lia).
    rewrite <- (service_drawn n sc L SC), deepest_value. subst op. constructor. now apply (meaning_service_code s n).
  - pose proof (tlv_data_ok p masks op s f ns T B) as D. pose proof (conv_processed ns D O) as P.
    destruct (processed_sound ns (map conv ns) P D) as [So _].
    assert (A : if sort then arranged (map conv ns) (map conv ns') else map conv ns' = map conv ns) by (destruct sort; [now apply in_order_conv|now subst]).
    assert (So' : Forall sound (flat_map all_ptags (map conv ns'))) by (destruct sort; [now apply (arranged_sound (map conv ns))|now rewrite A]).
    assert (E : forest_lines ns' 0 true = block_lines (map conv ns') 0 true).
    { rewrite (block_drawn true _ 0 So'), map_map. f_equal. rewrite <- (map_id ns') at 1. apply map_ext. intros n. symmetry. apply conv_strip. }
    rewrite E, deepest_app, deepest_format, N.max_0_l, deepest_block. now apply (breakdown_block _ _ _ _ f ns (map conv ns)).
Qed.
Theorem C73_shown : forall p e m st op s ls, load_settings e m = Ok st -> chosen m op s -> text64 p s ->
  sheet (set_masking st) (set_sort st) op s ls -> fits p (deepest ls) -> displays (run_main p e m) ls.
Proof.
  intros p e m st op s ls L C T H F. apply (C61_shown p e m st op s ls (deepest ls)); try assumption. now apply (C73_sheet p).
Qed.
Theorem C73_program : forall p e file l st op s ls, e_cli_profile e = ProfGlobal -> e_file e = Some file ->
  no_information l -> acceptable l -> in_force (program_layers e file l) (e_tty e) st ->
  said l (OptOperation op) [s] -> text64 p s -> sheet (set_masking st) (set_sort st) op s ls -> fits p (deepest ls) ->
  exists o, run_program p e l = Ran o /\ displays o ls.
Proof.
  intros p e file l st op s ls P Fi N A I S T H F. apply (C71_shown p e file l st op s ls (deepest ls)); try assumption. now apply (C73_sheet p).
Qed.
(* Every argument has exactly one sheet, or is refused for exactly one reason. *)
Theorem C73_total : forall p masks sort op s, text64 p s ->
  (exists ls, sheet masks sort op s ls /\ (forall ls', sheet masks sort op s ls' -> ls' = ls) /\ forall e, ~ refused masks op s e)
  \/ (exists e, refused masks op s e /\ (forall e', refused masks op s e' -> e' = e) /\ forall ls, ~ sheet masks sort op s ls).
Proof.
  intros p masks sort op s T. destruct (C61_settled p masks sort op s T) as [(ls & k & B & U & N)|(e & R & U & N)].
  - left. exists ls. split; [now apply (C73_sheet p _ _ _ _ ls k T) in B|]. split; [|assumption]. intros ls' H.
    apply (U ls' (deepest ls')). now apply (C73_sheet p).
  - right. exists e. split; [assumption|]. split; [assumption|]. intros ls H. apply (N ls (deepest ls)). now apply (C73_sheet p).
Qed.
(* The indentation only matters to a build with overflow checks, beyond 255 levels. *)
Theorem C73_overflow : forall p e m st op s ls, load_settings e m = Ok st -> chosen m op s -> text64 p s ->
  sheet (set_masking st) (set_sort st) op s ls -> (o_panic (run_main p e m) = true <-> overflow_checks p = true /\ 256 <= deepest ls).
Proof.
  intros p e m st op s ls L C T H. assert (B : breakdown (set_masking st) (set_sort st) op s ls (deepest ls)) by now apply (C73_sheet p).
  rewrite (main_chosen p e m st op s L C). destruct (run_one_exact p st op s T) as [(ls' & k' & B' & S & Q)|(er & R & _)].
  2:{ exfalso. exact (breakdown_not_refused p _ _ op s _ _ er T B R). }
  destruct (breakdown_det p _ _ op s _ _ _ _ T B B') as [<- <-]. split.
  - intros Pn. unfold fits in *. destruct (overflow_checks p); [|destruct (S ltac:(discriminate)) as (X & _); congruence]. split; [reflexivity|].
    destruct (N.le_gt_cases 256 (deepest ls)); [assumption|]. destruct (S ltac:(intros; assumption)) as (X & _). congruence.
  - intros [O K]. apply Q. unfold fits. intros X. specialize (X O). lia.
Qed.
(* Numbers are shown in decimal without leading zeros. *)
Theorem C73_decimal : forall n, Forall is_dec_digit (dec n) /\ dec_value (dec n) = n
  /\ (n < 10 -> List.length (dec n) = 1%nat) /\ (10 <= n -> 10 ^ (len (dec n) - 1) <= n).
Proof.
  intros n. destruct (dec_spec n) as (A & B & [[C D]|(C & D & E & F)]); (split; [assumption|]); (split; [assumption|]); split; unfold len; intros; try assumption; lia.
Qed.
Example C73_example : exists ls, sheet [42] true OpTsi (lit "F8 00") ls /\ fits p64 (deepest ls)
  /\ map line_text (firstn 2 ls) = [lit "11111000 00000000"; [0x2502; 0x2502; 0x2502; 0x2502; 0x2514; 32] ++ lit "Terminal risk management was performed"].
Proof.
  eexists. split; [apply (sheet_value _ _ _ _ (bits_picture 2 tsi_bits tsi_used)); [cbn; tauto|vm_compute; reflexivity]|]. split; [intros _; vm_compute; reflexivity|].
  vm_compute. reflexivity.
Qed.

(** C65: the wording of the messages. *)
Theorem C65_wording : forall e, error_text e = message e.
Proof. intros [c n k| | | | | | |]; try reflexivity. destruct c; reflexivity. Qed.
Theorem C65_printed : forall p e m st op s er, load_settings e m = Ok st -> chosen m op s -> text64 p s ->
  refused (set_masking st) op s er -> o_stdout (run_main p e m) = [] /\ o_stderr (run_main p e m) = message er ++ [10].
Proof.
  intros p e m st op s er L C T R. destruct (C61_refused p e m st op s er L C T R) as (_ & _ & A & B). rewrite <- C65_wording. auto.
Qed.
