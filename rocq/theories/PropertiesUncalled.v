(** The properties of code that the program never calls. *)

From Coq Require Import ZArith NArith List String Ascii Bool Lia ZifyN ZifyBool ZifyNat Permutation.
From Verif Require Import Base ModelUtil ModelEnums ModelBitflag ModelSchemas ModelTags ModelTlv ModelValues ModelProcess ModelDisplay
  SpecUtil SpecCodes SpecValues SpecTlv SpecIngenico SpecTags SpecProcess SpecDisplay
  ProofsUtil ProofsBer ProofsIngenico ProofsValues PropertiesValues
  PropertiesBer PropertiesIngenico ProofsProcess PropertiesProcess ProofsDisplay ProofsDiagram ProofsScreens ProofsLayout PropertiesDisplay
  ModelMain SpecMain ProofsMain PropertiesMain ModelUncalled SpecUncalled.
Import ListNotations.
Local Open Scope N_scope.

Lemma from_merged pr data : exists ds, fg_merged (figment_from (mkProvider pr (Some data))) = Some (List.concat ds) /\ forall k, Forall2 (fun l d => is_dict l d k) (provider_layers pr data) ds.
Proof.
  unfold provider_layers. exists (data ProfGlobal :: (match pr with Some (ProfCustom n) => [data (ProfCustom n)] | _ => [] end) ++ [data ProfDefault]).
  split; [|intros k; destruct pr as [[]|]; cbn [app]; repeat (apply Forall2_cons; [apply says_is|]); apply Forall2_nil].
  rewrite fg_merged_at. unfold figment_from, fg_at, fg_merge_all, fg_empty, fg_select, dict_merge. cbn [pv_profile pv_data fg_values fg_profile].
  destruct pr as [[| |n]|]; cbn [fg_values fg_profile option_map List.concat app]; rewrite ?app_nil_r; reflexivity.
Qed.
Lemma of_dict ds ls c : (forall k, Forall2 (fun l d => is_dict l d k) ls ds) ->
  (config_of_dict (List.concat ds) = Some c <-> cf_profile c = ProfDefault /\ configured ls c).
Proof.
  intros F. pose proof (fun k => decided_dicts ls ds k (F k)) as D. unfold configured, config_of_dict. split.
  - destruct (extract_colour _) as [k|] eqn:E1; [|discriminate]. destruct (extract_masking _) as [ms|] eqn:E2; [|discriminate]. destruct (extract_bool _) as [b|] eqn:E3; [|discriminate].
    intros H. injection H as <-. cbn [cf_profile cf_colour cf_masking cf_sort]. split; [reflexivity|].
    apply extract_colour_iff in E1. apply extract_masking_iff in E2. apply extract_bool_iff in E3.
    destruct E1 as (v1 & G1 & V1), E2 as (v2 & G2 & V2), E3 as (v3 & G3 & V3). exists v1, v2, v3. rewrite !D. auto 8.
  - intros (P & v1 & v2 & v3 & G1 & V1 & G2 & V2 & G3 & V3). apply D in G1, G2, G3.
    rewrite (proj2 (extract_colour_iff _ (cf_colour c))) by eauto. rewrite (proj2 (extract_masking_iff _ (cf_masking c))) by eauto. rewrite (proj2 (extract_bool_iff _ (cf_sort c))) by eauto.
    destruct c. cbn in *. now subst.
Qed.

Lemma chars_value cs : masking_value (CArr (map CChar cs)) cs.
Proof. exists (map CChar cs). split; [reflexivity|]. induction cs; cbn [map]; constructor; auto. Qed.

(** C119: what nothing calls yet. *)
(* What is read from a provider: each setting from the strongest profile that mentions it, all three being needed. *)
Theorem C119_read : forall pr data c, config_try_from (mkProvider pr (Some data)) = Some c <-> cf_profile c = ProfDefault /\ configured (provider_layers pr data) c.
Proof. intros pr data c. destruct (from_merged pr data) as (ds & M & F). unfold config_try_from. rewrite M. now apply of_dict. Qed.
(* Whichever profile is asked for, what a configuration writes is found. *)
Theorem C119_anywhere : forall c pr, config_try_from (mkProvider pr (pv_data (config_provider c))) = Some (in_default_profile c).
Proof.
  intros c pr. unfold config_provider. cbn [pv_data]. apply C119_read. split; [reflexivity|]. unfold provider_layers. cbn [in_default_profile cf_colour cf_masking cf_sort cf_profile].
  assert (D : forall k v, dict_get (config_dict c) k = Some v -> decided (provider_layers pr (fun q => if profile_eqb q ProfDefault then config_dict c else [])) k v).
  { intros k v G. unfold provider_layers. cbn [profile_eqb]. apply decided_later; [intros w X; discriminate X|].
    destruct pr as [[| |n]|]; cbn [app]; repeat (apply decided_later; [intros w X; discriminate X|]); now apply decided_here. }
  destruct (colour_text_name (cf_colour c)) as (n & I & E). exists (CStr (lit n)), (CArr (map CChar (cf_masking c))), (CBool (cf_sort c)).
  split; [apply D; cbn [config_dict dict_get String.eqb Ascii.eqb Bool.eqb]; now rewrite E|]. split; [left; eauto|].
  split; [apply D; reflexivity|]. split; [apply chars_value|]. split; [apply D; reflexivity|reflexivity].
Qed.
(* A configuration that is written and read again is the same, except for its profile. *)
Theorem C119_back : forall c, config_try_from (config_provider c) = Some (in_default_profile c).
Proof. intros c. exact (C119_anywhere c (Some (cf_profile c))). Qed.
Theorem C119_profile_refuted : exists c, config_try_from (config_provider c) <> Some c.
Proof. exists (mkConfig (ProfCustom (lit "shop")) CNever [88] false). rewrite C119_back. discriminate. Qed.
(* The program reads its three settings one by one; read as a whole from the same sources they are the same, and as a whole they cannot be read exactly when the program stops. *)
Theorem C119_program : forall e m st, load_settings e m = Ok st <->
  exists f c, apply_cli_arguments (e_cli_profile e) (config_figment e) m = Ok f /\ config_try_from (figment_provider f) = Some c /\ st = used (e_tty e) c.
Proof.
  intros e m st. unfold load_settings. destruct (apply_cli_arguments (e_cli_profile e) (config_figment e) m) as [f| | |]; cbn [bind]; [|split; [discriminate|intros (f & c & X & _); discriminate X]..].
  assert (M : fg_merged (figment_from (figment_provider f)) = fg_merged f).
  { unfold fg_merged, figment_from, figment_provider, fg_merge_all, fg_empty, fg_select, dict_merge. cbn [pv_profile pv_data fg_values fg_profile]. destruct (fg_values f) as [v|]; [|reflexivity].
    cbn [option_map]. destruct (fg_profile f); now rewrite ?app_nil_r. }
  assert (X : (exists f0 c, Ok f = Ok f0 /\ config_try_from (figment_provider f0) = Some c /\ st = used (e_tty e) c) <-> exists c, config_try_from (figment_provider f) = Some c /\ st = used (e_tty e) c).
  { split; [intros (f0 & c & K & H); injection K as <-; eauto|intros (c & H); eauto]. }
  rewrite X. unfold config_try_from. rewrite M. destruct (fg_merged f) as [d|]; cbn [unwrap bind]; [|split; [discriminate|intros (c & Y & _); discriminate Y]]. unfold config_of_dict.
  destruct (extract_colour _) as [k|]; cbn [unwrap bind]; [|split; [discriminate|intros (c & Y & _); discriminate Y]].
  destruct (extract_masking _) as [ms|]; cbn [unwrap bind]; [|split; [discriminate|intros (c & Y & _); discriminate Y]].
  destruct (extract_bool _) as [b|]; cbn [unwrap bind]; [|split; [discriminate|intros (c & Y & _); discriminate Y]].
  rewrite terminal_choice_eq. split; [intros H; injection H as <-; exists (mkConfig ProfDefault k ms b); split; reflexivity|intros (c & Y & ->); injection Y as <-; reflexivity].
Qed.
(* What is written of a configuration, used as the default table of the file, gives these settings when nothing else mentions any. *)
Theorem C119_file : forall e m c, e_file e = Some (fun q => if profile_eqb q ProfDefault then config_dict c else []) -> e_vars e = [] -> nothing_typed m ->
  e_cli_profile e = ProfGlobal -> load_settings e m = Ok (used (e_tty e) c).
Proof.
  intros e m c F V (T1 & T2 & T3 & T4) P. eapply C62_precedence; [exact P|exact F|intros s H; exfalso; now apply (T1 s)|].
  assert (A : forall k, silent (asks m) k).
  { intros k v H. inversion H as [s x n T I L|cs T|b N T|b T]; subst; [now apply (T1 s)|now apply (T2 cs)|now apply (T3 b)|now apply (T4 b)]. }
  assert (D : forall k v, dict_get (config_dict c) k = Some v -> decided (layers e (fun q => if profile_eqb q ProfDefault then config_dict c else []) m) k v).
  { intros k v H. unfold layers, selected_layers. cbn [profile_eqb]. apply decided_later; [apply A|]. apply decided_later; [rewrite V; intros w X; discriminate X|].
    apply decided_later; [intros w X; discriminate X|]. destruct (e_profile e); cbn [app]; repeat (apply decided_later; [intros w X; discriminate X|]); now apply decided_here. }
  destruct (colour_text_name (cf_colour c)) as (n & I & E). exists (CStr (lit n)), (CArr (map CChar (cf_masking c))), (CBool (cf_sort c)), (cf_colour c).
  split; [apply D; cbn [config_dict dict_get String.eqb Ascii.eqb Bool.eqb]; now rewrite E|]. split; [left; eauto|]. split; [reflexivity|].
  split; [apply D; reflexivity|]. split; [apply chars_value|]. split; [apply D; reflexivity|reflexivity].
Qed.
(* Issuer application data equal a format code exactly if it is the upper half of their second byte, in either order. *)
Theorem C119_codes : forall raw v fc, bytes_ok raw -> iad_try_from raw = Ok v ->
  (format_data_eq_code v fc = true <-> nth 1 raw 0 / 16 = format_code_to_u8 fc) /\ code_eq_format_data fc v = format_data_eq_code v fc.
Proof.
  intros raw v fc B H. split; [|reflexivity]. apply C49_iad_accepts in H; [|assumption]. destruct H as (cci & cvr & L & C & _). destruct L as (E & _). rewrite E.
  destruct fc. split; [intros _; destruct C as [-> | ->]; reflexivity|intros _; reflexivity].
Qed.
Lemma variant_nth e v i : variant_of_N e v = Some i -> exists t, nth_error e i = Some (v, t).
Proof.
  revert i. induction e as [|[k t] e IH]; intros i H; cbn [variant_of_N] in H; [discriminate|]. destruct (N.eqb_spec v k) as [->|_]; [injection H as <-; now exists t|].
  destruct (variant_of_N e v) as [j|]; [|discriminate]. injection H as <-. exact (IH j eq_refl).
Qed.
Lemma variant_known e v : In v (map fst e) -> exists i, variant_of_N e v = Some i.
Proof.
  induction e as [|[k t] e IH]; intros H; [destruct H|]. cbn [variant_of_N]. destruct (N.eqb_spec v k) as [->|Ne]; [eauto|]. destruct H as [H|H]; [cbn in H; congruence|].
  destruct (IH H) as (i & ->). now exists (S i).
Qed.
(* An enum that covers every value: values and variants correspond, and the text is the one declared with the value. *)
Theorem C119_every : forall bits e v, declared bits e -> v < 2 ^ bits -> exists i, variant_of_N e v = Some i /\ N_of_variant e i = Some v /\ forall t, In (v, t) e -> text_of_variant e i = Some t.
Proof.
  intros bits e v [N D] H. destruct (variant_known e v (proj2 (D v) H)) as (i & E). exists i. split; [assumption|]. destruct (variant_nth e v i E) as (t & K). unfold N_of_variant, text_of_variant. rewrite K. split; [reflexivity|].
  intros t' I. cbn. f_equal. apply In_nth_error in I. destruct I as (j & J). assert (X : i = j); [|subst j; congruence].
  rewrite NoDup_nth_error in N. apply N; [apply nth_error_Some; rewrite (map_nth_error fst i e K); discriminate|now rewrite (map_nth_error fst i e K), (map_nth_error fst j e J)].
Qed.
Theorem C119_variants : forall bits e i, declared bits e -> (i < List.length e)%nat -> exists v, N_of_variant e i = Some v /\ v < 2 ^ bits /\ variant_of_N e v = Some i.
Proof.
  intros bits e i [N D] H. destruct (nth_error e i) as [[v t]|] eqn:K; [|apply nth_error_None in K; lia]. exists v. unfold N_of_variant. rewrite K. split; [reflexivity|].
  assert (I : In v (map fst e)) by (apply in_map_iff; exists (v, t); split; [reflexivity|now apply nth_error_In in K]). split; [now apply D|].
  destruct (variant_known e v I) as (j & E). rewrite E. f_equal. destruct (variant_nth e v j E) as (t' & J). rewrite NoDup_nth_error in N.
  apply N; [apply nth_error_Some; rewrite (map_nth_error fst j e J); discriminate|now rewrite (map_nth_error fst j e J), (map_nth_error fst i e K)].
Qed.
Example C119_example : configured (provider_layers (Some (ProfCustom (lit "shop"))) (fun q => match q with ProfCustom _ => [("sort_parsed_tags"%string, CBool false)] | ProfDefault => config_dict config_default | ProfGlobal => [] end))
    (mkConfig ProfDefault CAuto [42] false)
  /\ nothing_typed no_args /\ iad_try_from (0x0F :: 0xA5 :: repeat 0 14 ++ 0x0F :: repeat 0 15) <> Err NonCcdCompliant
  /\ declared 1 [(1, lit "Yes"); (0, lit "No")] /\ variant_of_N [(1, lit "Yes"); (0, lit "No")] 0 = Some 1%nat.
Proof.
  split; [apply (proj1 (C119_read _ _ (mkConfig ProfDefault CAuto [42] false))); vm_compute; reflexivity|].
  split; [repeat split; intros a T; apply typed_iff in T; destruct T as [T _]; discriminate T|]. split; [vm_compute; discriminate|]. split; [|reflexivity].
  split; [repeat constructor; intros K; cbn in K; intuition discriminate|]. intros v. cbn. lia.
Qed.
