(** Model of code that the program never calls: [Config] as a figment provider and
    [Config::try_from] (src/config/mod.rs), the comparison of format data with format codes
    (src/emv/ccd/iad.rs), the conversions of the optional types (src/emv/cv_rule), [From<Infallible>]
    (src/error.rs) and [enum_repr_infallible!] (src/macros.rs). *)

From Coq Require Import NArith List String Bool.
From Verif Require Import Base ModelUtil ModelEnums ModelBitflag ModelSchemas ModelTags ModelTlv
  ModelValues ModelProcess ModelDisplay ModelMain.
Import ListNotations.
Local Open Scope N_scope.

(** ** Configuration *)

(* src/config/mod.rs:28-36 *)
Record config : Type := mkConfig { cf_profile : profile; cf_colour : colour_choice; cf_masking : list N; cf_sort : bool }.
(* src/config/mod.rs:38-47 *)
Definition config_default : config := mkConfig ProfDefault colour_choice_default [42] true.
(* figment [Provider]: the profile it asks for and one dictionary per profile, or a failure
   (src/config/mod.rs:90-102).  Simplified: no metadata. *)
Record provider : Type := mkProvider { pv_profile : option profile; pv_data : option (profile -> dict) }.
(* The derived [Serialize] (src/config/mod.rs:29); the profile is skipped (31). *)
Definition config_dict (c : config) : dict :=
  [("cli_colour"%string, CStr (colour_choice_text (cf_colour c)));
   ("masking_characters"%string, CArr (map CChar (cf_masking c)));
   ("sort_parsed_tags"%string, CBool (cf_sort c))].
(* src/config/mod.rs:90-102; [Serialized::defaults] fills the default profile. *)
Definition config_provider (c : config) : provider :=
  mkProvider (Some (cf_profile c)) (Some (fun q => if profile_eqb q ProfDefault then config_dict c else [])).
(* figment's own [Provider] implementation for [Figment]: its profile and its values
   (src/config/mod.rs:61). *)
Definition figment_provider (f : figment) : provider := mkProvider (Some (fg_profile f)) (fg_values f).
(* figment [Figment::from]: an empty figment merged with the provider, whose profile, if any, is
   selected (src/config/mod.rs:65). *)
Definition figment_from (v : provider) : figment :=
  let f := fg_merge_all fg_empty (pv_data v) in
  match pv_profile v with Some pr => fg_select f pr | None => f end.
(* The derived [Deserialize] (src/config/mod.rs:29): every field is needed except the skipped
   profile, which becomes [Profile::default()]; other keys are ignored. *)
Definition config_of_dict (d : dict) : option config :=
  match extract_colour (dict_get d "cli_colour"), extract_masking (dict_get d "masking_characters"), extract_bool (dict_get d "sort_parsed_tags") with
  | Some c, Some k, Some s => Some (mkConfig ProfDefault c k s)
  | _, _, _ => None
  end.
(* src/config/mod.rs:61-66; which [FigmentError] is not modelled. *)
Definition config_try_from (v : provider) : option config :=
  match fg_merged (figment_from v) with Some d => config_of_dict d | None => None end.

(** ** Format codes *)

(* src/emv/ccd/iad.rs:89-95; the data are those of format A, the only format. *)
Definition format_data_eq_code (d : iad) (c : format_code) : bool := format_code_to_u8 c =? format_code_to_u8 FormatCode_A.
(* src/emv/ccd/iad.rs:96-100 *)
Definition code_eq_format_data (c : format_code) (d : iad) : bool := format_data_eq_code d c.

(** ** Errors *)

(* src/error.rs:39-43; there is no value to convert. *)
Definition parse_error_from_infallible (x : Empty_set) : parse_error := match x with end.

(** ** Enums that cover every value *)

(* A variant of [enum_repr_infallible!] is its place in the declaration, a list of values and
   texts; [N_of_variant] is [value as $typ], [text_of_variant] the [Display] (src/macros.rs:200-232). *)
Definition infallible_enum := list (N * str).
(* src/macros.rs:210-216: the first arm that matches; [None] if no arm does, which the compiler
   does not let happen. *)
Fixpoint variant_of_N (e : infallible_enum) (v : N) : option nat :=
  match e with
  | [] => None
  | (k, _) :: t => if v =? k then Some 0%nat else option_map S (variant_of_N t v)
  end.
(* src/macros.rs:218-222 *)
Definition N_of_variant (e : infallible_enum) (i : nat) : option N := option_map fst (nth_error e i).
(* src/macros.rs:224-232 *)
Definition text_of_variant (e : infallible_enum) (i : nat) : option str := option_map snd (nth_error e i).
