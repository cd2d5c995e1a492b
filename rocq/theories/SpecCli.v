(** Specification of the command line: how the options are written, which command lines are
    accepted, and what they say. *)

From Coq Require Import NArith List String Bool.
From Verif Require Import Base ModelMain ModelCli SpecMain.
Import ListNotations.
Local Open Scope N_scope.

(** ** Spellings *)

Inductive option_name : Type :=
| OptHelp | OptVersion | OptColour | OptMasking | OptSort | OptNoSort | OptOperation (op : operation).

Definition spellings : list (option_name * list spelling) := [
  (OptHelp, [Short "h"; Short "?"; Long "help"]);
  (OptVersion, [Short "V"; Long "version"]);
  (OptColour, [Long "colour"; Long "color"]);
  (OptMasking, [Short "m"; Long "masking"; Long "masking-char"; Long "masking-character"]);
  (OptSort, [Long "sort"; Long "sort-parsed-tags"]);
  (OptNoSort, [Long "no-sort"; Long "no-sort-parsed-tags"]);
  (OptOperation OpIdentify, [Long "id"; Long "identify"]);
  (OptOperation OpAuto, [Short "a"; Long "auto"; Long "auto-tlv"; Long "parse"; Long "parse-tlv"]);
  (OptOperation OpBer, [Short "b"; Long "ber"; Long "ber-tlv"]);
  (OptOperation OpIngenico, [Short "i"; Long "ingenico"; Long "ingenico-tlv"]);
  (OptOperation OpTvr, [Short "t"; Long "tvr"; Long "iac"; Long "tac"; Long "95"]);
  (OptOperation OpIad, [Long "iad"; Long "ccd-iad"; Long "9F10"; Long "9f10"]);
  (OptOperation OpCvr, [Long "cvr"; Long "ccd-cvr"]);
  (OptOperation OpTsi, [Long "tsi"; Long "9B"; Long "9b"]);
  (OptOperation OpCvmResults, [Short "r"; Long "cvm-results"; Long "cvm-result"; Long "9F34"; Long "9f34"]);
  (OptOperation OpCvmList, [Long "cvm-list"; Long "8E"; Long "8e"]);
  (OptOperation OpServiceCode, [Long "service-code"; Long "5F30"; Long "5f30"])]%string.

Definition spells (n : option_name) (sp : spelling) : Prop := exists l, In (n, l) spellings /\ In sp l.

(** ** Accepted command lines *)

(* The values an option takes. *)
Definition takes (n : option_name) (vs : list str) : Prop :=
  match n with
  | OptHelp | OptVersion => vs = []
  | OptColour => exists v c x, vs = [v] /\ In (c, x) colour_names /\ v = lit x
  | OptMasking => vs <> [] /\ Forall (fun v => exists c, v = [c]) vs
  | OptSort | OptNoSort => vs = [] \/ vs = [lit "true"] \/ vs = [lit "false"]
  | OptOperation _ => exists v, vs = [v] /\ v <> []
  end.

Definition said (l : list occurrence) (n : option_name) (vs : list str) : Prop :=
  exists sp, In (sp, vs) l /\ spells n sp.
Definition present (l : list occurrence) (n : option_name) : Prop := exists vs, said l n vs.
Definition tlv_operation (op : operation) : Prop := op = OpAuto \/ op = OpBer \/ op = OpIngenico.

(* Nothing asks for help or the version. *)
Definition no_information (l : list occurrence) : Prop :=
  Forall (fun o => ~ spells OptHelp (fst o) /\ ~ spells OptVersion (fst o)) l.

Record acceptable (l : list occurrence) : Prop := mkAcceptable {
  acc_something : l <> [];
  acc_known : forall o, In o l -> exists n, spells n (fst o) /\ takes n (snd o);
  acc_once : forall l1 o l2 o' l3 n, l = l1 ++ o :: l2 ++ o' :: l3 -> spells n (fst o) -> spells n (fst o') -> n = OptMasking;
  acc_one_operation : forall op op', present l (OptOperation op) -> present l (OptOperation op') -> op = op';
  acc_sort : ~ (present l OptSort /\ present l OptNoSort);
  acc_tlv : forall n, n = OptMasking \/ n = OptSort \/ n = OptNoSort -> present l n ->
    exists op, tlv_operation op /\ present l (OptOperation op) }.

(** ** What they say *)

(* All masking characters in the order in which they are written. *)
Inductive masks_typed : list occurrence -> list N -> Prop :=
| masks_none : masks_typed [] []
| masks_here sp vs l cs : spells OptMasking sp -> masks_typed l cs -> masks_typed ((sp, vs) :: l) (List.concat vs ++ cs)
| masks_other o l cs : ~ spells OptMasking (fst o) -> masks_typed l cs -> masks_typed (o :: l) cs.

(* A switch: without a value it means yes. *)
Definition switch (l : list occurrence) (n : option_name) (b : bool) : Prop :=
  if b then said l n [] \/ said l n [lit "true"] else said l n [lit "false"].

Record describes (l : list occurrence) (m : matches) : Prop := mkDescribes {
  des_operations : forall op s, given m op = Some s <-> said l (OptOperation op) [s];
  des_colour : forall s, typed (m_colour m) s <-> said l OptColour [s];
  des_masking : forall cs, typed (m_masking m) cs <-> present l OptMasking /\ masks_typed l cs;
  des_sort : forall b, typed (m_sort m) b <-> switch l OptSort b;
  des_no_sort : forall b, typed (m_no_sort m) b <-> switch l OptNoSort b }.

(* The settings the command line asks for. *)
Inductive requests (l : list occurrence) : layer :=
| requests_colour c n : In (c, n) colour_names -> said l OptColour [lit n] -> requests l "cli_colour"%string (CStr (lit n))
| requests_masking cs : present l OptMasking -> masks_typed l cs -> requests l "masking_characters"%string (CArr (map CChar cs))
| requests_sort b : switch l OptSort b -> requests l "sort_parsed_tags"%string (CBool b)
| requests_no_sort b : switch l OptNoSort b -> requests l "sort_parsed_tags"%string (CBool (negb b)).
(* The layers of [SpecMain.layers], with the command line itself as the strongest one. *)
Definition program_layers (e : environment) (file : profile -> dict) (l : list occurrence) : list layer :=
  requests l :: says (e_vars e) :: says (file ProfGlobal) :: selected_layers e file ++ [says (file ProfDefault); says built_in].
