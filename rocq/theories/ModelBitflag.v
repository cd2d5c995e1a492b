(** Model of the [bitflag_value!] macro (src/macros.rs:247-419) as an interpreter over
    declarations, and of the types in src/emv/bitflag_values.rs:17-66. *)

From Coq Require Import NArith List String Bool.
From Verif Require Import Base ModelUtil ModelEnums.
Import ListNotations.
Local Open Scope N_scope.

(* src/emv/bitflag_values.rs:33-38 ([Severity]) *)
Inductive severity : Type := SevNormal | SevWarning | SevError.

(* src/emv/bitflag_values.rs:23-30 ([EnabledBitRange]) *)
Record bit_range : Type := mkRange {
  r_offset : N; r_len : N; r_text : str; r_sev : severity }.

(* The field types ($typ of the macro) that occur in the source (src/macros.rs:260, 350-365). *)
Inductive ftype : Type :=
| TBool | TU8 | TGenAc1 | TGenAc2 | TFormatCode | TCryptogramVersion | TCvMethod | TCvmCondition.

(* Field values.  [VCvMethod]/[VCvmCondition] carry the inner option of
   [OptionalCvMethod]/[OptionalCvmCondition] (src/emv/cv_rule/cv_method.rs:28-32,
   src/emv/cv_rule/cvm_condition.rs:46-51). *)
Inductive fval : Type :=
| VBool (b : bool)
| VU8 (n : N)
| VGenAc1 (x : gen_ac1_application_cryptogram_type)
| VGenAc2 (x : gen_ac2_application_cryptogram_type)
| VFormatCode (x : format_code)
| VCryptogramVersion (x : cryptogram_version)
| VCvMethod (x : option cv_method)
| VCvmCondition (x : option cvm_condition).

(* One field declaration: [pub name: type = mask => text] or
   [= (mask >> shift) => (severity, text)] (src/macros.rs:259-261). *)
Record field : Type := mkField {
  f_name : string; f_type : ftype; f_mask : N; f_shift : option N; f_sev : severity; f_text : string }.

(* A struct declaration: $byte_count and the ($byte_num, fields) blocks (src/macros.rs:253-265). *)
Record schema : Type := mkSchema { s_count : N; s_blocks : list (N * list field) }.

(* [Result::ok]
   (used by src/emv/cv_rule/cv_method.rs:48-55, src/emv/cv_rule/cvm_condition.rs:67-74). *)
Definition ok_opt {A : Type} (r : res A) : option A :=
  match r with Ok a => Some a | _ => None end.

(* src/macros.rs:360-365: [<$typ>::try_from(value)] for a non-bool, non-u8 type.
   For the optional types this is the blanket [TryFrom] of their [From<u8>]
   (src/emv/cv_rule/cv_method.rs:48-55, src/emv/cv_rule/cvm_condition.rs:67-74). *)
Definition typed_try_from (t : ftype) (v : N) : res fval :=
  match t with
  | TBool => Ok (VBool (0 <? v))
  | TU8 => Ok (VU8 v)
  | TGenAc1 => rmap VGenAc1 (gen_ac1_application_cryptogram_type_try_from v)
  | TGenAc2 => rmap VGenAc2 (gen_ac2_application_cryptogram_type_try_from v)
  | TFormatCode => rmap VFormatCode (format_code_try_from v)
  | TCryptogramVersion => rmap VCryptogramVersion (cryptogram_version_try_from v)
  | TCvMethod => Ok (VCvMethod (ok_opt (cv_method_try_from v)))
  | TCvmCondition => Ok (VCvmCondition (ok_opt (cvm_condition_try_from v)))
  end.

(* [u8::from(value)] for a field value; unknown optional codes give 0
   (src/emv/cv_rule/cv_method.rs:57-62, src/emv/cv_rule/cvm_condition.rs:76-81). *)
Definition fval_to_u8 (v : fval) : N :=
  match v with
  | VBool b => if b then 1 else 0
  | VU8 n => n
  | VGenAc1 x => gen_ac1_application_cryptogram_type_to_u8 x
  | VGenAc2 x => gen_ac2_application_cryptogram_type_to_u8 x
  | VFormatCode x => format_code_to_u8 x
  | VCryptogramVersion x => cryptogram_version_to_u8 x
  | VCvMethod o => match o with Some x => cv_method_to_u8 x | None => 0 end
  | VCvmCondition o => match o with Some x => cvm_condition_to_u8 x | None => 0 end
  end.

(* [Display] of a field value (src/emv/cv_rule/cv_method.rs:71-80,
   src/emv/cv_rule/cvm_condition.rs:90-99 for the optional types). *)
Definition fval_text (v : fval) : str :=
  match v with
  | VBool b => if b then lit "true" else lit "false"
  | VU8 n => dec n
  | VGenAc1 x => gen_ac1_application_cryptogram_type_text x
  | VGenAc2 x => gen_ac2_application_cryptogram_type_text x
  | VFormatCode x => format_code_text x
  | VCryptogramVersion x => cryptogram_version_text x
  | VCvMethod o => match o with
                   | Some x => cv_method_text x
                   | None => lit "Unknown (likely issuer or payment system-specific)"
                   end
  | VCvmCondition o => match o with
                       | Some x => cvm_condition_text x
                       | None => lit "Unknown (likely payment system-specific)"
                       end
  end.

(* [format!(text, arg)] for a text with at most one "{}" (true of all declarations)
   (src/macros.rs:407, 415). *)
Fixpoint format1 (s : str) (arg : str) : str :=
  match s with
  | 123 :: 125 :: t => arg ++ t
  | c :: t => c :: format1 t arg
  | [] => []
  end.

(** ** Parsing *)

(* src/macros.rs:303-309 ([USED_BITS_MASK]): per block, the or of the field masks. *)
Definition used_bits_mask (sch : schema) : list N :=
  map (fun b => fold_right (fun f acc => N.lor (f_mask f) acc) 0 (snd b)) (s_blocks sch).

(* src/macros.rs:289-291: masking each byte; indexing the mask may panic. *)
Fixpoint mask_bytes (bytes mask : list N) : res (list N) :=
  match bytes, mask with
  | [], _ => Ok []
  | _ :: _, [] => Panic
  | b :: bs, m :: ms => r <- mask_bytes bs ms;; Ok (N.land b m :: r)
  end.

(* src/macros.rs:350-365 ([@parse]) *)
Definition parse_field (bytes : list N) (byte_num : N) (f : field) : res fval :=
  b <- index bytes byte_num;;
  let v := N.land (f_mask f) b in
  match f_type f with
  | TBool => Ok (VBool (0 <? v))
  | t => typed_try_from t (match f_shift f with Some k => N.shiftr v k | None => v end)
  end.

(* src/macros.rs:293-297: the fields of one block. *)
Fixpoint parse_fields (bytes : list N) (byte_num : N) (fs : list field) : res (list fval) :=
  match fs with
  | [] => Ok []
  | f :: t => v <- parse_field bytes byte_num f;;
              r <- parse_fields bytes byte_num t;;
              Ok (v :: r)
  end.

(* src/macros.rs:293-297: all blocks. *)
Fixpoint parse_blocks (bytes : list N) (bs : list (N * list field)) : res (list fval) :=
  match bs with
  | [] => Ok []
  | (n, fs) :: t => v <- parse_fields bytes n fs;;
                    r <- parse_blocks bytes t;;
                    Ok (v ++ r)
  end.

(* src/macros.rs:278-298 ([TryFrom<&[u8]>]); the struct value is the list of its field
   values in declaration order. *)
Definition bf_try_from (sch : schema) (raw : list N) : res (list fval) :=
  if negb (len raw =? s_count sch)
  then Err (ByteCountIncorrect Eq (s_count sch) (len raw))
  else bytes <- mask_bytes raw (used_bits_mask sch);;
       parse_blocks bytes (s_blocks sch).

(** ** Serialising *)

(* src/macros.rs:367-380 ([@field_binary_repr]); [<<] on u8 drops the bits shifted out. *)
Definition field_repr (f : field) (v : fval) : N :=
  match f_type f, v with
  | TBool, VBool b => if b then f_mask f else 0
  | _, _ => match f_shift f with
            | Some k => N.shiftl (fval_to_u8 v) k mod 256
            | None => fval_to_u8 v
            end
  end.

(* The [|]-chain of one block; returns the values left for the following blocks
   (src/macros.rs:314-316). *)
Fixpoint block_repr (fs : list field) (vs : list fval) : N * list fval :=
  match fs, vs with
  | f :: fs', v :: vs' => let '(n, rest) := block_repr fs' vs' in (N.lor (field_repr f v) n, rest)
  | _, _ => (0, vs)
  end.

(* src/macros.rs:311-319: all blocks. *)
Fixpoint blocks_repr (bs : list (N * list field)) (vs : list fval) : list N :=
  match bs with
  | [] => []
  | (_, fs) :: t => let '(n, rest) := block_repr fs vs in n :: blocks_repr t rest
  end.

(* src/macros.rs:311-319 ([get_binary_representation]) *)
Definition bf_repr (sch : schema) (vs : list fval) : list N := blocks_repr (s_blocks sch) vs.

(** ** Display information *)

(* [u8::leading_zeros], [u8::trailing_zeros] (for a non-zero argument), [u8::trailing_ones]
   (used at src/macros.rs:344, 347, 386). *)
Definition leading_zeros8 (m : N) : N := 8 - N.size m.
(* src/macros.rs:344: [trailing_zeros] of a non-zero number. *)
Fixpoint ctz_pos (p : positive) : N :=
  match p with xO q => 1 + ctz_pos q | _ => 0 end.
(* src/macros.rs:344: [u8::trailing_zeros]. *)
Definition trailing_zeros8 (m : N) : N := match m with 0 => 8 | Npos p => ctz_pos p end.
(* src/macros.rs:344, 347: [trailing_ones] of a non-zero number. *)
Fixpoint cto_pos (p : positive) : N :=
  match p with xI q => 1 + cto_pos q | xH => 1 | xO _ => 0 end.
(* src/macros.rs:344, 347: [u8::trailing_ones]. *)
Definition trailing_ones8 (m : N) : N := match m with 0 => 0 | Npos p => cto_pos p end.

(* src/macros.rs:386 (also 396, 405, 413) *)
Definition field_offset (count byte_num : N) (f : field) : N :=
  (7 - leading_zeros8 (f_mask f)) + (count - byte_num - 1) * 8.

(* src/macros.rs:342-348 ([@bit_len]) *)
Definition field_len (f : field) : N :=
  match f_shift f with
  | Some k => trailing_ones8 (N.shiftr (f_mask f) k)
  | None => trailing_ones8 (N.shiftr (f_mask f) (trailing_zeros8 (f_mask f)))
  end.

(* src/macros.rs:383-418 ([@display_field_bits]): a flag yields a range only when set;
   every other field always yields one. *)
Definition field_ranges (count byte_num : N) (f : field) (v : fval) : list bit_range :=
  match f_type f, v with
  | TBool, VBool false => []
  | TBool, _ => [mkRange (field_offset count byte_num f) (field_len f) (lit (f_text f)) (f_sev f)]
  | _, _ => [mkRange (field_offset count byte_num f) (field_len f)
                     (format1 (lit (f_text f)) (fval_text v)) (f_sev f)]
  end.

(* src/macros.rs:324-326: the fields of one block. *)
Fixpoint block_ranges (count byte_num : N) (fs : list field) (vs : list fval)
  : list bit_range * list fval :=
  match fs, vs with
  | f :: fs', v :: vs' => let '(r, rest) := block_ranges count byte_num fs' vs' in
                          (field_ranges count byte_num f v ++ r, rest)
  | _, _ => ([], vs)
  end.

(* src/macros.rs:321-329: all blocks. *)
Fixpoint blocks_ranges (count : N) (bs : list (N * list field)) (vs : list fval) : list bit_range :=
  match bs with
  | [] => []
  | (n, fs) :: t => let '(r, rest) := block_ranges count n fs vs in r ++ blocks_ranges count t rest
  end.

(* src/macros.rs:321-329 ([get_bit_display_information]) *)
Definition bf_ranges (sch : schema) (vs : list fval) : list bit_range :=
  blocks_ranges (s_count sch) (s_blocks sch) vs.

(** ** Field access *)

(* [value.name]: the fields of all blocks in declaration order (src/macros.rs:267-273). *)
Definition schema_fields (sch : schema) : list field := flat_map snd (s_blocks sch).
(* src/macros.rs:267-273: the value beside the name. *)
Fixpoint lookup_field (fs : list field) (vs : list fval) (name : string) : option fval :=
  match fs, vs with
  | f :: fs', v :: vs' => if String.eqb (f_name f) name then Some v else lookup_field fs' vs' name
  | _, _ => None
  end.
(* src/macros.rs:267-273: [value.name] of a parsed struct. *)
Definition get_field (sch : schema) (vs : list fval) (name : string) : option fval :=
  lookup_field (schema_fields sch) vs name.
