(** Model of src/util.rs (the non-printing part) and of the [Display] impl in src/error.rs. *)

From Coq Require Import NArith List String Ascii Bool.
From Verif Require Import Base.
Import ListNotations.
Local Open Scope N_scope.

(** ** Decimal input *)

(* Unicode White_Space ([char::is_whitespace], used by [str::trim]) (src/util.rs:10). *)
Definition is_whitespace (c : N) : bool :=
  ((0x09 <=? c) && (c <=? 0x0D)) || (c =? 0x20) || (c =? 0x85) || (c =? 0xA0) || (c =? 0x1680)
  || ((0x2000 <=? c) && (c <=? 0x200A)) || (c =? 0x2028) || (c =? 0x2029) || (c =? 0x202F)
  || (c =? 0x205F) || (c =? 0x3000).

(* src/util.rs:10: white space in front. *)
Fixpoint trim_start (s : str) : str :=
  match s with
  | c :: t => if is_whitespace c then trim_start t else s
  | [] => []
  end.

(* std [str::trim] (src/util.rs:10). *)
Definition trim (s : str) : str := rev (trim_start (rev (trim_start s))).

(* The digit loop of std [u16::from_str]: fails on a non-digit or when the running
   value leaves the u16 range.  The digits are read from the UTF-8 bytes in std; a
   multi-byte character contains no digit byte, so reading characters is equivalent
   (src/util.rs:10). *)
Fixpoint u16_digits (s : str) (acc : N) : option N :=
  match s with
  | [] => Some acc
  | c :: t => if (48 <=? c) && (c <=? 57)
              then let v := acc * 10 + (c - 48) in
                   if v <? 65536 then u16_digits t v else None
              else None
  end.

(* std [str::parse::<u16>]: empty input and a lone sign are errors, a leading '+' is
   allowed ('-' is not, since the type is unsigned) (src/util.rs:10). *)
Definition u16_from_str (s : str) : option N :=
  match s with
  | [] => None
  | [43] => None
  | 43 :: t => u16_digits t 0
  | _ => u16_digits s 0
  end.

(* src/util.rs:9-11 *)
Definition parse_str_to_u16 (s : str) : res N :=
  match u16_from_str (trim s) with
  | Some n => Ok n
  | None => Err InvalidNumber
  end.

(** ** Hex input *)

(* src/util.rs:22-27: the closure of [filter_map]. *)
Definition hex_nibble (b : N) : option N :=
  if (48 <=? b) && (b <=? 57) then Some (b - 48)
  else if (97 <=? b) && (b <=? 102) then Some (b - 97 + 10)
  else if (65 <=? b) && (b <=? 70) then Some (b - 65 + 10)
  else None.

(* src/util.rs:22: [Iterator::filter_map]. *)
Fixpoint filter_map {A B : Type} (f : A -> option B) (l : list A) : list B :=
  match l with
  | [] => []
  | x :: t => match f x with
              | Some y => y :: filter_map f t
              | None => filter_map f t
              end
  end.

(* src/util.rs:31-33: [while let (Some(h), Some(l)) = (next(), next())] on a fused
   iterator. *)
Fixpoint pair_nibbles (ns : list N) : list N :=
  match ns with
  | h :: l :: t => N.lor (N.shiftl h 4) l :: pair_nibbles t
  | _ => []
  end.

(* src/util.rs:18-35 *)
Definition parse_hex_str (s : str) : list N := pair_nibbles (filter_map hex_nibble (utf8 s)).

(* src/util.rs:40: the pattern of [matches!]. *)
Definition is_hex_byte (b : N) : bool :=
  ((48 <=? b) && (b <=? 57)) || ((97 <=? b) && (b <=? 102)) || ((65 <=? b) && (b <=? 70)).

(* src/util.rs:38-46; [c as u8] truncates to the low 8 bits. *)
Definition parse_hex_str_strict (s : str) : res (list N) :=
  if negb (is_ascii s) || existsb (fun c => negb (is_hex_byte (c mod 256))) s
  then Err InvalidBytes
  else Ok (parse_hex_str s).

(** ** Integers from bytes *)

(* [v[i] = x] on a fixed-size array: panics when out of bounds (src/util.rs:59, 76). *)
Fixpoint set_nth {A : Type} (l : list A) (i : nat) (x : A) : res (list A) :=
  match l, i with
  | [], _ => Panic
  | _ :: t, O => Ok (x :: t)
  | a :: t, S j => r <- set_nth t j x;; Ok (a :: r)
  end.

(* [u32::from_be_bytes]/[u64::from_be_bytes] (src/util.rs:62, 79). *)
Definition from_be_bytes (l : list N) : N := fold_left (fun acc b => acc * 256 + b) l 0.

(* src/util.rs:58-60 (and 75-77): the copying loop, for i in i0 .. i0+n. *)
Fixpoint copy_loop (width total : nat) (src : list N) (i0 n : nat) (arr : list N) : res (list N) :=
  match n with
  | O => Ok arr
  | S n' => b <- index src (N.of_nat i0);;
            arr' <- set_nth arr ((width - total) + i0) b;;
            copy_loop width total src (S i0) n' arr'
  end.

(* src/util.rs:53-63 ([width] = 4) and src/util.rs:70-80 ([width] = 8). *)
Definition byte_slice_to_uint (width : nat) (l : list N) : res N :=
  let n := List.length l in
  if Nat.leb n width
  then arr <- copy_loop width n l 0 n (repeat 0 width);; Ok (from_be_bytes arr)
  else Panic.
(* src/util.rs:53-63: [byte_slice_to_u32]. *)
Definition byte_slice_to_u32 (l : list N) : res N := byte_slice_to_uint 4 l.
(* src/util.rs:70-80: [byte_slice_to_u64]. *)
Definition byte_slice_to_u64 (l : list N) : res N := byte_slice_to_uint 8 l.

(** ** Hex output *)

(* src/util.rs:84-90; the [unreachable!] arm is a panic. *)
Definition nibble_to_char (n : N) : res N :=
  if n <=? 9 then Ok (n + 0x30)
  else if n <=? 15 then Ok ((n - 10) + 0x41)
  else Panic.

(* src/util.rs:83-98; [bytes.len() * 2] only sizes the allocation and cannot overflow
   (a Vec holds at most isize::MAX bytes). *)
Fixpoint bytes_to_str (l : list N) : res str :=
  match l with
  | [] => Ok []
  | b :: t => hi <- nibble_to_char (N.shiftr (N.land 0xF0 b) 4);;
              lo <- nibble_to_char (N.land 0x0F b);;
              r <- bytes_to_str t;;
              Ok (hi :: lo :: r)
  end.

(* src/util.rs:102-110 *)
Fixpoint trim_leading_0_bytes (l : list N) : list N :=
  match l with
  | [] => []
  | b :: t => match t with
              | [] => l
              | _ :: _ => if b =? 0 then trim_leading_0_bytes t else l
              end
  end.

(* src/util.rs:116-118: number of elements of n, n/10, ... while the current one is
   at least 10.  A u32 needs at most 10 steps; fuel 40 is generous. *)
Fixpoint num_dec_digits_fuel (fuel : nat) (n : N) : N :=
  match fuel with
  | O => 0
  | S f => if 10 <=? n then 1 + num_dec_digits_fuel f (n / 10) else 1
  end.
(* src/util.rs:116-118: [num_dec_digits]; a [u32] has at most ten digits. *)
Definition num_dec_digits (n : N) : N := num_dec_digits_fuel 40 n.

(** ** Decimal output (std integer [Display]) *)

(* src/error.rs:62-63 and other [{}] of integers: the digits. *)
Fixpoint dec_fuel (fuel : nat) (n : N) (acc : str) : str :=
  match fuel with
  | O => acc
  | S f => let acc' := (48 + n mod 10) :: acc in
           if n <? 10 then acc' else dec_fuel f (n / 10) acc'
  end.
(* std [Display] of an unsigned integer (at most 64 bits in the code): fuel by binary size
   (src/error.rs:62-63 and other [{}] of integers). *)
Definition dec (n : N) : str := dec_fuel (S (N.to_nat (N.size n))) n [].

(* [{:0>w$}]: pad on the left with '0' to width [w]
   (src/emv/cvm_list.rs:92, 102, src/non_emv/service_code.rs:129). *)
Definition pad0 (w : N) (s : str) : str := repeat 48 (N.to_nat w - List.length s) ++ s.

(* [{:X}] digits and [{byte:0>2X}] (src/util.rs:141, 163, 195). *)
Definition hex_digit_upper (n : N) : N := if n <? 10 then 48 + n else 55 + n.
(* src/util.rs:141, 163, 195: [{byte:0>2X}]. *)
Definition hex2 (b : N) : str := [hex_digit_upper (b / 16); hex_digit_upper (b mod 16)].

(** ** Error messages *)

(* src/error.rs:46-98 *)
Definition error_text (e : parse_error) : str :=
  match e with
  | ByteCountIncorrect ty expected found =>
      lit "The wrong number of bytes were provided for the value. Perhaps you provided the wrong value? Expected: "
      ++ match ty with
         | Lt => lit "less than or equal to"
         | Eq => lit "exactly"
         | Gt => lit "greater than or equal to"
         end
      ++ lit " " ++ dec expected ++ lit ", Found: " ++ dec found
  | ByteCountNotDivisibleIntoComponents =>
      lit "The number of bytes provided is not divisible into the components of the value. Please check the format of the input data."
  | InvalidBytes => lit "The bytes provided are not valid."
  | InvalidNumber => lit "The value provided is not a valid number, or is too large."
  | NonCompliant =>
      lit "The value provided isn't compliant with the specifications in some way, or this tool is out of date. If you have reason to believe it's the latter, please make sure you're using the latest version then open an issue on GitHub."
  | NonCcdCompliant =>
      lit "The value provided isn't compliant with the EMV Common Core Definitions (CCD) in some way. This isn't a problem necessarily, but it does mean that the value can't be parsed."
  | Unsupported =>
      lit "The value provided is in some way unsupported. If you have genuine need for the unsupported feature, please open an issue on GitHub."
  | Unrecognised =>
      lit "The value provided is in some way unrecognised. This isn't a problem necessarily, but it does mean that the value can't be parsed."
  end.
