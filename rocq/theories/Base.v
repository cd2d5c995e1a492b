(** Shared vocabulary of the model: results with explicit panics, bytes, text,
    the target platform and the Rust primitives (checked [usize] arithmetic,
    indexing and slicing) that the modelled code relies on. *)

From Coq Require Import NArith List String Ascii Bool.
Import ListNotations.
Local Open Scope N_scope.

(* src/error.rs:10-34 ([ParseError]).  [std::cmp::Ordering] is Coq's [comparison]
   (Less = Lt, Equal = Eq, Greater = Gt); [usize] fields are [N]. *)
Inductive parse_error : Type :=
| ByteCountIncorrect (ty : comparison) (expected found : N)
| ByteCountNotDivisibleIntoComponents
| InvalidBytes
| InvalidNumber
| NonCompliant
| NonCcdCompliant
| Unsupported
| Unrecognised.

(* Outcome of running a Rust function that returns [Result<A, ParseError>]:
   [Ok]/[Err] as in Rust; [Panic] when the thread panics; [NoFuel] when the fuel
   of a modelled loop ran out (never happens for the fuel supplied by the model:
   see the termination theorems) (src/error.rs:10-34). *)
Inductive res (A : Type) : Type :=
| Ok (a : A)
| Err (e : parse_error)
| Panic
| NoFuel.
Arguments Ok {A} a.
Arguments Err {A} e.
Arguments Panic {A}.
Arguments NoFuel {A}.

(* The [?] operator / sequencing (e.g. src/emv/tlv_parsing/mod.rs:91). *)
Definition bind {A B : Type} (r : res A) (k : A -> res B) : res B :=
  match r with
  | Ok a => k a
  | Err e => Err e
  | Panic => Panic
  | NoFuel => NoFuel
  end.
Notation "x <- r ;; k" := (bind r (fun x => k)) (at level 61, r at next level, right associativity).

(* [Result::map_err(|_| e)] (e.g. src/util.rs:10). *)
Definition map_err {A : Type} (r : res A) (e : parse_error) : res A :=
  match r with
  | Err _ => Err e
  | r => r
  end.

(* [Result::expect]/[unwrap]: an [Err] becomes a panic (e.g. src/emv/tlv_parsing/ber_tlv.rs:90). *)
Definition expect {A : Type} (r : res A) : res A :=
  match r with
  | Err _ => Panic
  | r => r
  end.

(* [Result::map] (e.g. src/main.rs:127). *)
Definition rmap {A B : Type} (f : A -> B) (r : res A) : res B := bind r (fun a => Ok (f a)).

(** ** Bytes and text *)

(* A Rust [u8]; theorems constrain inputs with [is_byte] (e.g. src/util.rs:18). *)
Definition is_byte (b : N) : Prop := b < 256.
(* e.g. src/util.rs:18: a [Vec<u8>] or [&[u8]]. *)
Definition bytes_ok (l : list N) : Prop := Forall is_byte l.

(* A Rust [char] is a Unicode scalar value; [String]/[&str] are sequences of them
   (e.g. src/util.rs:9). *)
Definition str := list N.
(* e.g. src/util.rs:9: a [char]. *)
Definition is_scalar (c : N) : Prop := c < 0xD800 \/ (0xE000 <= c /\ c < 0x110000).
(* e.g. src/util.rs:9: a [String] or [&str]. *)
Definition str_ok (s : str) : Prop := Forall is_scalar s.

(* A string literal of the source (ASCII only) (e.g. src/main.rs:161). *)
Definition lit (s : string) : str := map N_of_ascii (list_ascii_of_string s).

(* The UTF-8 encoding of one [char] (std: [char::encode_utf8]) (src/util.rs:20). *)
Definition utf8_char (c : N) : list N :=
  if c <? 0x80 then [c]
  else if c <? 0x800 then [0xC0 + c / 64; 0x80 + c mod 64]
  else if c <? 0x10000 then [0xE0 + c / 4096; 0x80 + (c / 64) mod 64; 0x80 + c mod 64]
  else [0xF0 + c / 262144; 0x80 + (c / 4096) mod 64; 0x80 + (c / 64) mod 64; 0x80 + c mod 64].

(* [str::as_bytes] (src/util.rs:20). *)
Definition utf8 (s : str) : list N := flat_map utf8_char s.

(* [Vec::len], [slice::len] (e.g. src/emv/tlv_parsing/ber_tlv.rs:14). *)
Definition len {A : Type} (l : list A) : N := N.of_nat (List.length l).

(* [str::len]: the length in bytes (src/emv/tlv_parsing/mod.rs:536). *)
Definition str_len (s : str) : N := len (utf8 s).

(* [str::is_ascii] (src/util.rs:39, src/emv/tlv_parsing/ingenico_tlv.rs:30). *)
Definition is_ascii (s : str) : bool := forallb (fun b => b <? 128) (utf8 s).

(** ** Target platform and [usize] arithmetic *)

(* The pointer width and whether integer overflow is checked (debug profile) or
   wraps (release profile; Cargo.toml does not override the defaults). *)
Record platform : Type := { usize_bits : N; overflow_checks : bool }.

(* e.g. src/emv/tlv_parsing/ber_tlv.rs:61: one more than [usize::MAX]. *)
Definition usize_limit (p : platform) : N := 2 ^ usize_bits p.

(* Result of an operation with mathematical value [v] in an unsigned type with
   [limit] values (e.g. src/emv/tlv_parsing/ber_tlv.rs:61). *)
Definition checked (p : platform) (limit v : N) : res N :=
  if v <? limit then Ok v
  else if overflow_checks p then Panic
  else Ok (v mod limit).

(* [usize] addition and multiplication
   (e.g. src/emv/tlv_parsing/ber_tlv.rs:61, src/emv/tlv_parsing/ingenico_tlv.rs:100). *)
Definition uadd (p : platform) (a b : N) : res N := checked p (usize_limit p) (a + b).
(* src/emv/tlv_parsing/ingenico_tlv.rs:100: [usize] multiplication. *)
Definition umul (p : platform) (a b : N) : res N := checked p (usize_limit p) (a * b).

(* [u8] addition (used for indentation and bit offsets)
   (src/emv/bitflag_values.rs:124, src/emv/tlv_parsing/mod.rs:140, 369). *)
Definition u8_add (p : platform) (a b : N) : res N := checked p 256 (a + b).

(** ** Indexing and slicing *)

(* [v[i]]: panics when out of bounds (e.g. src/emv/tlv_parsing/ber_tlv.rs:20). *)
Definition index {A : Type} (l : list A) (i : N) : res A :=
  match nth_error l (N.to_nat i) with
  | Some a => Ok a
  | None => Panic
  end.

(* [v[a..b]]: panics when a > b or b > len (e.g. src/emv/tlv_parsing/ber_tlv.rs:66). *)
Definition slice {A : Type} (l : list A) (a b : N) : res (list A) :=
  if (a <=? b) && (b <=? len l)
  then Ok (firstn (N.to_nat (b - a)) (skipn (N.to_nat a) l))
  else Panic.

(* [v[a..=b]]: is [v[a..b+1]]; with b = usize::MAX it panics, as [slice] does since
   no slice is that long (src/emv/tlv_parsing/ber_tlv.rs:55, 73). *)
Definition slice_incl {A : Type} (l : list A) (a b : N) : res (list A) := slice l a (b + 1).

(* [v[a..]] (src/emv/cvm_list.rs:48). *)
Definition slice_from {A : Type} (l : list A) (a : N) : res (list A) := slice l a (len l).

(* Characters of [s] whose encoding starts at byte offset [i] or later; panics when
   [i] is past the end or not on a character boundary (src/emv/tlv_parsing/ingenico_tlv.rs:47). *)
Fixpoint str_skip (s : str) (i : N) : res str :=
  if i =? 0 then Ok s
  else match s with
       | [] => Panic
       | c :: t => let w := len (utf8_char c) in
                   if w <=? i then str_skip t (i - w) else Panic
       end.

(* Characters of [s] whose encoding ends at byte offset [i] or earlier; panics as above
   (src/emv/tlv_parsing/ingenico_tlv.rs:51). *)
Fixpoint str_take (s : str) (i : N) : res str :=
  if i =? 0 then Ok []
  else match s with
       | [] => Panic
       | c :: t => let w := len (utf8_char c) in
                   if w <=? i then r <- str_take t (i - w);; Ok (c :: r) else Panic
       end.

(* [&s[a..]] and [&s[a..b]] on a [str]: offsets are in bytes
   (src/emv/tlv_parsing/ingenico_tlv.rs:47, 62). *)
Definition str_slice_from (s : str) (a : N) : res str := str_skip s a.
(* src/emv/tlv_parsing/ingenico_tlv.rs:51, 66, 88, 105: [&s[a..b]]. *)
Definition str_slice (s : str) (a b : N) : res str :=
  if a <=? b then r <- str_take s b;; str_skip r a else Panic.

(* [str::find(char)]: byte offset of the first occurrence
   (src/emv/tlv_parsing/ingenico_tlv.rs:47, 62). *)
Fixpoint str_find (s : str) (c : N) : option N :=
  match s with
  | [] => None
  | x :: t => if x =? c then Some 0
              else match str_find t c with
                   | Some i => Some (len (utf8_char x) + i)
                   | None => None
                   end
  end.

(* [slice::chunks(n)] for n > 0 (panics for n = 0, see callers): consecutive pieces of
   n elements, the last one possibly shorter.  Fuel = length (src/util.rs:131, 153). *)
Fixpoint chunks_fuel {A : Type} (fuel : nat) (n : nat) (l : list A) : list (list A) :=
  match fuel, l with
  | _, [] => []
  | O, _ => []
  | S f, _ => firstn n l :: chunks_fuel f n (skipn n l)
  end.
(* src/util.rs:131, 153: [slice::chunks]. *)
Definition chunks {A : Type} (n : nat) (l : list A) : list (list A) :=
  chunks_fuel (List.length l) n l.

(* Equality of byte/char sequences ([==] on slices and strings)
   (e.g. src/emv/tlv_parsing/mod.rs:176). *)
Fixpoint leqb (a b : list N) : bool :=
  match a, b with
  | [], [] => true
  | x :: a', y :: b' => (x =? y) && leqb a' b'
  | _, _ => false
  end.
