(** Model of writing to a stdout that may fail: Rust's standard stream ([io::Stdout], a
    [LineWriter] of 1024 bytes around file descriptor 1), [print!] and [eprintln!], as used
    through src/main.rs:121, src/util.rs:120-200 and the [display_breakdown]s.  The standard
    library's source is not part of the repository; this follows its behaviour since version
    1.46 (std/src/io/buffered). *)

From Coq Require Import NArith List String Bool.
From Verif Require Import Base ModelUtil ModelDisplay ModelMain ModelTerminal.
Import ListNotations.
Local Open Scope N_scope.

(* What a call of write(2) answers: how many bytes it takes, or an error.  Simplified: calls
   interrupted by a signal are repeated by std and not counted here
   (the calls behind src/main.rs:121, 163, 217). *)
Inductive answer : Type := Takes (n : N) | Fails.
(* The answers to all calls, the n-th call getting the n-th answer
   (the calls behind src/main.rs:121, 163, 217). *)
Definition device : Type := nat -> answer.

(* The bytes not yet written, those the device has taken, and the number of calls made
   (std [Stdout] behind src/main.rs:121, 163). *)
Record stream : Type := mkStream { s_buffer : list N; s_taken : list N; s_calls : nat }.
(* std [Stdout] behind src/main.rs:121, 163: before the first write. *)
Definition new_stream : stream := mkStream [] [] 0.
(* std [LineWriter::new] (std [Stdout] behind src/main.rs:121, 163). *)
Definition capacity : N := 1024.

(* std [Write::write_all] on the descriptor, and the loop of [BufWriter::flush_buf]: calls
   until everything is taken; a call that takes nothing is an error ([WriteZero]).  Returns
   what has not been taken and whether all went well.  The fuel is the number of bytes
   (behind src/main.rs:163). *)
Fixpoint raw_all (fuel : nat) (dev : device) (s : stream) (b : list N) : stream * list N * bool :=
  match b with
  | [] => (s, [], true)
  | _ :: _ =>
      match fuel with
      | O => (s, b, false)
      | S fuel =>
          let next := S (s_calls s) in
          match dev (s_calls s) with
          | Fails => (mkStream (s_buffer s) (s_taken s) next, b, false)
          | Takes 0 => (mkStream (s_buffer s) (s_taken s) next, b, false)
          | Takes n =>
              let k := N.to_nat (N.min n (len b)) in
              raw_all fuel dev (mkStream (s_buffer s) (s_taken s ++ firstn k b) next) (skipn k b)
          end
      end
  end.
(* std, behind src/main.rs:163: bytes that bypass the buffer. *)
Definition write_raw (dev : device) (s : stream) (b : list N) : stream * bool :=
  let '(s', _, ok) := raw_all (List.length b) dev s b in (s', ok).
(* std [BufWriter::flush_buf]: what is not taken stays in the buffer (behind src/main.rs:163). *)
Definition flush_buf (dev : device) (s : stream) : stream * bool :=
  let '(s', rest, ok) := raw_all (List.length (s_buffer s)) dev s (s_buffer s) in
  (mkStream rest (s_taken s') (s_calls s'), ok).
(* std, behind src/main.rs:163: bytes put into the buffer. *)
Definition push (s : stream) (b : list N) : stream := mkStream (s_buffer s ++ b) (s_taken s) (s_calls s).
(* std [BufWriter::write_all], [write_all_cold] (behind src/main.rs:163). *)
Definition buf_write_all (dev : device) (s : stream) (b : list N) : stream * bool :=
  let spare := capacity - len (s_buffer s) in
  if len b <? spare then (push s b, true)
  else
    let '(s, ok) := if spare <? len b then flush_buf dev s else (s, true) in
    if negb ok then (s, false)
    else if capacity <=? len b then write_raw dev s b
    else (push s b, true).
(* std [memrchr] for a line feed: everything up to and including the last one, and the rest
   (behind src/main.rs:163). *)
Fixpoint split_lines (b : list N) : option (list N * list N) :=
  match b with
  | [] => None
  | c :: r => match split_lines r with
              | Some (l, t) => Some (c :: l, t)
              | None => if c =? 10 then Some ([c], r) else None
              end
  end.
(* std [LineWriterShim::write_all], [flush_if_completed_line] (behind src/main.rs:163). *)
Definition line_write_all (dev : device) (s : stream) (b : list N) : stream * bool :=
  match split_lines b with
  | None =>
      let '(s, ok) := match rev (s_buffer s) with 10 :: _ => flush_buf dev s | _ => (s, true) end in
      if negb ok then (s, false) else buf_write_all dev s b
  | Some (lines, tail) =>
      let '(s, ok) :=
        match s_buffer s with
        | [] => write_raw dev s lines
        | _ => let '(s, ok) := buf_write_all dev s lines in if negb ok then (s, false) else flush_buf dev s
        end in
      if negb ok then (s, false) else buf_write_all dev s tail
  end.

(* The writes of an event: [print!] writes the pieces its arguments are formatted into and
   panics at the first failure; [set_color] and [reset] write one sequence per attribute and
   stop at the first failure, which the program ignores ([.ok()])
   (src/main.rs:160-164 and the [display_breakdown]s). *)
Inductive action : Type := Print (pieces : list (list N)) | Colour (pieces : list (list N)).
(* termcolor [Ansi::set_color], [Ansi::reset]; the pieces of ModelTerminal.write_spec
   (src/main.rs:160, 162). *)
Definition spec_pieces (c : color_spec) : list (list N) :=
  [write_reset] ++ (if cs_bold c then [[27; 91; 49; 109]] else [])
  ++ (match cs_fg c with Some f => [write_fg f] | None => [] end).
(* How the text of a [print!] is cut into pieces is left open (src/main.rs:160-164). *)
Inductive acts (colours : bool) : event -> action -> Prop :=
| acts_text s ps : List.concat ps = utf8 s -> acts colours (Txt s) (Print ps)
| acts_colour c : acts colours (SetColor c) (Colour (if colours then spec_pieces c else []))
| acts_reset : acts colours ResetColor (Colour (if colours then [write_reset] else [])).

(* src/main.rs:160-164: the writes of one action. *)
Fixpoint write_pieces (dev : device) (s : stream) (ps : list (list N)) : stream * bool :=
  match ps with
  | [] => (s, true)
  | b :: ps => let '(s, ok) := line_write_all dev s b in if ok then write_pieces dev s ps else (s, false)
  end.
(* false: a [print!] has panicked, and nothing after it has happened (src/main.rs:160-164). *)
Fixpoint perform (dev : device) (s : stream) (l : list action) : stream * bool :=
  match l with
  | [] => (s, true)
  | Print ps :: l => let '(s, ok) := write_pieces dev s ps in if ok then perform dev s l else (s, false)
  | Colour ps :: l => perform dev (fst (write_pieces dev s ps)) l
  end.

(* [eprintln!] on the unbuffered stderr; src/main.rs:217. *)
Fixpoint write_stderr (dev : device) (s : stream) (ps : list (list N)) : stream * bool :=
  match ps with
  | [] => (s, true)
  | b :: ps => let '(s, ok) := write_raw dev s b in if ok then write_stderr dev s ps else (s, false)
  end.

(* A run with given outcome: what stdout and stderr take, and the exit status.  When the
   process ends, normally or after a panic, std flushes stdout once more and ignores errors.
   Simplified: std's own message about a panic is left out (src/main.rs:103-219). *)
Record delivery : Type := mkDelivery { d_stdout : list N; d_stderr : list N; d_status : N }.
(* src/main.rs:103-219: a run on given devices. *)
Definition deliver (out err : device) (o : outcome) (actions : list action) (message : list (list N)) : delivery :=
  let '(s, printed) := perform out new_stream actions in
  let taken := s_taken (fst (flush_buf out s)) in
  if negb printed then mkDelivery taken [] 101
  else if o_panic o then mkDelivery taken [] 101
  else let '(t, said) := write_stderr err new_stream message in
       mkDelivery taken (s_taken t) (if said then 0 else 101).
