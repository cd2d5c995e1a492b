(** Running on a limited stack.  The functions that call themselves can have only so many calls open at the same time;
    one call more and the operating system kills the process: no unwinding, no message, and what has been printed
    before stays printed.  Simplified: the stack is given as a number of open calls for each of the recursive functions,
    as if all calls of one function needed the same space; freeing a tree (also recursive) is taken to need no more space
    than reading it; what std holds back in its buffer of stdout (less than a line) counts as printed. *)

From Coq Require Import NArith List String Bool.
From Verif Require Import Base ModelUtil ModelEnums ModelTlv ModelProcess ModelDisplay ModelMain ModelCost.
Import ListNotations.
Local Open Scope N_scope.

(* How many calls can be open: of [parse] (src/emv/tlv_parsing/ber_tlv.rs:13-85, src/emv/tlv_parsing/ingenico_tlv.rs:28-139),
   of [ProcessedEmvBlock::try_from], [sort_nodes] and [display_breakdown] (src/emv/tlv_parsing/mod.rs:85-96, 57-62, 65-83). *)
Record room : Type := mkRoom { r_parse : N; r_process : nat; r_sort : nat; r_display : nat }.

(* None: killed. *)
(* src/emv/tlv_parsing/ber_tlv.rs:13-85; [ber_parse_run] counts the calls. *)
Definition ber_within (r : room) (p : platform) (masks bytes : list N) : option (res (list raw_node)) :=
  let x := ber_parse_run p masks bytes in if snd (snd x) <=? r_parse r then Some (fst x) else None.
(* src/emv/tlv_parsing/ingenico_tlv.rs:28-139 *)
Definition ingenico_within (r : room) (p : platform) (masks : list N) (s : str) : option (res (list raw_node)) :=
  let x := ingenico_parse_run p masks s in if snd (snd x) <=? r_parse r then Some (fst x) else None.
(* src/emv/tlv_parsing/auto_tlv.rs:16-39 *)
Definition auto_within (r : room) (p : platform) (masks : list N) (s : str) : option (res (tlv_format * list raw_node)) :=
  match s with
  | [] => Some (Err Unrecognised)
  | _ :: _ =>
      match ingenico_within r p masks s with
      | None => None
      | Some (Ok b) => Some (Ok (Ingenico, b))
      | Some Panic => Some Panic
      | Some NoFuel => Some NoFuel
      | Some (Err _) => match ber_within r p masks (parse_hex_str s) with
                        | None => None
                        | Some (Ok b) => Some (Ok (BerTlv, b))
                        | Some Panic => Some Panic
                        | Some NoFuel => Some NoFuel
                        | Some (Err _) => Some (Err Unrecognised)
                        end
      end
  end.

(* src/emv/tlv_parsing/ber_tlv.rs:13-85: [?] when the stack may run out. *)
Definition lbind {A B : Type} (x : option (res A)) (f : A -> option (res B)) : option (res B) :=
  match x with
  | None => None
  | Some (Ok a) => f a
  | Some (Err e) => Some (Err e)
  | Some Panic => Some Panic
  | Some NoFuel => Some NoFuel
  end.
(* src/emv/tlv_parsing/mod.rs:90-92: the loop when the stack may run out. *)
Definition lmap {A B : Type} (f : A -> option (res B)) : list A -> option (res (list B)) :=
  fix go (l : list A) : option (res (list B)) :=
    match l with
    | [] => Some (Ok [])
    | x :: t => lbind (f x) (fun y => lbind (go t) (fun ys => Some (Ok (y :: ys))))
    end.
(* src/emv/tlv_parsing/mod.rs:85-96 and 145-154: a call for every child block, also for empty ones. *)
Fixpoint process_within (k : nat) (l : list raw_node) : option (res (list pnode)) :=
  match k with
  | O => None
  | S k => lmap (fun n => match n with
                          | RawNode t c => lbind (Some (process_emv_tag t)) (fun pt =>
                                             lbind (process_within k c) (fun cs => Some (Ok (PNode pt cs))))
                          end) l
  end.

(* src/emv/tlv_parsing/mod.rs:59-61: the loop when the stack may run out. *)
Definition omap {A B : Type} (f : A -> option B) : list A -> option (list B) :=
  fix go (l : list A) : option (list B) :=
    match l with
    | [] => Some []
    | x :: t => match f x, go t with Some y, Some ys => Some (y :: ys) | _, _ => None end
    end.
(* src/emv/tlv_parsing/mod.rs:57-62: the same. *)
Fixpoint sort_within (k : nat) (l : list pnode) : option (list pnode) :=
  match k with
  | O => None
  | S k => omap (fun n => option_map (PNode (pnode_tag n)) (sort_within k (pnode_children n))) (stable_sort l)
  end.

(* Output, and whether the process was killed (src/emv/tlv_parsing/mod.rs:119-143). *)
Definition kdisp : Type := disp * bool.
(* src/emv/tlv_parsing/mod.rs:119-143: output of code that needs no more stack. *)
Definition alive (d : disp) : kdisp := (d, false).
(* src/emv/tlv_parsing/mod.rs:119-143: the stack has run out. *)
Definition killed : kdisp := (dnil, true).
(* src/emv/tlv_parsing/mod.rs:119-143: sequencing after plain output. *)
Definition kthen (a : disp) (b : kdisp) : kdisp := (a >>> fst b, if dead a then false else snd b).
(* src/emv/tlv_parsing/mod.rs:119-143: sequencing. *)
Definition kseq (a b : kdisp) : kdisp := if snd a then a else kthen (fst a) b.
(* src/emv/tlv_parsing/mod.rs:67-82 *)
Definition nodes_within (f : pnode -> kdisp) : bool -> list pnode -> kdisp :=
  fix go (first : bool) (l : list pnode) : kdisp :=
    match l with
    | [] => alive dnil
    | n :: t => kthen (if first then dnil else dln []) (kseq (f n) (go false t))
    end.
(* src/emv/tlv_parsing/mod.rs:65-83 and 118-143: a call for child blocks that are not empty. *)
Fixpoint display_within (k : nat) (p : platform) (show : bool) (l : list pnode) (ind : N) : kdisp :=
  match k with
  | O => killed
  | S k => nodes_within (fun n => match n with
      | PNode t c =>
          kthen (display_ptag p t ind show)
            (match c with
             | [] => alive dnil
             | _ :: _ => kthen (label_ln ind header_colour_spec (lit "Constructed Data Object's Child Tags:"))
                 (match u8_add p ind 1 with Ok ind1 => display_within k p show c ind1 | _ => alive (mkDisp [] true) end)
             end)
      end) true l
  end.

(* How a run ends (src/main.rs:103-219). *)
Inductive ending : Type := Ended (o : outcome) | Killed (printed : list event).

(* src/main.rs:174, 188, 199: the end of a run that displays. *)
Definition shown (d : kdisp) : ending :=
  if snd d then Killed (evs (fst d)) else Ended (mkOutcome (evs (fst d)) [] (dead (fst d)) false).
(* src/main.rs:168-174 (also 182-188, 193-199) *)
Definition show_within (r : room) (p : platform) (sort : bool) (b : list pnode) : kdisp :=
  match (if sort then sort_within (r_sort r) b else Some b) with
  | Some b => display_within (r_display r) p true b 0
  | None => killed
  end.
(* src/main.rs:155-201: an operation when the stack may run out. *)
Definition op_within {A : Type} (x : option (res A)) (show : A -> kdisp) : ending :=
  match x with
  | None => Killed []
  | Some (Ok v) => shown (show v)
  | Some (Err e) => Ended (mkOutcome [] (error_text e ++ [10]) false false)
  | Some Panic | Some NoFuel => Ended out_panic
  end.
(* src/main.rs:103-219: the operations that read TLV data; the others do not call themselves. *)
Definition run_within (r : room) (p : platform) (e : environment) (m : matches) : ending :=
  match load_settings e m, m_tvr m, m_ccd_iad m, m_ccd_cvr m, m_tsi m, m_cvm_results m, m_cvm_list m, m_identify m with
  | Ok st, None, None, None, None, None, None, None =>
      match m_auto_tlv m with
      | Some s => op_within (lbind (auto_within r p (set_masking st) s) (fun fb =>
                             lbind (process_within (r_process r) (snd fb)) (fun b => Some (Ok (fst fb, b)))))
                            (fun fb => kthen (auto_header (fst fb)) (show_within r p (set_sort st) (snd fb)))
      | None =>
      match m_ber_tlv m with
      | Some s => op_within (lbind (ber_within r p (set_masking st) (parse_hex_str s)) (process_within (r_process r)))
                            (show_within r p (set_sort st))
      | None =>
      match m_ingenico_tlv m with
      | Some s => op_within (lbind (ingenico_within r p (set_masking st) s) (process_within (r_process r)))
                            (show_within r p (set_sort st))
      | None => Ended (run_main p e m)
      end end end
  | _, _, _, _, _, _, _, _ => Ended (run_main p e m)
  end.
