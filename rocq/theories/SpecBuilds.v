(** Builds of the program: pointer width and overflow checks. *)

From Coq Require Import NArith List Bool.
From Verif Require Import Base ModelMain ModelCli SpecMain.
Import ListNotations.
Local Open Scope N_scope.

(* The build everything is compared with: 64 bits, no overflow checks. *)
Definition release64 : platform := {| usize_bits := 64; overflow_checks := false |}.
(* Pointers of at least 32 bits, and a text that fits into half of them (std: [isize::MAX]). *)
Definition build (p : platform) : Prop := 32 <= usize_bits p.
Definition fits32 {A : Type} (s : list A) : Prop := len s < 2 ^ 31.
Definition arguments32 (m : matches) : Prop := forall op s, given m op = Some s -> fits32 s.
(* Twice a 32-bit number cannot silently wrap around. *)
Definition doubling_safe (p : platform) : Prop := overflow_checks p = true \/ 33 <= usize_bits p.

(* The first one crashes, or there is no difference. *)
Definition same_or_crash {A : Type} (r r' : res A) : Prop := r = Panic \/ r = r'.
Definition outcome_same_or_crash (o o' : outcome) : Prop := o_panic o = true \/ o = o'.
