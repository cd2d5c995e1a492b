(** Values that are a single code: which codes are explained alike, and how terminal types are put into words. *)

From Coq Require Import NArith List String Bool.
From Verif Require Import Base ModelUtil SpecUtil SpecDisplay SpecPictures.
Import ListNotations.
Local Open Scope N_scope.

(* Authorisation response code, transaction type, terminal type, POS entry mode. *)
Definition coded_tags : list (list N) := [[0x8A]; [0x9C]; [0x9F; 0x35]; [0x9F; 0x39]].
(* Different codes with the same meaning: two response codes of different versions of ISO 8583, two entry modes for contactless chips. *)
Definition twins : list (list N * list N * list N) := [
  ([0x8A], lit "33", lit "54"); ([0x8A], lit "34", lit "59"); ([0x8A], lit "35", lit "60"); ([0x8A], lit "36", lit "62");
  ([0x8A], lit "37", lit "66"); ([0x8A], lit "38", lit "75"); ([0x9F; 0x39], [0x07], [0x83]); ([0x9F; 0x39], [0x08], [0x92])].
Definition alike (t d d' : list N) : Prop := d = d' \/ In (t, d, d') twins \/ In (t, d', d) twins.
(* Terminal types (EMV Book 4, Annex A1): the first digit says who controls the terminal, the second whether it is attended and online. *)
Definition controllers : list (N * string) := [(1, "a Financial Institution"); (2, "a Merchant"); (3, "the Cardholder")]%string.
Definition environments : list (N * string) := [
  (1, "Attended, Online-Only"); (2, "Attended, Offline With Online Capabilities"); (3, "Attended, Offline-Only");
  (4, "Unattended, Online-Only"); (5, "Unattended, Offline With Online Capabilities"); (6, "Unattended, Offline-Only")]%string.
(* No terminal of the cardholder is attended. *)
Definition terminal_exists (a b : N) : Prop := In a (map fst controllers) /\ In b (map fst environments) /\ (a = 3 -> 4 <= b).
