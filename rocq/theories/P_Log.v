(** C58: log messages and handlers. *)
From Coq Require Import String ZArith List Bool Lia.
From Verif Require Import Common LogSpec Log LogLemmas.
Import ListNotations.
Open Scope Z_scope.

(** Each handler hears what was said before anyone listened, up to the retained maximum, then everything said until it is removed, once and in order. *)
Theorem C58_heard : forall addr hasFree ops i, toldTo i (s_trace (run addr hasFree (fun _ => []) ops)) = heard i ops 0 [] [] false.
Proof. exact all_heard. Qed.
Print Assumptions C58_heard.
(** Its free callback runs once, when it goes, whatever callbacks log. *)
Theorem C58_freed_once : forall addr hasFree freeLogs ops i, let s := run addr hasFree freeLogs ops in s_dead s = false ->
  freedTimes i (s_trace s) = if hasFree i && (i <? s_next s)%nat && negb (mem i (s_handlers s)) then 1%nat else 0%nat.
Proof. exact freed_once. Qed.
Print Assumptions C58_freed_once.
(** After that it hears nothing, if callbacks do not log ... *)
Theorem C58_nothing_after_partial : forall addr hasFree ops i a b, s_trace (run addr hasFree (fun _ => []) ops) = a ++ Freed i :: b -> toldTo i b = [].
Proof. exact nothing_after. Qed.
Print Assumptions C58_nothing_after_partial.
(** ... but the callback runs while the handler is still registered: what it logs is told to the handler being freed. *)
Theorem C58_nothing_after_refuted : exists addr hasFree freeLogs ops i a b m, s_trace (run addr hasFree freeLogs ops) = a ++ Freed i :: b /\ toldTo i b = [m].
Proof. exact told_while_freed. Qed.
Print Assumptions C58_nothing_after_refuted.
(** The log of API 3 keeps nothing for later; setting a handler replaces the one set before. *)
Theorem C58_legacy : forall hasFree3 ops i, toldTo i (g_trace (run3 hasFree3 ops)) = heard3 i ops 0 [] None.
Proof. exact all_heard3. Qed.
Print Assumptions C58_legacy.
Example C58_ex : let ops := [Log (1, T "a"); Log (2, T "b"); Add; Add; Log (3, T "c"); Remove 0; Log (1, T "d"); FreeCore [T "left"]; Log (1, T "e"); Add] in
  let s := run (fun h => - Z.of_nat h) (fun h => Nat.eqb h 1) (fun _ => []) ops in
  s_trace s = [Told 0 (1, T "a"); Told 0 (2, T "b"); Told 1 (3, T "c"); Told 0 (3, T "c"); Told 1 (1, T "d"); Told 1 (2, T "left"); Freed 1; Told 2 (1, T "e")]
  /\ heard 1 ops 0 [] [] false = [(3, T "c"); (1, T "d"); (2, T "left")].
Proof. vm_compute. auto. Qed.
Example C58_retained_ex : heard 0 (repeat (Log (1, T "x")) 501 ++ [Add]) 0 [] [] false = repeat (1, T "x") 500 ++ [discarded].
Proof. vm_compute. reflexivity. Qed.
