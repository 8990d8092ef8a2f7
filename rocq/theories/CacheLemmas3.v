(** Resizing policy of reachable caches. *)
From Coq Require Import ZArith List Lia Bool.
From Verif Require Import Common CacheSpec Cache CacheLemmas CacheLemmas2.
Import ListNotations.
Open Scope Z_scope.

Section L.
Variable F : Type.
Variable fsz : F -> Z.

Theorem run_adjust_policy : forall m mh fx os comfortable completed, 0 <= m -> 0 <= mh ->
  run_ok F fsz (s_init F m mh fx) os ->
  exists c rs c', run F fsz (newCache F m mh fx) os = Ok (c, rs) /\
    adjustSize F fsz c comfortable completed = Ok c' /\
    0 <= maxSize F c' /\
    (fixedSize F c = true -> c' = c) /\
    (maxSize F c < maxSize F c' -> comfortable = true /\ 0 < nearMiss F c /\ maxSize F c' = maxSize F c + 2 \/
                                   maxSize F c < userSize F c /\ maxSize F c' = userSize F c) /\
    (maxSize F c' < maxSize F c ->
       hits F c = 0 /\ nearMiss F c = 0 /\ maxSize F c - 2 <= maxSize F c' /\ userSize F c <= maxSize F c').
Proof.
  intros m mh fx os comf x Hm Hmh Hok.
  destruct (run_rel F fsz os _ _ (init_rel F fsz m mh fx Hm Hmh) Hok) as [c [E R]].
  destruct (adjust_policy F fsz c _ comf x R) as [c' H]. exists c, (snd (s_run F fsz (s_init F m mh fx) os)), c'. auto.
Qed.

Theorem run_drop_policy : forall m mh fx os budget, 0 <= m -> 0 <= mh ->
  run_ok F fsz (s_init F m mh fx) os ->
  exists c rs c' freed, run F fsz (newCache F m mh fx) os = Ok (c, rs) /\
    dropLRUFrames F fsz c budget = Ok (c', freed) /\
    maxSize F c' <= maxSize F c /\ Z.min (maxSize F c) (Z.max 20 (userSize F c)) <= maxSize F c'.
Proof.
  intros m mh fx os b Hm Hmh Hok.
  destruct (run_rel F fsz os _ _ (init_rel F fsz m mh fx Hm Hmh) Hok) as [c [E R]].
  destruct (drop_policy F fsz c _ b R) as [c' [fr H]]. eexists c, _, c', fr. split; [exact E|exact H].
Qed.

(** A whole operation sequence on a fresh cache has the observable results of
    the abstract list. *)
Theorem run_refines : forall m mh fx os, 0 <= m -> 0 <= mh ->
  run_ok F fsz (s_init F m mh fx) os ->
  exists c, run F fsz (newCache F m mh fx) os = Ok (c, snd (s_run F fsz (s_init F m mh fx) os)) /\
    rel F fsz c (fst (s_run F fsz (s_init F m mh fx) os)).
Proof.
  intros m mh fx os Hm Hmh Hok. exact (run_rel F fsz os _ _ (init_rel F fsz m mh fx Hm Hmh) Hok).
Qed.
End L.
