(** Properties C09 to C12: the frame cache and the caching decision. *)
From Coq Require Import ZArith List Lia Bool.
From Verif Require Import Common ReqPat CacheSpec Cache CacheLemmas CacheLemmas2 CacheLemmas3 NodeCache NodeCacheLemmas.
Import ListNotations.
Open Scope Z_scope.

(** ** C09 *)
Theorem C09_lookup_latest : forall F fsz m mh fx os k, 0 <= m -> 0 <= mh ->
  run_ok F fsz (s_init F m mh fx) os ->
  exists c rs c' r, run F fsz (newCache F m mh fx) os = Ok (c, rs) /\
    relink F fsz c k = Ok (c', r) /\
    (forall f, r = Some f -> latest F k os = Some f).
Proof. exact lookup_latest. Qed.
Print Assumptions C09_lookup_latest.

Theorem C09_bounds : forall F fsz m mh fx os, 0 <= m -> 0 <= mh ->
  run_ok F fsz (s_init F m mh fx) os ->
  exists c rs hk rk, run F fsz (newCache F m mh fx) os = Ok (c, rs) /\
    held F c hk /\ remembered F c rk /\
    zlength hk = currentSize F c /\ zlength hk <= maxSize F c /\
    zlength rk = historySize F c /\ zlength rk <= maxHistorySize F c.
Proof. exact cache_bounds. Qed.
Print Assumptions C09_bounds.

(** The cache does hold what it can hold. *)
Theorem C09_insert_then_lookup : forall F fsz m mh fx os k f, 0 <= m -> 0 <= mh ->
  run_ok F fsz (s_init F m mh fx) (os ++ [OInsert k f]) ->
  0 < cap F (fst (s_run F fsz (s_init F m mh fx) os)) ->
  exists c rs c', run F fsz (newCache F m mh fx) (os ++ [OInsert k f]) = Ok (c, rs) /\
    relink F fsz c k = Ok (c', Some f).
Proof. exact insert_then_lookup. Qed.
Print Assumptions C09_insert_then_lookup.

Definition ex_ops : list (op Z) :=
  [OInsert 1 10; OInsert 2 20; OLookup 1; OInsert 3 30; OLookup 2; OLookup 1; OLookup 3; OLookup 7].
Example C09_example :
  exists c, run Z (fun f => f) (newCache Z 2 5 false) ex_ops =
    Ok (c, [None; None; Some 10; None; None; Some 10; Some 30; None]) /\
  run_ok Z (fun f => f) (s_init Z 2 5 false) ex_ops.
Proof. eexists. split; [vm_compute; reflexivity|]. vm_compute. repeat split; congruence. Qed.

(** ** C10: refinement of the abstract two-segment list *)
Theorem C10_refines_lru : forall F fsz m mh fx os, 0 <= m -> 0 <= mh ->
  run_ok F fsz (s_init F m mh fx) os ->
  exists c, run F fsz (newCache F m mh fx) os = Ok (c, snd (s_run F fsz (s_init F m mh fx) os)) /\
    rel F fsz c (fst (s_run F fsz (s_init F m mh fx) os)).
Proof. exact run_refines. Qed.
Print Assumptions C10_refines_lru.

Theorem C10_step_refines : forall F fsz c a o, rel F fsz c a -> op_ok F fsz a o ->
  exists c', step F fsz c o = Ok (c', snd (s_step F fsz a o)) /\ rel F fsz c' (fst (s_step F fsz a o)).
Proof. exact step_rel. Qed.
Print Assumptions C10_step_refines.

(** After the same operations: 3 and 1 live (most recent first), 2 in history,
    one near miss (key 2), one far miss (key 7), three hits. *)
Example C10_example :
  let a := fst (s_run Z (fun f => f) (s_init Z 2 5 false) ex_ops) in
  live Z a = [(3, 30); (1, 10)] /\ hist Z a = [2] /\ nhit Z a = 3 /\ nnear Z a = 1 /\ nfar Z a = 1.
Proof. vm_compute. auto. Qed.

(** ** C11 *)
Theorem C11_adjust_policy : forall F fsz m mh fx os comfortable completed, 0 <= m -> 0 <= mh ->
  run_ok F fsz (s_init F m mh fx) os ->
  exists c rs c', run F fsz (newCache F m mh fx) os = Ok (c, rs) /\
    adjustSize F fsz c comfortable completed = Ok c' /\
    0 <= maxSize F c' /\
    (fixedSize F c = true -> c' = c) /\
    (maxSize F c < maxSize F c' -> comfortable = true /\ 0 < nearMiss F c /\ maxSize F c' = maxSize F c + 2 \/
                                   maxSize F c < userSize F c /\ maxSize F c' = userSize F c) /\
    (maxSize F c' < maxSize F c ->
       hits F c = 0 /\ nearMiss F c = 0 /\ maxSize F c - 2 <= maxSize F c' /\ userSize F c <= maxSize F c').
Proof. exact run_adjust_policy. Qed.
Print Assumptions C11_adjust_policy.

Theorem C11_pressure_policy : forall F fsz m mh fx os budget, 0 <= m -> 0 <= mh ->
  run_ok F fsz (s_init F m mh fx) os ->
  exists c rs c' freed, run F fsz (newCache F m mh fx) os = Ok (c, rs) /\
    dropLRUFrames F fsz c budget = Ok (c', freed) /\
    maxSize F c' <= maxSize F c /\ Z.min (maxSize F c) (Z.max 20 (userSize F c)) <= maxSize F c'.
Proof. exact run_drop_policy. Qed.
Print Assumptions C11_pressure_policy.

(** A run of near misses makes the cache grow by two. *)
Definition ex_near : list (op Z) :=
  [OInsert 1 10; OInsert 2 20] ++ repeat (OLookup 1) 30 ++ [OAdjust true 5].
Example C11_example :
  exists c rs, run Z (fun f => f) (newCache Z 1 5 false) ex_near = Ok (c, rs) /\ maxSize Z c = 3.
Proof. eexists _, _. split; vm_compute; reflexivity. Qed.
Example C11_example_fixed :
  exists c rs, run Z (fun f => f) (newCache Z 1 5 true) ex_near = Ok (c, rs) /\ maxSize Z c = 1.
Proof. eexists _, _. split; vm_compute; reflexivity. Qed.

(** ** C12 *)
Theorem C12_auto_decision : forall F fsz s, reach F fsz s -> cOverride F s = false ->
  (cEnabled F s = true <-> should_cache (map snd (consumers F s))) /\
  (cLastOnly F s = true <-> only_last (map snd (consumers F s))).
Proof. exact auto_decision. Qed.
Print Assumptions C12_auto_decision.

Theorem C12_add_remove : forall F fsz s c, reach F fsz s ->
  let s' := removeConsumer F (addConsumer F s c) c in
  cEnabled F s' = cEnabled F s /\ cLastOnly F s' = cLastOnly F s /\ cOverride F s' = cOverride F s.
Proof. exact add_remove_restores. Qed.
Print Assumptions C12_add_remove.

(** A node whose cache is disabled holds no frame and no history. *)
Theorem C12_disabled_empty : forall F fsz s, reach F fsz s -> cEnabled F s = false ->
  forall k, hash F (ncache F s) k = None.
Proof. exact disabled_empty. Qed.
Print Assumptions C12_disabled_empty.

(** And nothing is lost by it: an honest consumer asks for each frame once. *)
Theorem C12_disabled_no_reuse : forall F fsz s N M req n m j,
  reach F fsz s -> cOverride F s = false -> cEnabled F s = false ->
  (forall c, In c (consumers F s) -> honest (snd c) N M req) ->
  0 <= n < M -> 0 <= m < M -> req n j -> req m j -> n = m.
Proof. exact disabled_no_reuse. Qed.
Print Assumptions C12_disabled_no_reuse.

(** No operation on a reachable node is undefined. *)
Theorem C12_node_progress : forall F fsz s o, reach F fsz s -> nop_ok F fsz s o ->
  exists s' r, nstep F fsz s o = Ok (s', r).
Proof. exact node_progress. Qed.
Print Assumptions C12_node_progress.

Definition ex_nops : list (nop Z) := [NAdd Z (1, rpStrictSpatial); NAdd Z (2, rpGeneral); NDeliver Z 10 4 40; NRemove Z (2, rpGeneral)].
Example C12_example :
  exists s, nrun Z (fun f => f) (newNode Z) ex_nops = Ok s /\ cEnabled Z s = false /\ hash Z (ncache Z s) 4 = None.
Proof. eexists. split; [vm_compute; reflexivity|]. vm_compute. auto. Qed.
Example C12_example_enabled :
  exists s, nrun Z (fun f => f) (newNode Z) (firstn 3 ex_nops) = Ok s /\ cEnabled Z s = true /\
    hash Z (ncache Z s) 4 <> None.
Proof. eexists. split; [vm_compute; reflexivity|]. vm_compute. split; auto. discriminate. Qed.
