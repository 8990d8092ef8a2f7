(** C49-C54: the thread pool. *)
From Coq Require Import ZArith List Bool Arith Lia Permutation.
From Verif Require Import Common SchedSpec Sched SchedInv SchedStep SchedSerial SchedThreads SchedHist SchedOrder SchedFacts.
Import ListNotations.
Open Scope Z_scope.

(** * C49 *)

(** Accepting a request creates a new identity [s_next s]; nothing is called back for it yet. *)
Theorem C49_accepted : forall over k s, c_ext (s_ctx (startExternal over k s) (s_next s)) = true /\ s_next (startExternal over k s) = S (s_next s) /\
  s_calls (startExternal over k s) = s_calls s.
Proof. exact external_accepted. Qed.
Print Assumptions C49_accepted.
(** Never more than one call per request, and none for what is not a request. *)
Theorem C49_at_most_once : forall modeOf rank s, reachable modeOf rank s ->
  NoDup (map fst (s_calls s)) /\ forall i r, In (i, r) (s_calls s) -> (i < s_next s)%nat /\ c_ext (s_ctx s i) = true.
Proof. exact calls_once. Qed.
Print Assumptions C49_at_most_once.
(** An accepted request is either still being worked on or has been answered. *)
Theorem C49_answered : forall modeOf rank s i, reachable modeOf rank s -> (i < s_next s)%nat -> c_ext (s_ctx s i) = true ->
  (In i (s_live s) <-> ~ exists r, In (i, r) (s_calls s)).
Proof. exact calls_live. Qed.
Print Assumptions C49_answered.
(** Once nothing is left to do every request has got exactly one answer. *)
Theorem C49_exactly_once : forall modeOf rank s, reachable modeOf rank s -> s_live s = [] ->
  forall i, (i < s_next s)%nat -> c_ext (s_ctx s i) = true -> exists r, forall r', In (i, r') (s_calls s) <-> r' = r.
Proof. exact calls_exactly. Qed.
Print Assumptions C49_exactly_once.
(** A call, once made, is never withdrawn or changed. *)
Theorem C49_final : forall modeOf rank s s' i r, reachable modeOf rank s -> step modeOf rank s s' -> In (i, r) (s_calls s) -> In (i, r) (s_calls s').
Proof. exact calls_final. Qed.
Print Assumptions C49_final.
Example C49_ex : exists s, reachable (fun _ => fmParallel) (fun nd => Z.to_nat nd) s /\ s_calls s = [(0%nat, Frame 70)] /\ s_live s = [] /\ s_next s = 2%nat.
Proof. exact chain_ex. Qed.

(** * C50 *)

(** The productions started for other filters: at most one per node and frame. *)
Theorem C50_one_production_partial : forall modeOf rank s i j, reachable modeOf rank s -> In i (s_live s) -> In j (s_live s) ->
  c_ext (s_ctx s i) = false -> c_ext (s_ctx s j) = false -> c_key (s_ctx s i) = c_key (s_ctx s j) -> i = j.
Proof. exact one_production. Qed.
Print Assumptions C50_one_production_partial.
(** A request for something in production attaches to it. *)
Theorem C50_attaches : forall modeOf rank s over w k i, reachable modeOf rank s -> In i (s_live s) -> c_ext (s_ctx s i) = false -> c_key (s_ctx s i) = k -> 0 <= snd k ->
  exists s', startInternal over w k s = Ok s' /\ s_next s' = s_next s /\ s_tasks s' = s_tasks s /\ c_notify (s_ctx s' i) = c_notify (s_ctx s i) ++ [w].
Proof. exact attaches. Qed.
Print Assumptions C50_attaches.
(** When it ends all who wait are told, once each, the same. *)
Theorem C50_all_told : forall modeOf rank s i r, reachable modeOf rank s -> In (i, r) (s_done s) ->
  sentBy i (s_hist s) = map (fun w => (w, r)) (c_notify (s_ctx s i)).
Proof. exact all_told. Qed.
Print Assumptions C50_all_told.
(** Requests from outside do not take part: the same frame of the same node is produced twice at the same time. *)
Theorem C50_refuted : exists modeOf rank s i j, reachable modeOf rank s /\ i <> j /\ c_key (s_ctx s i) = c_key (s_ctx s j) /\
  In (i, Calling false arInitial) (s_run s) /\ In (j, Calling false arInitial) (s_run s).
Proof. exact twice_ex. Qed.
Print Assumptions C50_refuted.
Example C50_ex : exists s, reachable (fun _ => fmParallel) (fun nd => Z.to_nat nd) s /\ c_notify (s_ctx s 2) = [0%nat; 1%nat] /\ s_tasks s = [2%nat] /\ s_next s = 3%nat.
Proof. exact share_ex. Qed.

(** * C51 *)

(** Serial and unordered filters: never two threads inside. *)
Theorem C51_exclusive : forall modeOf rank s i j li lj ri rj, reachable modeOf rank s ->
  In (i, Calling li ri) (s_run s) -> In (j, Calling lj rj) (s_run s) -> nodeOf s i = nodeOf s j ->
  modeOf (nodeOf s i) = fmFrameState \/ modeOf (nodeOf s i) = fmUnordered -> i = j.
Proof. exact exclusive. Qed.
Print Assumptions C51_exclusive.
(** Parallel requests: never two threads inside for anything but the first call of a frame. *)
Theorem C51_parallel_requests : forall modeOf rank s i j li lj ri rj, reachable modeOf rank s ->
  In (i, Calling li ri) (s_run s) -> In (j, Calling lj rj) (s_run s) -> nodeOf s i = nodeOf s j ->
  modeOf (nodeOf s i) = fmParallelRequests -> ri <> arInitial -> rj <> arInitial -> i = j.
Proof. exact exclusive_ready. Qed.
Print Assumptions C51_parallel_requests.
(** Serial filters: of two frames that have been started one has been finished. *)
Theorem C51_one_frame_at_a_time : forall modeOf rank s i j, reachable modeOf rank s -> In i (s_live s) -> In j (s_live s) -> i <> j ->
  nodeOf s i = nodeOf s j -> modeOf (nodeOf s i) = fmFrameState -> c_first (s_ctx s i) = false -> c_first (s_ctx s j) = false ->
  (exists f, In (i, Returned f) (s_run s) /\ finished s i f) \/ (exists f, In (j, Returned f) (s_run s) /\ finished s j f).
Proof. exact one_frame. Qed.
Print Assumptions C51_one_frame_at_a_time.
(** One production is never in two threads. *)
Theorem C51_one_thread_per_production : forall modeOf rank s, reachable modeOf rank s -> NoDup (map fst (s_run s)).
Proof. exact one_thread. Qed.
Print Assumptions C51_one_thread_per_production.
(** Parallel filters: the same frame in one thread, provided no more than one of the two was asked for from outside... *)
Theorem C51_parallel_partial : forall modeOf rank s i j p q, reachable modeOf rank s -> In (i, p) (s_run s) -> In (j, q) (s_run s) ->
  c_ext (s_ctx s i) = false -> c_ext (s_ctx s j) = false -> c_key (s_ctx s i) = c_key (s_ctx s j) -> i = j.
Proof. exact parallel_frame. Qed.
Print Assumptions C51_parallel_partial.
(** ... but a frame asked for from outside is run beside the same frame asked for by a filter. *)
Theorem C51_parallel_refuted : exists rank s i j, reachable (fun _ => fmParallel) rank s /\ i <> j /\ c_key (s_ctx s i) = c_key (s_ctx s j) /\
  c_ext (s_ctx s i) = true /\ c_ext (s_ctx s j) = false /\ In (i, Calling false arInitial) (s_run s) /\ In (j, Calling false arInitial) (s_run s).
Proof. exact beside_ex. Qed.
Print Assumptions C51_parallel_refuted.
(** Two frames of a serial filter wanted: the second stays in the list while the first waits for its input, although threads are free. *)
Example C51_ex : exists s, reachable (fun nd => if nd =? 2 then fmFrameState else fmParallel) (fun nd => Z.to_nat nd) s /\
  In 1%nat (s_tasks s) /\ c_key (s_ctx s 1) = (2, 1) /\ s_sowner s 2 = Some 0%nat /\ s_run s = [] /\
  forall fits, scan (fun nd => if nd =? 2 then fmFrameState else fmParallel) s noCache fits (s_tasks s) [] = Some (2%nat, None).
Proof. exact serial_ex. Qed.

(** * C52 *)

(** The result of every production follows the first failure it was told of; without one it fails only by its own doing. *)
Theorem C52_result : forall modeOf rank s w r, reachable modeOf rank s -> In (w, r) (s_done s) ->
  match firstError (received w (s_hist s)) with
  | Some m => r = Failed m
  | None => (exists f, r = Frame f) \/ (exists m, r = Failed m /\ In (w, m) (s_own s))
  end.
Proof. exact result_of. Qed.
Print Assumptions C52_result.
(** A failure reaches all that wait for it, ... *)
Theorem C52_failure_spreads : forall modeOf rank s i m w, reachable modeOf rank s -> In (i, Failed m) (s_done s) -> In w (c_notify (s_ctx s i)) ->
  In (Failed m) (received w (s_hist s)) /\ forall r, In (w, r) (s_done s) -> exists m', r = Failed m'.
Proof. exact failure_spreads. Qed.
Print Assumptions C52_failure_spreads.
(** ... and nothing else: every message a production has received was the result of one it waited for. *)
Theorem C52_only_from_dependencies : forall modeOf rank s w m, reachable modeOf rank s -> In (Failed m) (received w (s_hist s)) ->
  exists i, In (i, Failed m) (s_done s) /\ In w (c_notify (s_ctx s i)).
Proof. exact only_deps. Qed.
Print Assumptions C52_only_from_dependencies.
(** The frames a filter finds are those its dependencies produced. *)
Theorem C52_frames_available : forall modeOf rank s i, reachable modeOf rank s -> In i (s_live s) ->
  c_avail (s_ctx s i) = framesFor (fun j => c_key (s_ctx s j)) i (s_hist s).
Proof. exact frames_available. Qed.
Print Assumptions C52_frames_available.
Example C52_ex : exists s, reachable (fun _ => fmParallel) (fun nd => Z.to_nat nd) s /\ s_calls s = [(1%nat, Frame 5); (0%nat, Failed 41)] /\ received 0 (s_hist s) = [Failed 41; Failed 42].
Proof. exact failing_ex. Qed.

(** * C53 *)

(** With no filter running, a thread that looks for work finds it, whatever the memory limit says. *)
Theorem C53_work_found : forall modeOf rank s cached fits, reachable modeOf rank s -> s_run s = [] -> s_tasks s <> [] ->
  exists i o, scan modeOf s cached fits (s_tasks s) [] = Some (i, o) /\ In i (s_tasks s).
Proof. exact work_found. Qed.
Print Assumptions C53_work_found.
(** As long as anything is unanswered some thread is awake or being woken. *)
Theorem C53_thread_awake : forall modeOf rank s, reachable modeOf rank s -> s_live s <> [] -> (0 < s_active s + s_notified s)%nat.
Proof. exact thread_awake. Qed.
Print Assumptions C53_thread_awake.
(** Nothing is lost: every unfinished production is in the list, put aside while flushing, in a thread, or waits for one that is unfinished. *)
Theorem C53_nothing_lost : forall modeOf rank s i, reachable modeOf rank s -> In i (s_live s) ->
  In i (s_tasks s) \/ (In i (s_alt s) /\ s_flush s = true) \/ In i (map fst (s_run s)) \/ (exists j, In j (s_live s) /\ In i (c_notify (s_ctx s j))).
Proof. exact nothing_lost. Qed.
Print Assumptions C53_nothing_lost.
(** What a filter returned is always taken in: no counter runs below zero, nobody is told twice. *)
Theorem C53_completes : forall modeOf rank s over i f, reachable modeOf rank s -> phaseOf i (s_run s) = Some (Returned f) ->
  (f = None -> c_err (s_ctx s i) = None -> c_reqs (s_ctx s i) <> []) -> exists s', complete over i s = Ok s'.
Proof. exact completes. Qed.
Print Assumptions C53_completes.
(** The requests put aside come back when the last thread has nothing left. *)
Theorem C53_flush_ends : forall modeOf rank s, reachable modeOf rank s -> s_flush s = true -> s_active s = 1%nat -> s_tasks (park s) = s_alt s /\ s_alt (park s) = s_tasks s /\ s_flush (park s) = false /\
  (forall cached fits, s_run s = [] -> scan modeOf s cached fits (s_tasks s) [] = None -> s_tasks s = []).
Proof. exact flush_ends. Qed.
Print Assumptions C53_flush_ends.
(** With a filter running the memory limit can hold back everything, here the frame 0 of node 1; if the filter that runs is waiting for it (a nested getFrame), nothing moves any more. *)
Theorem C53_nested_refuted : exists modeOf rank s i j, reachable modeOf rank s /\ In (i, Calling false arInitial) (s_run s) /\ List.length (s_run s) = 1%nat /\
  s_tasks s = [j] /\ c_ext (s_ctx s j) = true /\ (rank (nodeOf s j) < rank (nodeOf s i))%nat /\ scan modeOf s noCache (fun _ => false) (s_tasks s) [] = None.
Proof. exact nested_ex. Qed.
Print Assumptions C53_nested_refuted.

(** * C54 *)

(** Whenever the lock is free the tasks are ordered by external request, then by frame. *)
Theorem C54_in_order : forall modeOf rank s, reachable modeOf rank s -> inOrder (map (fun i => (c_order (s_ctx s i), snd (c_key (s_ctx s i)))) (s_tasks s)).
Proof. exact in_order. Qed.
Print Assumptions C54_in_order.
(** A thread takes the first task it does not have to pass over. *)
Theorem C54_first : forall modeOf s cached fits i o, scan modeOf s cached fits (s_tasks s) [] = Some (i, o) ->
  exists p q, s_tasks s = p ++ i :: q /\ forall a j b, p = a ++ j :: b -> passedOver modeOf s cached fits a j.
Proof. exact scan_takes_first. Qed.
Print Assumptions C54_first.
(** A new external request comes after all there is; what a filter asks for inherits the place of the filter's request. *)
Theorem C54_places : forall modeOf rank s over k, reachable modeOf rank s ->
  (forall i, In i (s_live s) -> c_order (s_ctx s i) < c_order (s_ctx (startExternal over k s) (s_next s))) /\
  (forall ov w s', startInternal ov w k s = Ok s' -> findKey k (s_all s) = None -> c_order (s_ctx s' (s_next s)) = c_order (s_ctx s w)) /\
  (forall ov w s' i, startInternal ov w k s = Ok s' -> findKey k (s_all s) = Some i -> c_order (s_ctx s' i) = Z.min (c_order (s_ctx s i)) (c_order (s_ctx s w))).
Proof. exact places_of. Qed.
Print Assumptions C54_places.
(** The place is not handed on to what the shared production itself waits for: here the earlier request 0 waits for 2, 2 for 3, and 3 is still queued as if only the later request 1 needed it. *)
Theorem C54_refuted : exists modeOf rank s j w, reachable modeOf rank s /\ In j (s_tasks s) /\ In w (c_notify (s_ctx s j)) /\ In w (s_live s) /\ c_order (s_ctx s w) < c_order (s_ctx s j).
Proof. exact inversion_ex. Qed.
Print Assumptions C54_refuted.
Example C54_ex : exists s, reachable (fun _ => fmParallel) (fun nd => Z.to_nat nd) s /\ map (fun i => (c_order (s_ctx s i), snd (c_key (s_ctx s i)))) (s_tasks s) = [(1, 7); (1, 9); (2, 3); (3, 0)].
Proof. exact order_ex. Qed.
