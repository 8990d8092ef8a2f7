(** Property C97: memory admission control. *)
From Coq Require Import ZArith List Lia Bool Permutation Sorted.
From Verif Require Import Common Admission AdmissionSpec AdmissionFacts.
Import ListNotations.
Open Scope Z_scope.

(** What is measured for a filter call is the most memory its thread held at any moment of the
    call beyond what it held at the start, calls inside it included. *)
Theorem C97_measure : forall p s, trkOk s -> sizesOk p ->
  Forall2 (fun b x => highWater (deltas b) x) (callsOf p) (snd (runProg p s)).
Proof. exact measure_right. Qed.
Print Assumptions C97_measure.
Example C97_measure_ex : snd (runProg exProg (mkTrk 0 0)) = [25; 55] /\ map deltas (callsOf exProg) = [[25; -20]; [30; 25; -20; -15]].
Proof. vm_compute. split; reflexivity. Qed.

(** Measuring a call leaves no trace in what is measured for its caller. *)
Theorem C97_measure_transparent : forall p s, trkOk s -> sizesOk p ->
  fst (runProg p s) = fst (runProg (plain (deltas p)) s).
Proof. exact measure_transparent. Qed.
Print Assumptions C97_measure_transparent.
Example C97_measure_transparent_ex : fst (runProg exProg (mkTrk 3 50)) = mkTrk 40 68.
Proof. vm_compute. reflexivity. Qed.

(** The estimate is the largest measurement, where each loses a 128th with every later call. *)
Theorem C97_estimate : forall l, l <> [] -> Forall (fun x => 0 <= x) l -> isEstimate l (estAfter l).
Proof. exact estimate_is. Qed.
Print Assumptions C97_estimate.
Example C97_estimate_ex : map estAfter [[1000]; [1000; 10]; [1000; 10; 10]; [1000; 10; 990]] = [1000; 993; 986; 990].
Proof. vm_compute. reflexivity. Qed.

(** It covers the last call, loses at most a 128th at a time and is never above all measurements. *)
Theorem C97_estimate_step : forall l x, Forall (fun x => 0 <= x) (l ++ [x]) ->
  x <= estAfter (l ++ [x]) /\
  127 * estAfter l <= 128 * estAfter (l ++ [x]) /\
  (forall m, Forall (fun y => y <= m) (l ++ [x]) -> estAfter (l ++ [x]) <= m).
Proof. exact estimate_step. Qed.
Print Assumptions C97_estimate_step.

(** Peaks are forgotten in the end, but for 127 bytes. *)
Theorem C97_estimate_forgets : forall l l' c, Forall (fun x => 0 <= x) (l ++ l') -> l ++ l' <> [] ->
  Forall (fun x => x <= c) l' -> Forall (fun x => x <= Z.of_nat (length l')) l ->
  estAfter (l ++ l') <= Z.max c 127.
Proof. exact estimate_forgets. Qed.
Print Assumptions C97_estimate_forgets.
Example C97_estimate_forgets_ex : estAfter (300 :: repeat 0 300) = 127.
Proof. vm_compute. reflexivity. Qed.

(** Before the first call it is twice the size of a frame. *)
Theorem C97_first_partial : forall m, mediaOk m ->
  6 * (match m with MVideo w h _ _ bps _ => w * h * bps | MAudio _ _ => 0 end) < 2 ^ 63 ->
  expected (-1) m = Ok (2 * frameBytes m).
Proof. exact expected_first. Qed.
Print Assumptions C97_first_partial.
Example C97_first_ex : expected (-1) (MVideo 1920 1080 1 1 2 3) = Ok 12441600 /\ expected (-1) (MAudio 4 2) = Ok 49152 /\ mediaOk (MVideo 1920 1080 1 1 2 3).
Proof. split; [vm_compute; reflexivity|]. split; [vm_compute; reflexivity|]. unfold mediaOk. repeat split; lia. Qed.

(** For a clip of valid but absurd dimensions the computation overflows. *)
Theorem C97_first_refuted : exists m, mediaOk m /\ expected (-1) m = UB.
Proof. exact expected_overflows. Qed.
Print Assumptions C97_first_refuted.

Theorem C97_later : forall est m, 0 <= est -> expected est m = Ok est.
Proof. exact expected_later. Qed.
Print Assumptions C97_later.

(** The counters say how many calls run and what is expected of them together. *)
Theorem C97_counters : forall limit evs a s, prun limit evs (poolStart a) = Some s ->
  p_proc s = Z.of_nat (length (p_run s)) /\ p_inflight s = sumZ (map c_exp (p_run s)) /\ 0 <= p_inflight s /\
  (p_run s = [] -> p_inflight s = 0 /\ p_proc s = 0).
Proof. exact pool_counters. Qed.
Print Assumptions C97_counters.
Example C97_counters_ex : match prun 100 [EStart 30; EAlloc 0 25; EStart 50; EStart 20; EEnd 1] (poolStart 40) with
  | Some s => (p_alloc s, p_proc s, p_inflight s) = (65, 1, 20) | None => False end.
Proof. vm_compute. reflexivity. Qed.

(** A task is passed over only while another call runs and only if it does not fit: memory can
    never be so short that nothing runs. *)
Theorem C97_never_stuck : forall limit evs a s e, prun limit evs (poolStart a) = Some s ->
  refuse limit s e = true -> p_run s <> [] /\ limit + limit / 4 < p_alloc s + sumZ (map c_exp (p_run s)) + e.
Proof. exact never_stuck. Qed.
Print Assumptions C97_never_stuck.
Example C97_never_stuck_ex : refuse 100 (poolStart 5000) 700 = false /\ refuse 100 (mkPool 90 1 20 [mkCall 20 0]) 16 = true /\ refuse 100 (mkPool 90 1 20 [mkCall 20 0]) 15 = false.
Proof. vm_compute. auto. Qed.

(** While calls allocate no more than expected and only free their own, memory stays within five
    quarters of the limit, unless a call that runs alone does not fit. *)
Theorem C97_within_partial : forall b limit evs a s,
  limit + limit / 4 <= b -> a <= b ->
  predicted limit evs (poolStart a) -> ownAtLeast 0 limit evs (poolStart a) -> aloneFits b limit evs (poolStart a) ->
  prun limit evs (poolStart a) = Some s -> p_alloc s <= b.
Proof. exact within_limit. Qed.
Print Assumptions C97_within_partial.

(** In general by as much more as the running calls may have freed beyond their own. *)
Theorem C97_overshoot_partial : forall b d limit evs a s,
  0 <= d -> limit + limit / 4 <= b -> a <= b ->
  predicted limit evs (poolStart a) -> ownAtLeast d limit evs (poolStart a) -> aloneFits b limit evs (poolStart a) ->
  prun limit evs (poolStart a) = Some s -> p_alloc s <= b + d.
Proof. exact stays_within. Qed.
Print Assumptions C97_overshoot_partial.
Example C97_overshoot_ex : option_map p_alloc (prun 100 exNet (poolStart 100)) = Some 180.
Proof. vm_compute. reflexivity. Qed.

(** Net measurements do not bound what happens together. *)
Theorem C97_net_refuted : exists limit evs a b s,
  limit + limit / 4 <= b /\ a <= b /\ predicted limit evs (poolStart a) /\ aloneFits b limit evs (poolStart a) /\
  prun limit evs (poolStart a) = Some s /\ b < p_alloc s.
Proof. exact net_counterexample. Qed.
Print Assumptions C97_net_refuted.

(** Unmeasured calls of clips of variable format are admitted whatever is in use. *)
Theorem C97_unknown : forall ssw ssh bps planes limit s,
  expected (-1) (MVideo 0 0 ssw ssh bps planes) = Ok 0 /\ refuse limit s 0 = false.
Proof. exact unknown_admitted. Qed.
Print Assumptions C97_unknown.

(** Under pressure the adaptive caches give at least what is over the target, or all they have,
    and not a frame more. *)
Theorem C97_sweep_enough : forall limit alloc caches l, framesOk caches -> sorted_entries caches l -> target limit < alloc ->
  let l' := sweep limit alloc l in
  (Forall (fun c => cc_frames c = []) l' \/ alloc - (heldBytes l - heldBytes l') <= target limit) /\
  exists f, In f (flat_map cc_frames l) /\ target limit < alloc - (heldBytes l - heldBytes l') + cf_bytes f \/
    Forall (fun c => cc_frames c = []) l'.
Proof. exact sweep_enough. Qed.
Print Assumptions C97_sweep_enough.
Example C97_sweep_ex : framesOk exCaches /\ sorted_entries exCaches exSorted /\
  map cc_frames (sweep 100 105 exSorted) = [[]; [mkCF 20 false]] /\ map cc_frames (sweep 100 95 exSorted) = [[mkCF 5 false]; [mkCF 10 false; mkCF 20 false]].
Proof. destruct exSorted_ok as [A B]. split; [exact A|]. split; [exact B|]. vm_compute. auto. Qed.

(** A cache gives only when all caches of less value are empty. *)
Theorem C97_sweep_order : forall limit alloc caches l i j a b a' b', framesOk caches -> sorted_entries caches l ->
  nth_error l i = Some a -> nth_error l j = Some b ->
  nth_error (sweep limit alloc l) i = Some a' -> nth_error (sweep limit alloc l) j = Some b' ->
  cc_value a < cc_value b -> cc_frames b' <> cc_frames b -> cc_frames a' = [].
Proof. exact sweep_order. Qed.
Print Assumptions C97_sweep_order.

(** Caches of fixed size give nothing, and nobody does below the target. *)
Theorem C97_sweep_fixed : forall caches l c, sorted_entries caches l -> In c l -> cc_fixed c = false /\ In c caches.
Proof. exact sweep_fixed. Qed.
Print Assumptions C97_sweep_fixed.
Theorem C97_sweep_idle : forall limit alloc l, alloc <= target limit -> sweep limit alloc l = l.
Proof. exact sweep_idle. Qed.
Print Assumptions C97_sweep_idle.

(** Memory reaches the target when nobody else holds the frames; otherwise the sweep may stop
    short of it with frames left to take. *)
Theorem C97_sweep_reaches_partial : forall limit alloc caches l, framesOk caches -> sorted_entries caches l -> target limit < alloc ->
  Forall (fun c => Forall (fun f => cf_shared f = false) (cc_frames c)) l ->
  Forall (fun c => cc_frames c = []) (sweep limit alloc l) \/
  alloc - (ownBytes l - ownBytes (sweep limit alloc l)) <= target limit.
Proof. exact sweep_reaches. Qed.
Print Assumptions C97_sweep_reaches_partial.
Theorem C97_sweep_shared_refuted : exists limit alloc caches l,
  framesOk caches /\ sorted_entries caches l /\ target limit < alloc /\
  ~ Forall (fun c => cc_frames c = []) (sweep limit alloc l) /\
  target limit < alloc - (ownBytes l - ownBytes (sweep limit alloc l)).
Proof. exact shared_counterexample. Qed.
Print Assumptions C97_sweep_shared_refuted.
