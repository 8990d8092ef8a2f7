(** C59: ordered output of vspipe. *)
From Coq Require Import ZArith List Bool Lia.
From Verif Require Import Common PipeSpec Pipe PipeLemmas.
Import ListNotations.
Open Scope Z_scope.

(** What is in the file is at all times the first frames, in order, each once, whatever order they arrive in. *)
Theorem C59_in_order : forall F hasAlpha writeFails frameOf requests frames, 1 <= requests -> 1 <= frames -> forall s, reachable F hasAlpha writeFails frameOf requests frames s ->
  exists k, p_file F s = fileOf F hasAlpha frameOf k /\ (k <= Z.to_nat (p_out F s))%nat /\ (p_error F s = false -> k = Z.to_nat (p_out F s)).
Proof. exact in_order. Qed.
Print Assumptions C59_in_order.
(** When all frames are counted, the last callback has returned and nothing failed, everything is in the file ... *)
Theorem C59_complete_partial : forall F hasAlpha writeFails frameOf requests frames, 1 <= requests -> 1 <= frames -> forall s, reachable F hasAlpha writeFails frameOf requests frames s ->
  finished F s = true -> p_callback F s = None -> p_error F s = false -> p_file F s = fileOf F hasAlpha frameOf (Z.to_nat frames).
Proof. exact complete. Qed.
Print Assumptions C59_complete_partial.
(** ... but the main thread, which waits for the count only, may leave before the last frame is written. *)
Theorem C59_refuted : exists (s : st Z), reachable Z false (fun _ => false) (fun _ n => n * 10) 4 1 s /\ p_returned Z s = true /\ p_error Z s = false /\ p_file Z s = [] /\ p_callback Z s = Some (false, 0, Some 0).
Proof. exact leaves_early. Qed.
Print Assumptions C59_refuted.
(** After an error nothing more is requested or written. *)
Theorem C59_stops : forall F hasAlpha writeFails frameOf requests frames, 1 <= requests -> 1 <= frames -> forall s s', reachable F hasAlpha writeFails frameOf requests frames s -> p_error F s = true ->
  step F hasAlpha writeFails frameOf s s' -> p_error F s' = true /\ p_requested F s' = p_requested F s /\ (forall e, In e (p_pending F s') -> In e (p_pending F s)) /\ p_file F s' = p_file F s.
Proof. exact stops_reach. Qed.
Print Assumptions C59_stops.
(** The main thread is not left waiting. *)
Theorem C59_not_stuck : forall F hasAlpha writeFails frameOf requests frames, 1 <= requests -> 1 <= frames -> forall s, reachable F hasAlpha writeFails frameOf requests frames s ->
  p_pending F s = [] -> p_callback F s = None -> finished F s = true.
Proof. exact not_stuck. Qed.
Print Assumptions C59_not_stuck.
(** No more frames are outstanding than were asked for, and each only once. *)
Theorem C59_window : forall F hasAlpha writeFails frameOf requests frames, 1 <= requests -> 1 <= frames -> forall s l, reachable F hasAlpha writeFails frameOf requests frames s ->
  NoDup l -> (forall n, In n l -> exists a, In (a, n) (p_pending F s)) -> zlength l <= requests.
Proof. exact window. Qed.
Print Assumptions C59_window.
Theorem C59_asked_once : forall F hasAlpha writeFails frameOf requests frames, 1 <= requests -> 1 <= frames -> forall s, reachable F hasAlpha writeFails frameOf requests frames s ->
  NoDup (opens F s) /\ forall a n, In (a, n) (opens F s) -> (a = true -> hasAlpha = true) /\ p_out F s <= n < p_requested F s.
Proof. exact asked_once. Qed.
Print Assumptions C59_asked_once.
(** Two frames wanted at a time out of three; they arrive as 1, 0, 2. *)
Example C59_ex : let h n s := handle Z false (fun _ => false) false n (Some (n * 10)) (begin Z false false n (Some (n * 10)) (filter (fun k => negb (snd k =? n)) (p_pending Z s)) s) in
  let s0 := start Z false 2 3 in let s1 := h 1 s0 in let s2 := h 0 s1 in let s3 := h 2 s2 in
  p_pending Z s0 = [(false, 0); (false, 1)] /\ (p_file Z s1, p_pending Z s1) = ([], [(false, 0); (false, 2)]) /\ p_file Z s2 = [(0, 0, None); (1, 10, None)] /\ (p_file Z s3, finished Z s3) = ([(0, 0, None); (1, 10, None); (2, 20, None)], true).
Proof. vm_compute. auto. Qed.
