(** C57: frame numbers at the interface. *)
From Coq Require Import ZArith List Bool Lia.
From Verif Require Import Common SchedSpec Sched ApiSpec ApiFrames ApiLemmas.
Import ListNotations.
Open Scope Z_scope.

(** What a filter asks for is noted as the frame served. *)
Theorem C57_requests : forall numFrames n nd reqs, requestFrameFilter numFrames n nd reqs = reqs ++ [(nd, served (numFrames nd) n)].
Proof. exact requests_served. Qed.
Print Assumptions C57_requests.
Theorem C57_served_exists : forall len n, 1 <= len -> 0 <= n -> 0 <= served len n < len.
Proof. exact served_valid. Qed.
Print Assumptions C57_served_exists.
(** Negative frames are refused: by the pool, fatally, for filters; with an error for outside requests, which also may not go past the end. *)
Theorem C57_negative : forall numFrames n nd over w s, 1 <= numFrames nd -> n < 0 -> Forall (fun k => startInternal over w k s = Err) (requestFrameFilter numFrames n nd []).
Proof. exact negative_fatal. Qed.
Print Assumptions C57_negative.
Theorem C57_outside : forall numFrames n nd, invalidRequest numFrames n nd = true <-> refused (numFrames nd) n.
Proof. exact refuses. Qed.
Print Assumptions C57_outside.
(** What it gets is the frame produced for what it asked for; what it has not asked for it does not get. *)
Theorem C57_gets_requested : forall F numFrames (produced : key -> F) keys n nd, 1 <= numFrames nd -> In (nd, served (numFrames nd) n) keys ->
  getFrameFilter F numFrames n nd (map (fun k => (Some k, Some (produced k))) keys) = Some (produced (nd, served (numFrames nd) n)).
Proof. exact gets_some. Qed.
Print Assumptions C57_gets_requested.
Theorem C57_gets_nothing_else : forall F numFrames (produced : key -> F) keys n nd, 1 <= numFrames nd -> ~ In (nd, served (numFrames nd) n) keys ->
  getFrameFilter F numFrames n nd (map (fun k => (Some k, Some (produced k))) keys) = None.
Proof. exact gets_none. Qed.
Print Assumptions C57_gets_nothing_else.
(** Releasing a frame early takes that one and no other, for numbers inside the clip ... *)
Theorem C57_release_partial : forall F numFrames avail nd n, 0 <= n < numFrames nd -> getFrameFilter F numFrames n nd (releaseFrameEarly F nd n avail) = None.
Proof. exact release_gone. Qed.
Print Assumptions C57_release_partial.
Theorem C57_release_others : forall F numFrames avail nd n nd' n', 1 <= numFrames nd' -> (nd', served (numFrames nd') n') <> (nd, n) ->
  getFrameFilter F numFrames n' nd' (releaseFrameEarly F nd n avail) = getFrameFilter F numFrames n' nd' avail.
Proof. exact release_others. Qed.
Print Assumptions C57_release_others.
(** ... but a frame that was requested and is obtained by a number past the end is not released by it. *)
Theorem C57_release_refuted : exists (numFrames : Z -> Z) nd n (f : Z), let reqs := requestFrameFilter numFrames n nd [] in let avail := map (fun k => (Some k, Some f)) reqs in
  getFrameFilter Z numFrames n nd avail = Some f /\ releaseFrameEarly Z nd n avail = avail.
Proof. exact release_past_end. Qed.
Print Assumptions C57_release_refuted.
(** The caller's error buffer holds as much of the message as fits, terminated. *)
Theorem C57_error_text : forall size msg, (0 < size)%nat -> length (errorBuffer size msg) = size /\ cstring (errorBuffer size msg) = firstn (size - 1) (cstring msg).
Proof. exact error_text. Qed.
Print Assumptions C57_error_text.
Example C57_ex : requestFrameFilter (fun _ => 10) 12 1 [(1, 3)] = [(1, 3); (1, 9)] /\ errorBuffer 4 [65; 66; 67; 68; 69] = [65; 66; 67; 0] /\ errorBuffer 4 [65] = [65; 0; 0; 0].
Proof. vm_compute. auto. Qed.
