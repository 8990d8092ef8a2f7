(** Filters with the nfMakeLinear flag: src/core/vscore.cpp:698-711, 762-768, 990-1003 and 1121-1143. *)
From Coq Require Import ZArith List Lia Bool.
From Verif Require Import Common.
Import ListNotations.
Open Scope Z_scope.

(** setLinear, vscore.cpp:990-1003: the number of frames kept and half of it, the look-ahead.  threadCount is at least 1. *)
Definition linearFrames (threads : Z) : Z := threads * 2 + 20.
Definition linearThreshold (threads : Z) : Z := linearFrames threads / 2.

Section Wrapper.
(** The wrapped filter: a state, and for each call a new state and a frame or nothing (an error was set). *)
Variables S F : Type.
Variable call : S -> Z -> S * option F.

(** The loop, vscore.cpp:1127-1134: [k] frames from [i] on; the frames for the cache and the calls made, in order, and whether all went well. *)
Fixpoint fill (k : nat) (i : Z) (s : S) : S * list (Z * F) * list Z * bool :=
  match k with
  | O => (s, [], [], true)
  | Datatypes.S k =>
      match call s i with
      | (s, None) => (s, [], [i], false)
      | (s, Some f) => let '(s, c, l, ok) := fill k (i + 1) s in (s, (i, f) :: c, i :: l, ok)
      end
  end.
Record reply := mkR { r_state : S; r_last : Z; r_frame : option F; r_cache : list (Z * F); r_calls : list Z }.
(** MakeLinearWrapper::getFrame, vscore.cpp:1121-1143, called with arInitial. *)
Definition getFrame (threshold lastFrame n : Z) (s : S) : reply :=
  let '(s, c, l, ok) := if (lastFrame <? n) && (n - threshold <? lastFrame) then fill (Z.to_nat (n - (lastFrame + 1))) (lastFrame + 1) s else (s, [], [], true) in
  if ok then let '(s, f) := call s n in mkR s n f c (l ++ [n])
  else mkR s lastFrame None c l.
(** One request after the other; frames found in the cache never get here. *)
Fixpoint requests (threshold lastFrame : Z) (s : S) (ns : list Z) : list reply :=
  match ns with [] => [] | n :: r => let q := getFrame threshold lastFrame n s in q :: requests threshold (r_last q) (r_state q) r end.
(** The states in which the filter was called for [i], and what came of it, along a run from [s]. *)
Fixpoint answers (s : S) (calls : list Z) : list (Z * option F) :=
  match calls with [] => [] | i :: r => let '(s', f) := call s i in (i, f) :: answers s' r end.
End Wrapper.
