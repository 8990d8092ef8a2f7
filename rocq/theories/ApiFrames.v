(** Frame requests at the interface: src/core/vsapi.cpp:91-171 and 810-820. *)
From Coq Require Import ZArith List Bool Lia.
From Verif Require Import Common SchedSpec.
Import ListNotations.
Open Scope Z_scope.

Section Api.
Variable F : Type.
Variable numFrames : Z -> Z.
(** requestFrameFilter, vsapi.cpp:148-154: appends to reqList. *)
Definition requestFrameFilter (n nd : Z) (reqs : list key) : list key :=
  let len := numFrames nd in
  let n := if len <=? n then len - 1 else n in
  reqs ++ [(nd, n)].
(** availableFrames: a released entry has a null node and no frame. *)
Definition entry := (option key * option F)%type.
Definition isKey (k : key) (o : option key) : bool := match o with Some (a, b) => (a =? fst k) && (b =? snd k) | None => false end.
(** getFrameFilter, vsapi.cpp:156-171; None: nullptr. *)
Definition getFrameFilter (n nd : Z) (avail : list entry) : option F :=
  let len := numFrames nd in
  let n := if negb (len =? 0) && (len <=? n) then len - 1 else n in
  match find (fun e => isKey (nd, n) (fst e)) avail with Some (_, f) => f | None => None end.
(** releaseFrameEarly, vsapi.cpp:810-820. *)
Definition releaseFrameEarly (nd n : Z) (avail : list entry) : list entry := map (fun e => if isKey (nd, n) (fst e) then (None, None) else e) avail.
(** getFrameAsync and getFrame, vsapi.cpp:91-100 and 127-146: whether the request is given an error right away. *)
Definition invalidRequest (n nd : Z) : bool := (n <? 0) || (numFrames nd <=? n).
End Api.

(** The error message in the caller's buffer, vsapi.cpp:116-122 and 131-137: memset, strncpy, last byte 0; [msg] without its final zero, [size] > 0.  strncpy stops at a zero. *)
Fixpoint strncpy (size : nat) (msg : list Z) : list Z :=
  match size, msg with O, _ => [] | S k, [] => repeat 0 (S k) | S k, c :: r => if c =? 0 then repeat 0 (S k) else c :: strncpy k r end.
Definition errorBuffer (size : nat) (msg : list Z) : list Z := firstn (size - 1) (strncpy size msg) ++ [0].
