(** vspipe's output loop: src/vspipe/vspipe.cpp:232-420 (isCompletedFrame, outputFrame, frameDoneCallback) and 603-637 (outputNode). *)
From Coq Require Import ZArith List Bool Lia.
From Verif Require Import Common.
Import ListNotations.
Open Scope Z_scope.

Section Pipe.
Variable F : Type.
Variable hasAlpha : bool.
(** [writeFails n]: writing frame n, its header, timecode or properties fails. *)
Variable writeFails : Z -> bool.
Definition pair := (option F * option F)%type.
(** The fields of VSPipeOutputData; [p_file] what was written, [p_pending] what was asked for and has not come ((true, n): of the alpha clip), [p_callback] a callback that has counted its frame and not yet done the rest (callbacks exclude each other, vsthreadpool.cpp:466-490), [p_returned] the main thread has left outputNode. *)
Record st := mkP { p_total : Z; p_requested : Z; p_done : Z; p_doneAlpha : Z; p_out : Z; p_map : Z -> pair; p_error : bool;
  p_file : list (Z * F * option F); p_pending : list (bool * Z); p_callback : option (bool * Z * option F); p_returned : bool }.
Definition keys (n : Z) : list (bool * Z) := (false, n) :: (if hasAlpha then [(true, n)] else []).
Definition updMap (m : Z -> pair) (n : Z) (p : pair) : Z -> pair := fun k => if k =? n then p else m k.
(** outputNode up to the wait. *)
Definition start (requests frames : Z) : st :=
  let k := Z.min requests frames in
  mkP frames k 0 0 0 (fun _ => (None, None)) false [] (flat_map (fun i => keys (Z.of_nat i)) (seq 0 (Z.to_nat k))) None false.
Definition isCompleted (p : pair) : bool :=
  match p with (Some _, b) => negb hasAlpha || match b with Some _ => true | None => false end | (None, _) => false end.
(** The count at the start of the callback. *)
Definition begin (a : bool) (n : Z) (r : option F) (pending : list (bool * Z)) (s : st) : st :=
  mkP (p_total s) (p_requested s) (if a then p_done s else p_done s + 1) (if a then p_doneAlpha s + 1 else if hasAlpha then p_doneAlpha s else p_doneAlpha s + 1)
      (p_out s) (p_map s) (p_error s) (p_file s) pending (Some (a, n, r)) (p_returned s).
(** One round of the loop, 346-400. *)
Definition writeOne (s : st) : st :=
  let '(f, g) := p_map s (p_out s) in
  let err := p_error s || writeFails (p_out s) in
  mkP (if p_error s then p_total s else if writeFails (p_out s) then p_requested s else p_total s) (p_requested s) (p_done s) (p_doneAlpha s) (p_out s + 1)
      (updMap (p_map s) (p_out s) (None, None)) err
      (match f with Some f => if err then p_file s else p_file s ++ [(p_out s, f, g)] | None => p_file s end)
      (p_pending s) (p_callback s) (p_returned s).
Fixpoint writeLoop (k : nat) (s : st) : st := match k with O => s | S k => if isCompleted (p_map s (p_out s)) then writeLoop k (writeOne s) else s end.
(** The rest of the callback, 330-420. *)
Definition handle (a : bool) (n : Z) (r : option F) (s : st) : st :=
  match r with
  | Some f =>
      let m := updMap (p_map s) n (if a then (fst (p_map s n), Some f) else (Some f, snd (p_map s n))) in
      let more := isCompleted (m n) && (p_requested s <? p_total s) in
      let s := mkP (p_total s) (if more then p_requested s + 1 else p_requested s) (p_done s) (p_doneAlpha s) (p_out s) m (p_error s) (p_file s)
                   (p_pending s ++ (if more then keys (p_requested s) else [])) None (p_returned s) in
      writeLoop (Z.to_nat (p_requested s)) s
  | None => mkP (p_requested s) (p_requested s) (p_done s) (p_doneAlpha s) (p_out s) (p_map s) true (p_file s) (p_pending s) None (p_returned s)
  end.
(** What the main thread waits for. *)
Definition finished (s : st) : bool := (p_total s =? p_done s) && (p_total s =? p_doneAlpha s).
Definition leave (s : st) : st := mkP (p_total s) (p_requested s) (p_done s) (p_doneAlpha s) (p_out s) (p_map s) (p_error s) (p_file s) (p_pending s) (p_callback s) true.
(** The main thread looks at the condition when it starts to wait and whenever it wakes up, which may be at any time. *)
Inductive step (frameOf : bool -> Z -> F) : st -> st -> Prop :=
| st_begin : forall s a n b c r, p_callback s = None -> p_pending s = b ++ (a, n) :: c -> (r = Some (frameOf a n) \/ r = None) -> step frameOf s (begin a n r (b ++ c) s)
| st_handle : forall s a n r, p_callback s = Some (a, n, r) -> step frameOf s (handle a n r s)
| st_leave : forall s, finished s = true -> step frameOf s (leave s).
Inductive reachable (frameOf : bool -> Z -> F) (requests frames : Z) : st -> Prop :=
| r_start : reachable frameOf requests frames (start requests frames)
| r_step : forall s s', reachable frameOf requests frames s -> step frameOf s s' -> reachable frameOf requests frames s'.
End Pipe.
