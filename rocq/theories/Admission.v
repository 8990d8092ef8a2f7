(** Memory admission control: measuring what a filter call allocates (memoryuse.h), the estimate
    of the next call (vscore.cpp), the decision of the thread pool (vsthreadpool.cpp) and the
    sweep over the caches under memory pressure (vscore.cpp). *)
From Coq Require Import ZArith List Bool Lia.
From Verif Require Import Common.
Import ListNotations.
Open Scope Z_scope.

(** ---- Measuring a call, memoryuse.h:55-67 and 104-127 ---- *)

(** The two thread local counters s_call_delta and s_call_peak. They are int64_t; byte counts of
    memory that exists do not come near 2^63, so the model uses integers. *)
Record trk := mkTrk { t_delta : Z; t_peak : Z }.

(** memoryuse.h:58-62 *)
Definition trackAlloc (s : trk) (size : Z) : trk :=
  let d := t_delta s + size in mkTrk d (if t_peak s <? d then d else t_peak s).
(** memoryuse.h:64-66 *)
Definition trackFree (s : trk) (size : Z) : trk := mkTrk (t_delta s - size) (t_peak s).
(** memoryuse.h:114-119: the saved counters and the fresh ones. *)
Definition beginCall (s : trk) : trk * trk := (s, mkTrk 0 0).
(** memoryuse.h:121-126: the counters of the caller and the measured peak. *)
Definition endCall (prev s : trk) : trk * Z :=
  let peak := t_peak s in
  (mkTrk (t_delta s + t_delta prev)
         (if t_peak prev <? t_delta prev + peak then t_delta prev + peak else t_peak prev), peak).

(** What one thread does: it allocates, frees, and enters filter calls (vscore.cpp:1062-1068),
    inside which it does the same. *)
Inductive prog :=
| PDone
| PAlloc (size : Z) (k : prog)
| PFree (size : Z) (k : prog)
| PCall (body k : prog).

(** The counters afterwards and the measured peaks in the order in which the calls end. *)
Fixpoint runProg (p : prog) (s : trk) : trk * list Z :=
  match p with
  | PDone => (s, [])
  | PAlloc n k => runProg k (trackAlloc s n)
  | PFree n k => runProg k (trackFree s n)
  | PCall b k =>
      let (saved, s0) := beginCall s in
      let (s1, inner) := runProg b s0 in
      let (s2, peak) := endCall saved s1 in
      let (s3, rest) := runProg k s2 in
      (s3, inner ++ peak :: rest)
  end.

(** ---- The estimate, vscore.cpp:1180-1187 ---- *)

(** transientAllocEstimate; it starts at -1 (vscore.h). *)
Definition updateEst (est sample : Z) : Z :=
  if 0 <=? est then Z.max sample (est - Z.shiftr est 7) else sample.
Definition estAfter (samples : list Z) : Z := fold_left updateEst samples (-1).

(** A value of int64_t, or undefined behaviour when it overflows. *)
Definition i64 (x : Z) : outcome Z :=
  if (- 2 ^ 63 <=? x) && (x <? 2 ^ 63) then Ok x else UB.

(** vscore.cpp:1197-1203: the planes [p .. p+n-1]. *)
Fixpoint planeBytes (w h ssw ssh bps : Z) (first : bool) (n : nat) (acc : Z) : outcome Z :=
  match n with
  | O => Ok acc
  | S n =>
      let pw := Z.shiftr w (if first then 0 else ssw) in
      let ph := Z.shiftr h (if first then 0 else ssh) in
      obind (i64 (pw * ph)) (fun a =>
      obind (i64 (a * bps)) (fun b =>
      obind (i64 (acc + b)) (fun acc => planeBytes w h ssw ssh bps false n acc)))
  end.

Inductive media := MVideo (w h ssw ssh bps : Z) (planes : nat) | MAudio (bps channels : Z).
(** VS_AUDIO_FRAME_SAMPLES, VapourSynth4.h *)
Definition audioSamples : Z := 3072.

(** vscore.cpp:1189-1208 *)
Definition expected (est : Z) (m : media) : outcome Z :=
  if 0 <=? est then Ok est
  else
    obind match m with
          | MVideo w h ssw ssh bps planes =>
              if (0 <? w) && (0 <? h) then planeBytes w h ssw ssh bps true planes 0 else Ok 0
          | MAudio bps channels => i64 (bps * channels * audioSamples)
          end (fun b => i64 (2 * b)).

(** ---- Admission, vsthreadpool.cpp:177-188, 226-236 ---- *)

(** A running call: what was expected of it and what its thread has allocated in it so far, net
    of what it has freed. *)
Record call := mkCall { c_exp : Z; c_use : Z }.
(** The counters of the pool and of the allocator, and the running calls, which the program
    does not keep in one place. *)
Record pool := mkPool { p_alloc : Z; p_proc : Z; p_inflight : Z; p_run : list call }.

(** vsthreadpool.cpp:184-188: whether the task is passed over. *)
Definition refuse (limit : Z) (s : pool) (e : Z) : bool :=
  (0 <? e) && (0 <? p_proc s) && (limit + limit / 4 <? p_alloc s + p_inflight s + e).

Fixpoint upd {A} (i : nat) (f : A -> A) (l : list A) : list A :=
  match l, i with
  | [], _ => []
  | x :: tl, O => f x :: tl
  | x :: tl, S i => x :: upd i f tl
  end.
Fixpoint del {A} (i : nat) (l : list A) : list A :=
  match l, i with
  | [], _ => []
  | _ :: tl, O => tl
  | x :: tl, S i => x :: del i tl
  end.

(** What can happen: a thread looks at a task with an expected allocation, a running call
    allocates or frees, memory is freed outside the calls, a call ends. *)
Inductive pev := EStart (e : Z) | EAlloc (i : nat) (n : Z) | EFree (i : nat) (n : Z) | EDrop (n : Z) | EEnd (i : nat).

(** None when the event is not possible. *)
Definition pstep (limit : Z) (s : pool) (ev : pev) : option pool :=
  match ev with
  | EStart e =>
      if e <? 0 then None
      else if refuse limit s e then Some s
      else Some (mkPool (p_alloc s) (p_proc s + 1) (p_inflight s + e) (mkCall e 0 :: p_run s))
  | EAlloc i n =>
      match nth_error (p_run s) i with
      | Some _ => if n <? 0 then None
                  else Some (mkPool (p_alloc s + n) (p_proc s) (p_inflight s)
                               (upd i (fun c => mkCall (c_exp c) (c_use c + n)) (p_run s)))
      | None => None
      end
  | EFree i n =>
      match nth_error (p_run s) i with
      | Some _ => if (n <? 0) || (p_alloc s <? n) then None
                  else Some (mkPool (p_alloc s - n) (p_proc s) (p_inflight s)
                               (upd i (fun c => mkCall (c_exp c) (c_use c - n)) (p_run s)))
      | None => None
      end
  | EDrop n =>
      if (n <? 0) || (p_alloc s <? n) then None
      else Some (mkPool (p_alloc s - n) (p_proc s) (p_inflight s) (p_run s))
  | EEnd i =>
      match nth_error (p_run s) i with
      | Some c => Some (mkPool (p_alloc s) (p_proc s - 1) (p_inflight s - c_exp c) (del i (p_run s)))
      | None => None
      end
  end.

Fixpoint prun (limit : Z) (evs : list pev) (s : pool) : option pool :=
  match evs with
  | [] => Some s
  | e :: tl => match pstep limit s e with Some s => prun limit tl s | None => None end
  end.
Definition poolStart (alloc : Z) : pool := mkPool alloc 0 0 [].

(** ---- The sweep under pressure, vscore.cpp:1210-1247 ---- *)

(** A frame in a cache: its bytes, and whether somebody else holds it too. A cache: whether its
    size is fixed, its recent value, and its frames from the least recently used one on. *)
Record cframe := mkCF { cf_bytes : Z; cf_shared : bool }.
Record ccache := mkCC { cc_fixed : bool; cc_value : Z; cc_frames : list cframe }.

Definition bytesOf (l : list cframe) : Z := fold_right (fun f a => cf_bytes f + a) 0 l.

(** dropLRUFrames through evictFrames(0, budget), vscore.cpp:2534-2551: the frames left and the
    bytes counted as freed. C10 and C11 are about the linked list behind this. *)
Fixpoint dropBytes (budget : Z) (l : list cframe) (freed : Z) : list cframe * Z :=
  match l with
  | [] => ([], freed)
  | f :: tl => if freed <? budget then dropBytes budget tl (freed + cf_bytes f) else (l, freed)
  end.

(** vscore.cpp:1231-1235: which caches take part. *)
Definition takesPart (c : ccache) : bool := negb (cc_fixed c) && (0 <? bytesOf (cc_frames c)).

(** vscore.cpp:1243-1247: the loop over the sorted entries; the caches afterwards, in order. *)
Fixpoint sweepLoop (excess : Z) (l : list ccache) : list ccache :=
  match l with
  | [] => []
  | c :: tl =>
      let (frames, freed) := dropBytes excess (cc_frames c) 0 in
      let c' := mkCC (cc_fixed c) (cc_value c) frames in
      let excess := excess - Z.min freed excess in
      if excess =? 0 then c' :: tl else c' :: sweepLoop excess tl
  end.

(** vscore.cpp:1219-1223: the target and the excess; [l] is what std::sort made of the entries. *)
Definition target (limit : Z) : Z := limit - limit / 10.
Definition sweep (limit alloc : Z) (l : list ccache) : list ccache :=
  if alloc <=? target limit then l else sweepLoop (alloc - target limit) l.
