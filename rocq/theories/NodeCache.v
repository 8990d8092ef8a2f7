(** Per-node caching decision and its use of the cache.
    Source: src/core/vscore.cpp:858-893 (updateCacheState, addConsumer,
    removeConsumer), 992-1053 (setLinear, setCacheMode, setCacheOptions,
    getCachedFrameInternal), 1105-1115 (insertion after a frame was produced),
    1153-1178 (cacheFrame, clearCache, notifyCache, evictCacheBytes).
    Every function runs under the node's cacheMutex, hence is one atomic step.
    Not modelled: registration of the node in core->caches. *)
From Coq Require Import ZArith List Lia Bool.
From Verif Require Import Common ReqPat CacheSpec Cache.
Import ListNotations.
Open Scope Z_scope.

Section NodeCache.
Variable F : Type.
Variable fsz : F -> Z.

(** A consumer: the consuming node and its declared pattern. *)
Definition consumer := (Z * reqpat)%type.

Record nstate := {
  consumers : list consumer;
  cOverride : bool; cEnabled : bool; cLastOnly : bool; cLinear : bool;
  ncache : cache F }.

Definition pat_eqb (a b : reqpat) : bool :=
  match a, b with
  | rpGeneral, rpGeneral | rpNoFrameReuse, rpNoFrameReuse
  | rpStrictSpatial, rpStrictSpatial | rpFrameReuseLastOnly, rpFrameReuseLastOnly => true
  | _, _ => false
  end.

Definition mk cs o e l li c := {| consumers := cs; cOverride := o; cEnabled := e; cLastOnly := l; cLinear := li; ncache := c |}.

(** vscore.cpp:858-867 *)
Definition updateCacheState (s : nstate) : nstate :=
  if cOverride s then s
  else
    let one := zlength (consumers s) =? 1 in
    let p0 := match consumers s with (_, p) :: _ => p | [] => rpGeneral end in
    let en := negb one || (one && negb (pat_eqb p0 rpStrictSpatial) && negb (pat_eqb p0 rpNoFrameReuse)) in
    let lo := one && pat_eqb p0 rpFrameReuseLastOnly in
    mk (consumers s) (cOverride s) en lo (cLinear s) (if en then ncache s else clear F (ncache s)).

Definition set_consumers s cs := mk cs (cOverride s) (cEnabled s) (cLastOnly s) (cLinear s) (ncache s).
Definition set_cache s c := mk (consumers s) (cOverride s) (cEnabled s) (cLastOnly s) (cLinear s) c.

(** vscore.cpp:869-876 *)
Definition addConsumer (s : nstate) (c : consumer) : nstate :=
  updateCacheState (set_consumers s (consumers s ++ [c])).

(** vscore.cpp:878-893: erases the first match. *)
Fixpoint erase (c : consumer) (l : list consumer) : list consumer :=
  match l with
  | [] => []
  | x :: t => if (fst x =? fst c) && pat_eqb (snd x) (snd c) then t else x :: erase c t
  end.
Definition removeConsumer (s : nstate) (c : consumer) : nstate :=
  updateCacheState (set_consumers s (erase c (consumers s))).

(** vscore.cpp:991-1003 *)
Definition setLinear (s : nstate) (threads : Z) : outcome nstate :=
  obind (setMaxFrames F fsz (setFixedSize F (ncache s) true) (threads * 2 + 20)) (fun c =>
  Ok (mk (consumers s) true true false true c)).

(** vscore.cpp:1005-1036 *)
Definition setCacheMode (s : nstate) (mode : Z) : outcome nstate :=
  if cLinear s || (mode <? -1) || (1 <? mode) then Ok s
  else
    let s1 :=
      if mode =? -1 then updateCacheState (mk (consumers s) false (cEnabled s) (cLastOnly s) (cLinear s) (ncache s))
      else if mode =? 0 then mk (consumers s) true false false (cLinear s) (ncache s)
      else mk (consumers s) true true false (cLinear s) (ncache s) in
    let c := resetSizeTuning F (setFixedSize F (ncache s1) false) in
    obind (setMaxFrames F fsz c 20) (fun c =>
    obind (setMaxHistory F fsz c 20) (fun c =>
    Ok (set_cache s1 (if cEnabled s1 then c else clear F c)))).

(** vscore.cpp:1038-1046 *)
Definition setCacheOptions (s : nstate) (fx m mh : Z) : outcome nstate :=
  let c := if 0 <=? fx then setFixedSize F (ncache s) (negb (fx =? 0)) else ncache s in
  obind (if 0 <=? m then setUserMaxFrames F fsz c m else Ok c) (fun c =>
  obind (if 0 <=? mh then setMaxHistory F fsz c mh else Ok c) (fun c =>
  Ok (set_cache s c))).

(** vscore.cpp:1048-1054 *)
Definition getCachedFrame (s : nstate) (n : Z) : outcome (nstate * option F) :=
  if cEnabled s then obind (relink F fsz (ncache s) n) (fun r => Ok (set_cache s (fst r), snd r))
  else Ok (s, None).

(** vscore.cpp:1108-1114: frame [n] of a clip of [N] frames was produced. *)
Definition deliver (s : nstate) (N n : Z) (f : F) : outcome nstate :=
  if cEnabled s && (negb (cLastOnly s) || (n =? N - 1))
  then obind (insert F fsz (ncache s) n f) (fun c => Ok (set_cache s c))
  else Ok s.

(** vscore.cpp:1153-1178; cacheFrame asserts cacheLinear. *)
Definition cacheFrame (s : nstate) (n : Z) (f : F) : outcome nstate :=
  if cLinear s then obind (insert F fsz (ncache s) n f) (fun c => Ok (set_cache s c)) else UB.
Definition clearCache (s : nstate) (reset : bool) : outcome nstate :=
  let c := clear F (ncache s) in
  if reset && negb (cLinear s) && negb (fixedSize F c)
  then obind (setMaxFrames F fsz c (reSeedSize F c)) (fun c => Ok (set_cache s c))
  else Ok (set_cache s c).
Definition notifyCache (s : nstate) (m : bool) (x : Z) : outcome nstate :=
  obind (adjustSize F fsz (ncache s) m x) (fun c => Ok (set_cache s c)).
Definition evictCacheBytes (s : nstate) (b : Z) : outcome nstate :=
  obind (dropLRUFrames F fsz (ncache s) b) (fun r => Ok (set_cache s (fst r))).

(** Constructor state (vscore.h:912-915 defaults, then updateCacheState with no consumers). *)
Definition newNode : nstate := updateCacheState (mk [] false false false false (newCache F 20 20 false)).

Inductive nop :=
| NAdd (c : consumer) | NRemove (c : consumer) | NMode (m : Z) | NOptions (fx m mh : Z)
| NLinear (threads : Z) | NLookup (n : Z) | NDeliver (N n : Z) (f : F) | NCacheFrame (n : Z) (f : F)
| NClear (reset : bool) | NNotify (m : bool) (x : Z) | NEvict (b : Z).

Definition nstep (s : nstate) (o : nop) : outcome (nstate * option F) :=
  let wrap r := obind r (fun s => Ok (s, None)) in
  match o with
  | NAdd c => Ok (addConsumer s c, None)
  | NRemove c => Ok (removeConsumer s c, None)
  | NMode m => wrap (setCacheMode s m)
  | NOptions fx m mh => wrap (setCacheOptions s fx m mh)
  | NLinear t => wrap (setLinear s t)
  | NLookup n => getCachedFrame s n
  | NDeliver N n f => wrap (deliver s N n f)
  | NCacheFrame n f => wrap (cacheFrame s n f)
  | NClear b => wrap (clearCache s b)
  | NNotify m x => wrap (notifyCache s m x)
  | NEvict b => wrap (evictCacheBytes s b)
  end.

(** What the callers guarantee: memory fits, cacheFrame only on linear nodes. *)
Definition nop_ok (s : nstate) (o : nop) : Prop :=
  match o with
  | NDeliver _ _ f => 0 <= fsz f /\ currentBytes F (ncache s) + fsz f < SIZE_MAX
  | NCacheFrame _ f => cLinear s = true /\ 0 <= fsz f /\ currentBytes F (ncache s) + fsz f < SIZE_MAX
  | NLinear t => 0 <= t
  | _ => True
  end.

Fixpoint nrun (s : nstate) (os : list nop) : outcome nstate :=
  match os with
  | [] => Ok s
  | o :: t => obind (nstep s o) (fun r => nrun (fst r) t)
  end.

(** Reachable states. *)
Inductive reach : nstate -> Prop :=
| reach_new : reach newNode
| reach_step : forall s o s' r, reach s -> nop_ok s o -> nstep s o = Ok (s', r) -> reach s'.

End NodeCache.
