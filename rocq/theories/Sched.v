(** The thread pool: contexts, task list, worker threads.  src/core/vsthreadpool.cpp, VSFrameContext in src/core/vscore.h:588-660 and vscore.cpp:69-84.
    Every function below is one critical section of taskLock, or what a thread does between two of them. *)
From Coq Require Import ZArith List Bool Arith.
From Verif Require Import Common SchedSpec.
Import ListNotations.
Open Scope Z_scope.

Inductive fmode := fmParallel | fmParallelRequests | fmUnordered | fmFrameState.
Definition isFrameState (m : fmode) : bool := match m with fmFrameState => true | _ => false end.
(** NodeOutputKey *)
Definition keyEq (a b : key) : bool := (fst a =? fst b) && (snd a =? snd b).

(** VSFrameContext.  Contexts are referred to by the order of their creation. *)
Record ctx := mkC {
  c_key : key; c_ext : bool; c_order : Z; c_first : bool; c_nreq : nat; c_notify : list nat;
  c_err : option Z;                (* error and errorMessage *)
  c_avail : list (key * Z);        (* availableFrames *)
  c_reqs : list key }.             (* reqList *)
Definition newExternal (k : key) (order : Z) : ctx := mkC k true order true 0 [] None [] [].
Definition newInternal (k : key) (order : Z) (notify : nat) : ctx := mkC k false order true 0 [notify] None [] [].
(** VSFrameContext::setError, vscore.cpp:78-84 *)
Definition setError (m : Z) (e : option Z) : option Z := match e with Some m' => Some m' | None => Some m end.

(** A thread with a context: inside getFrameInternal, holding the serial mutex or not, or returned from it with this frame. *)
Inductive reason := arInitial | arAllFramesReady | arError.
Inductive phase := Calling (locked : bool) (ar : reason) | Returned (f : option Z).
Record st := mkS {
  s_ctx : nat -> ctx; s_next : nat;
  s_tasks : list nat; s_alt : list nat;        (* tasks, altTasks *)
  s_all : list (key * nat);                    (* allContexts *)
  s_run : list (nat * phase);
  s_mutex : Z -> bool;                         (* serialMutex of a node is held *)
  s_sframe : Z -> Z; s_sowner : Z -> option nat; (* serialFrame, serialOwner *)
  s_counter : Z; s_flush : bool;               (* reqCounter, flushCaches *)
  s_active : nat; s_waiting : nat; s_notified : nat; (* activeThreads; idleThreads = waiting + notified *)
  s_max : nat;                                 (* maxThreads *)
  s_calls : list (nat * res);                  (* the frameDone callbacks made, oldest first *)
  (* history, read by nothing: *)
  s_live : list nat;                           (* contexts not finished *)
  s_done : list (nat * res);                   (* the others and how they ended *)
  s_hist : list (nat * nat * res);             (* results handed from a context to one waiting for it, oldest first *)
  s_own : list (nat * Z) }.                    (* errors set by the filter itself *)

Definition upd {A} (f : nat -> A) (i : nat) (x : A) : nat -> A := fun j => if Nat.eqb j i then x else f j.
Definition updZ {A} (f : Z -> A) (i : Z) (x : A) : Z -> A := fun j => if Z.eqb j i then x else f j.
Definition setCtx (i : nat) (c : ctx) (s : st) : st :=
  mkS (upd (s_ctx s) i c) (s_next s) (s_tasks s) (s_alt s) (s_all s) (s_run s) (s_mutex s) (s_sframe s) (s_sowner s) (s_counter s) (s_flush s) (s_active s) (s_waiting s) (s_notified s) (s_max s) (s_calls s) (s_live s) (s_done s) (s_hist s) (s_own s).
Definition setTasks (t : list nat) (s : st) : st :=
  mkS (s_ctx s) (s_next s) t (s_alt s) (s_all s) (s_run s) (s_mutex s) (s_sframe s) (s_sowner s) (s_counter s) (s_flush s) (s_active s) (s_waiting s) (s_notified s) (s_max s) (s_calls s) (s_live s) (s_done s) (s_hist s) (s_own s).
Definition setAlt (a : list nat) (s : st) : st :=
  mkS (s_ctx s) (s_next s) (s_tasks s) a (s_all s) (s_run s) (s_mutex s) (s_sframe s) (s_sowner s) (s_counter s) (s_flush s) (s_active s) (s_waiting s) (s_notified s) (s_max s) (s_calls s) (s_live s) (s_done s) (s_hist s) (s_own s).
Definition setAll (a : list (key * nat)) (s : st) : st :=
  mkS (s_ctx s) (s_next s) (s_tasks s) (s_alt s) a (s_run s) (s_mutex s) (s_sframe s) (s_sowner s) (s_counter s) (s_flush s) (s_active s) (s_waiting s) (s_notified s) (s_max s) (s_calls s) (s_live s) (s_done s) (s_hist s) (s_own s).
Definition setRun (r : list (nat * phase)) (s : st) : st :=
  mkS (s_ctx s) (s_next s) (s_tasks s) (s_alt s) (s_all s) r (s_mutex s) (s_sframe s) (s_sowner s) (s_counter s) (s_flush s) (s_active s) (s_waiting s) (s_notified s) (s_max s) (s_calls s) (s_live s) (s_done s) (s_hist s) (s_own s).
Definition setSerial (m : Z -> bool) (f : Z -> Z) (o : Z -> option nat) (s : st) : st :=
  mkS (s_ctx s) (s_next s) (s_tasks s) (s_alt s) (s_all s) (s_run s) m f o (s_counter s) (s_flush s) (s_active s) (s_waiting s) (s_notified s) (s_max s) (s_calls s) (s_live s) (s_done s) (s_hist s) (s_own s).
Definition setThreads (a w n : nat) (s : st) : st :=
  mkS (s_ctx s) (s_next s) (s_tasks s) (s_alt s) (s_all s) (s_run s) (s_mutex s) (s_sframe s) (s_sowner s) (s_counter s) (s_flush s) a w n (s_max s) (s_calls s) (s_live s) (s_done s) (s_hist s) (s_own s).
Definition setCounter (n : Z) (s : st) : st :=
  mkS (s_ctx s) (s_next s) (s_tasks s) (s_alt s) (s_all s) (s_run s) (s_mutex s) (s_sframe s) (s_sowner s) n (s_flush s) (s_active s) (s_waiting s) (s_notified s) (s_max s) (s_calls s) (s_live s) (s_done s) (s_hist s) (s_own s).
Definition setFlush (b : bool) (s : st) : st :=
  mkS (s_ctx s) (s_next s) (s_tasks s) (s_alt s) (s_all s) (s_run s) (s_mutex s) (s_sframe s) (s_sowner s) (s_counter s) b (s_active s) (s_waiting s) (s_notified s) (s_max s) (s_calls s) (s_live s) (s_done s) (s_hist s) (s_own s).
Definition setMax (n : nat) (s : st) : st :=
  mkS (s_ctx s) (s_next s) (s_tasks s) (s_alt s) (s_all s) (s_run s) (s_mutex s) (s_sframe s) (s_sowner s) (s_counter s) (s_flush s) (s_active s) (s_waiting s) (s_notified s) n (s_calls s) (s_live s) (s_done s) (s_hist s) (s_own s).
Definition addCall (c : nat * res) (s : st) : st :=
  mkS (s_ctx s) (s_next s) (s_tasks s) (s_alt s) (s_all s) (s_run s) (s_mutex s) (s_sframe s) (s_sowner s) (s_counter s) (s_flush s) (s_active s) (s_waiting s) (s_notified s) (s_max s) (s_calls s ++ [c]) (s_live s) (s_done s) (s_hist s) (s_own s).
Definition addHist (h : nat * nat * res) (s : st) : st :=
  mkS (s_ctx s) (s_next s) (s_tasks s) (s_alt s) (s_all s) (s_run s) (s_mutex s) (s_sframe s) (s_sowner s) (s_counter s) (s_flush s) (s_active s) (s_waiting s) (s_notified s) (s_max s) (s_calls s) (s_live s) (s_done s) (s_hist s ++ [h]) (s_own s).
Definition addOwn (o : nat * Z) (s : st) : st :=
  mkS (s_ctx s) (s_next s) (s_tasks s) (s_alt s) (s_all s) (s_run s) (s_mutex s) (s_sframe s) (s_sowner s) (s_counter s) (s_flush s) (s_active s) (s_waiting s) (s_notified s) (s_max s) (s_calls s) (s_live s) (s_done s) (s_hist s) (s_own s ++ [o]).
Definition retire (i : nat) (r : res) (s : st) : st :=
  mkS (s_ctx s) (s_next s) (s_tasks s) (s_alt s) (s_all s) (s_run s) (s_mutex s) (s_sframe s) (s_sowner s) (s_counter s) (s_flush s) (s_active s) (s_waiting s) (s_notified s) (s_max s) (s_calls s) (filter (fun j => negb (Nat.eqb j i)) (s_live s)) (s_done s ++ [(i, r)]) (s_hist s) (s_own s).
(** A new context joins; its number is s_next. *)
Definition newCtx (c : ctx) (s : st) : st :=
  mkS (upd (s_ctx s) (s_next s) c) (S (s_next s)) (s_tasks s) (s_alt s) (s_all s) (s_run s) (s_mutex s) (s_sframe s) (s_sowner s) (s_counter s) (s_flush s) (s_active s) (s_waiting s) (s_notified s) (s_max s) (s_calls s) (s_live s ++ [s_next s]) (s_done s) (s_hist s) (s_own s).

Definition nobody : ctx := mkC (0, 0) false 0 true 0 [] None [] [].
Definition start (max : nat) : st :=
  mkS (fun _ => nobody) 0 [] [] [] [] (fun _ => false) (fun _ => -1) (fun _ => None) 0 false 0 0 0 max [] [] [] [] [].

(** taskCmp, vsthreadpool.cpp:76-78, and std::list::sort, which is stable. *)
Definition taskLt (s : st) (a b : nat) : bool :=
  let x := s_ctx s a in let y := s_ctx s b in
  (c_order x <? c_order y) || ((c_order x =? c_order y) && (snd (c_key x) <? snd (c_key y))).
Fixpoint insertTask (s : st) (a : nat) (l : list nat) : list nat :=
  match l with [] => [a] | b :: r => if taskLt s b a then b :: insertTask s a r else a :: l end.
Definition sortTasks (s : st) : st := setTasks (fold_right (insertTask s) [] (s_tasks s)) s.

(** wakeThread, vsthreadpool.cpp:426-438; [over]: core->memory->is_over_limit().  A condition variable's notify_one wakes a waiting thread, if any. *)
Definition wakeThread (over : bool) (s : st) : st :=
  if (s_active s <? s_max s)%nat then
    if over && (0 <? s_active s)%nat then s
    else if Nat.eqb (s_waiting s + s_notified s) 0 then setThreads (S (s_active s)) (s_waiting s) (s_notified s) s
    else setThreads (s_active s) (pred (s_waiting s)) (if Nat.eqb (s_waiting s) 0 then s_notified s else S (s_notified s)) s
  else s.
(** queueTask, vsthreadpool.cpp:420-424 *)
Definition queueTask (over : bool) (i : nat) (s : st) : st := wakeThread over (setTasks (i :: s_tasks s) s).

(** startExternal, vsthreadpool.cpp:440-459, for requests from threads outside the pool (reserveThread false). *)
Definition startExternal (over : bool) (k : key) (s : st) : st :=
  let i := s_next s in
  let s := setCounter (s_counter s + 1) s in
  let s := newCtx (newExternal k (s_counter s)) s in
  if s_flush s then setAlt (s_alt s ++ [i]) s else wakeThread over (setTasks (s_tasks s ++ [i]) s).

(** startInternalRequest, vsthreadpool.cpp:495-513; Err: logFatal. *)
Definition findKey (k : key) (l : list (key * nat)) : option nat := option_map snd (find (fun e => keyEq k (fst e)) l).
Definition eraseKey (k : key) (l : list (key * nat)) : list (key * nat) := filter (fun e => negb (keyEq k (fst e))) l.
Definition startInternal (over : nat -> bool) (w : nat) (k : key) (s : st) : outcome st :=
  if snd k <? 0 then Err
  else match findKey k (s_all s) with
       | Some i => let c := s_ctx s i in
           Ok (setCtx i (mkC (c_key c) (c_ext c) (Z.min (c_order c) (c_order (s_ctx s w))) (c_first c) (c_nreq c) (c_notify c ++ [w]) (c_err c) (c_avail c) (c_reqs c)) s)
       | None => let i := s_next s in
           let s := newCtx (newInternal k (c_order (s_ctx s w)) w) s in
           Ok (queueTask (over i) i (setAll (s_all s ++ [(k, i)]) s))
       end.
Fixpoint startRequests (over : nat -> bool) (w : nat) (ks : list key) (s : st) : outcome st :=
  match ks with [] => Ok s | k :: r => obind (startInternal over w k s) (startRequests over w r) end.

(** Telling one waiting context, vsthreadpool.cpp:129-138, 309-318 and 323-332; UB: numFrameRequests is already zero. *)
Definition tell (over : nat -> bool) (i : nat) (r : res) (w : nat) (s : st) : outcome st :=
  let c := s_ctx s w in
  let err := match r with Failed m => setError m (c_err c) | Frame _ => c_err c end in
  let avail := match r with Frame f => c_avail c ++ [(c_key (s_ctx s i), f)] | Failed _ => c_avail c end in
  match c_nreq c with
  | O => UB
  | S n =>
      let s := addHist (i, w, r) (setCtx w (mkC (c_key c) (c_ext c) (c_order c) (c_first c) n (c_notify c) err avail (c_reqs c)) s) in
      Ok (if Nat.eqb n 0 then queueTask (over w) w s else s)
  end.
Fixpoint tellAll (over : nat -> bool) (i : nat) (r : res) (ws : list nat) (s : st) : outcome st :=
  match ws with [] => Ok s | w :: l => obind (tell over i r w s) (tellAll over i r l) end.
Definition removeTask (i : nat) (l : list nat) : list nat := filter (fun j => negb (Nat.eqb j i)) l.
(** returnFrame or leaving allContexts, 144-147, 302-303 and 320-321; the callback itself runs without the lock. *)
Definition finish (i : nat) (r : res) (s : st) : st :=
  let s := retire i r s in
  if c_ext (s_ctx s i) then addCall (i, r) s else setAll (eraseKey (c_key (s_ctx s i)) (s_all s)) s.

(** ** Looking for a task, vsthreadpool.cpp:116-205 *)
Section Pool.
Variable modeOf : Z -> fmode.
Definition processing (s : st) : nat := List.length (filter (fun e => match snd e with Calling _ _ => true | Returned _ => false end) (s_run s)).
Definition useSerialLock (m : fmode) (first : bool) : bool :=
  match m with fmFrameState | fmUnordered => true | fmParallelRequests => negb first | fmParallel => false end.
(** [cached]: getCachedFrameInternal for the key of a context, None also if the node has no cache; [fits]: admission control. *)
Fixpoint scan (s : st) (cached : nat -> option Z) (fits : nat -> bool) (l : list nat) (seen : list Z) : option (nat * option Z) :=
  match l with
  | [] => None
  | i :: r =>
      let c := s_ctx s i in
      let nd := fst (c_key c) in
      match (if c_first c then cached i else None) with
      | Some f => Some (i, Some f)
      | None =>
          let fs := isFrameState (modeOf nd) in
          if negb fs && existsb (Z.eqb nd) seen then scan s cached fits r seen
          else
            let seen := if negb fs && (List.length seen <? 64)%nat then nd :: seen else seen in
            if (0 <? processing s)%nat && negb (fits i) then scan s cached fits r seen
            else if useSerialLock (modeOf nd) (c_first c) && s_mutex s nd then scan s cached fits r seen
            else if fs && negb (s_sframe s nd =? -1) && negb (match s_sowner s nd with Some o => Nat.eqb o i | None => false end) then scan s cached fits r seen
            else Some (i, None)
      end
  end.
(** The frame was cached, 126-154.  Leaving allContexts before the others are told changes nothing, since telling does not look there. *)
Definition sortIfGrown (n : nat) (s : st) : st := if Nat.eqb (List.length (s_tasks s)) n then s else sortTasks s. (* needsSort: queueTask was called *)
Definition runCached (over : nat -> bool) (i : nat) (f : Z) (s : st) : outcome st :=
  let s := finish i (Frame f) (setTasks (removeTask i (s_tasks s)) s) in
  obind (tellAll over i (Frame f) (c_notify (s_ctx s i)) s) (fun s' => Ok (sortIfGrown (List.length (s_tasks s)) s')).
(** Starting a call, 193-232. *)
Definition setFirst (c : ctx) : ctx :=
  mkC (c_key c) (c_ext c) (c_order c) (match c_err c with Some _ => c_first c | None => false end) (c_nreq c) (c_notify c) (c_err c) (c_avail c) (c_reqs c).
Definition reasonOf (c : ctx) : reason := match c_err c with Some _ => arError | None => if c_first c then arInitial else arAllFramesReady end.
Definition take (i : nat) (s : st) : st :=
  let c := s_ctx s i in
  let nd := fst (c_key c) in
  let lk := useSerialLock (modeOf nd) (c_first c) in
  let s := if lk then
             if isFrameState (modeOf nd) && (s_sframe s nd =? -1) then setSerial (updZ (s_mutex s) nd true) (updZ (s_sframe s) nd (snd (c_key c))) (updZ (s_sowner s) nd (Some i)) s
             else setSerial (updZ (s_mutex s) nd true) (s_sframe s) (s_sowner s) s
           else s in
  setRun (s_run s ++ [(i, Calling lk (reasonOf c))]) (setCtx i (setFirst c) (setTasks (removeTask i (s_tasks s)) s)).

(** What a filter did in one call: returned a frame, set an error, or requested frames.  Anything else is logFatal. *)
Inductive ret := RFrame (f : Z) | RError (m : Z) | RRequests (ks : list key).
Definition hasError (c : ctx) : bool := match c_err c with Some _ => true | None => false end.
Definition setPhase (i : nat) (p : phase) (l : list (nat * phase)) : list (nat * phase) := map (fun e => if Nat.eqb (fst e) i then (i, p) else e) l.
Definition phaseOf (i : nat) (l : list (nat * phase)) : option phase := option_map snd (find (fun e => Nat.eqb (fst e) i) l).
(** The call returns, 234-252. *)
Definition returns (i : nat) (x : ret) (s : st) : outcome st :=
  match phaseOf i (s_run s) with
  | Some (Calling lk _) =>
      let c := s_ctx s i in
      let nd := fst (c_key c) in
      let err := match x with RError m => setError m (c_err c) | _ => c_err c end in
      let reqs := match x with RRequests ks => c_reqs c ++ ks | _ => c_reqs c end in
      let f := match x with RFrame f => Some f | _ => None end in
      let c := mkC (c_key c) (c_ext c) (c_order c) (c_first c) (c_nreq c) (c_notify c) err (c_avail c) reqs in
      let done := match f with Some _ => true | None => hasError c end in
      if match f with Some _ => hasError c | None => false end then Err
      else
        let s := match x with RError m => addOwn (i, m) s | _ => s end in
        let s := setRun (setPhase i (Returned f) (s_run s)) (setCtx i c s) in
        Ok (if lk then
              if done && isFrameState (modeOf nd) then setSerial (updZ (s_mutex s) nd false) (updZ (s_sframe s) nd (-1)) (updZ (s_sowner s) nd None) s
              else setSerial (updZ (s_mutex s) nd false) (s_sframe s) (s_sowner s) s
            else s)
  | _ => UB
  end.
(** The rest, 254-343; the removal from s_run stands for the thread going on. *)
Definition removeRun (i : nat) (l : list (nat * phase)) : list (nat * phase) := filter (fun e => negb (Nat.eqb (fst e) i)) l.
Definition complete (over : nat -> bool) (i : nat) (s : st) : outcome st :=
  match phaseOf i (s_run s) with
  | Some (Returned f) =>
      let c := s_ctx s i in
      let done := match f with Some _ => true | None => hasError c end in
      let requested := negb (Nat.eqb (List.length (c_reqs c)) 0) && negb done in
      let s := setRun (removeRun i (s_run s)) s in
      if requested then
        obind (startRequests over i (c_reqs c) s) (fun s =>
        let c := s_ctx s i in
        let s := setCtx i (mkC (c_key c) (c_ext c) (c_order c) (c_first c) (List.length (c_reqs c)) (c_notify c) (c_err c) (c_avail c) []) s in
        Ok (sortTasks s))
      else
        match c_err c, f with
        | Some m, _ => let s := finish i (Failed m) s in obind (tellAll over i (Failed m) (c_notify c) s) (fun s' => Ok (sortIfGrown (List.length (s_tasks s)) s'))
        | None, Some f => let s := finish i (Frame f) s in obind (tellAll over i (Frame f) (c_notify c) s) (fun s' => Ok (sortIfGrown (List.length (s_tasks s)) s'))
        | None, None => Err
        end
  | _ => UB
  end.

(** A thread without a context waits, 347-383.  [none]: it found nothing to run. *)
Definition freeThread (s : st) : bool := (List.length (s_run s) <? s_active s)%nat.
Definition mayPark (none over : bool) (s : st) : bool := none || (s_max s <? s_active s)%nat || (over && (1 <? s_active s)%nat).
Definition park (s : st) : st :=
  if s_flush s && Nat.eqb (s_active s) 1 then setThreads (s_active s) 0 (s_waiting s + s_notified s) (setFlush false (setAlt (s_tasks s) (setTasks (s_alt s) s)))
  else setThreads (pred (s_active s)) (S (s_waiting s)) (s_notified s) s.
(** newWork.wait returns, 377-381 *)
Definition wakes (s : st) : st :=
  if (s_max s <=? s_active s)%nat then setThreads (s_active s) (S (s_waiting s)) (pred (s_notified s)) s
  else setThreads (S (s_active s)) (s_waiting s) (pred (s_notified s)) s.

(** Everything that can happen.  A filter only requests frames of nodes below its own in [rank], and at least one if it does so. *)
Variable rank : Z -> nat.
Inductive step (s : st) : st -> Prop :=
| st_external : forall over k, 0 <= snd k -> step s (startExternal over k s)
| st_cached : forall over cached fits i f s', freeThread s = true -> scan s cached fits (s_tasks s) [] = Some (i, Some f) -> runCached over i f s = Ok s' -> step s s'
| st_take : forall cached fits i, freeThread s = true -> scan s cached fits (s_tasks s) [] = Some (i, None) -> step s (take i s)
| st_returns : forall i x s', match x with RRequests ks => ks <> [] /\ Forall (fun k => 0 <= snd k /\ (rank (fst k) < rank (fst (c_key (s_ctx s i))))%nat) ks | _ => True end ->
    returns i x s = Ok s' -> step s s'
| st_complete : forall over i s', complete over i s = Ok s' -> step s s'
| st_park : forall cached fits over, freeThread s = true ->
    mayPark (match scan s cached fits (s_tasks s) [] with None => true | Some _ => false end) over s = true -> step s (park s)
| st_wakes : (0 < s_notified s)%nat -> step s (wakes s)
| st_spurious : (0 < s_waiting s)%nat -> step s (setThreads (s_active s) (pred (s_waiting s)) (S (s_notified s)) s)
| st_max : forall n, (0 < n)%nat -> step s (setMax n s)
| st_flush : (0 < s_active s)%nat -> step s (setFlush true s).
Inductive reachable : st -> Prop :=
| re_start : forall n, (0 < n)%nat -> reachable (start n)
| re_step : forall s s', reachable s -> step s s' -> reachable s'.
End Pool.
