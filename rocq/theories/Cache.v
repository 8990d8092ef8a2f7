(** The per-node frame cache.  Source: src/core/vscore.h:657-878 (VSNode::VSCache)
    and src/core/vscore.cpp:2465-2605.
    Modelled at pointer level: the hash of nodes, prevNode/nextNode links, the
    first/weakpoint/last pointers, every counter.  A node lives in the hash under
    its key (std::unordered_map keeps node addresses stable), so a pointer to a
    node is its key; following a null pointer or a pointer to an erased node is
    [UB].
    Imports only the interface type [op] from CacheSpec.
    Simplifications: counters and byte sums are unbounded integers (int / size_t
    in the code); a frame is an abstract value whose totalByteSize() is [fsz];
    loops take their iteration bound as fuel and running out of fuel is [UB]
    (proved not to happen). *)
From Coq Require Import ZArith List Lia Bool.
From Verif Require Import Common CacheSpec.
Import ListNotations.
Open Scope Z_scope.

Definition oeqb (a b : option Z) : bool :=
  match a, b with Some x, Some y => x =? y | None, None => true | _, _ => false end.

Section Cache.
Variable F : Type.
Variable fsz : F -> Z.

(** vscore.h:659-666 *)
Record node := { n_frame : option F; n_prev : option Z; n_next : option Z }.

Definition heap := Z -> option node.
Definition hset (h : heap) (k : Z) (n : node) : heap := fun x => if x =? k then Some n else h x.
Definition hdel (h : heap) (k : Z) : heap := fun x => if x =? k then None else h x.

(** vscore.h:668-694 *)
Record cache := {
  hash : heap; cfirst : option Z; cweak : option Z; clast : option Z;
  maxSize : Z; currentSize : Z; maxHistorySize : Z; historySize : Z;
  fixedSize : bool; hits : Z; nearMiss : Z; farMiss : Z;
  currentBytes : Z; userSize : Z; lastActivity : Z }.

Definition set_hash c h := {| hash := h; cfirst := cfirst c; cweak := cweak c; clast := clast c;
  maxSize := maxSize c; currentSize := currentSize c; maxHistorySize := maxHistorySize c; historySize := historySize c;
  fixedSize := fixedSize c; hits := hits c; nearMiss := nearMiss c; farMiss := farMiss c;
  currentBytes := currentBytes c; userSize := userSize c; lastActivity := lastActivity c |}.
Definition set_ptrs c f w l := {| hash := hash c; cfirst := f; cweak := w; clast := l;
  maxSize := maxSize c; currentSize := currentSize c; maxHistorySize := maxHistorySize c; historySize := historySize c;
  fixedSize := fixedSize c; hits := hits c; nearMiss := nearMiss c; farMiss := farMiss c;
  currentBytes := currentBytes c; userSize := userSize c; lastActivity := lastActivity c |}.
Definition set_counts c cs hs b := {| hash := hash c; cfirst := cfirst c; cweak := cweak c; clast := clast c;
  maxSize := maxSize c; currentSize := cs; maxHistorySize := maxHistorySize c; historySize := hs;
  fixedSize := fixedSize c; hits := hits c; nearMiss := nearMiss c; farMiss := farMiss c;
  currentBytes := b; userSize := userSize c; lastActivity := lastActivity c |}.
Definition set_stats c h n f := {| hash := hash c; cfirst := cfirst c; cweak := cweak c; clast := clast c;
  maxSize := maxSize c; currentSize := currentSize c; maxHistorySize := maxHistorySize c; historySize := historySize c;
  fixedSize := fixedSize c; hits := h; nearMiss := n; farMiss := f;
  currentBytes := currentBytes c; userSize := userSize c; lastActivity := lastActivity c |}.
Definition set_limits c m mh := {| hash := hash c; cfirst := cfirst c; cweak := cweak c; clast := clast c;
  maxSize := m; currentSize := currentSize c; maxHistorySize := mh; historySize := historySize c;
  fixedSize := fixedSize c; hits := hits c; nearMiss := nearMiss c; farMiss := farMiss c;
  currentBytes := currentBytes c; userSize := userSize c; lastActivity := lastActivity c |}.
Definition set_tuning c fx u la := {| hash := hash c; cfirst := cfirst c; cweak := cweak c; clast := clast c;
  maxSize := maxSize c; currentSize := currentSize c; maxHistorySize := maxHistorySize c; historySize := historySize c;
  fixedSize := fx; hits := hits c; nearMiss := nearMiss c; farMiss := farMiss c;
  currentBytes := currentBytes c; userSize := u; lastActivity := la |}.

(** Writing a field through a pointer. *)
Definition upd (h : heap) (k : Z) (f : node -> node) : outcome heap :=
  match h k with Some n => Ok (hset h k (f n)) | None => UB end.
Definition with_next x (n : node) := {| n_frame := n_frame n; n_prev := n_prev n; n_next := x |}.
Definition with_prev x (n : node) := {| n_frame := n_frame n; n_prev := x; n_next := n_next n |}.
Definition no_frame (n : node) := {| n_frame := None; n_prev := n_prev n; n_next := n_next n |}.

Definition frame_bytes (n : node) : Z := match n_frame n with Some f => fsz f | None => 0 end.

(** vscore.h:816-826 *)
Definition clearStats c := set_stats c 0 0 0.
Definition clear (c : cache) : cache :=
  clearStats (set_counts (set_ptrs (set_hash c (fun _ => None)) None None None) 0 0 0).

(** vscore.h:703-727.  Unlinks and erases the node at [k]. *)
Definition unlink (c : cache) (k : Z) : outcome cache :=
  match hash c k with
  | None => UB
  | Some n =>
    let w := if oeqb (cweak c) (Some k) then n_next n else cweak c in
    obind (match n_prev n with Some p => upd (hash c) p (with_next (n_next n)) | None => Ok (hash c) end) (fun h1 =>
    obind (match n_next n with Some x => upd h1 x (with_prev (n_prev n)) | None => Ok h1 end) (fun h2 =>
    let l := if oeqb (clast c) (Some k) then n_prev n else clast c in
    let f := if oeqb (cfirst c) (Some k) then n_next n else cfirst c in
    let c1 := set_hash (set_ptrs c f w l) (hdel h2 k) in
    match n_frame n with
    | Some fr => Ok (set_counts c1 (currentSize c - 1) (historySize c) (currentBytes c - fsz fr))
    | None => Ok (set_counts c1 (currentSize c) (historySize c - 1) (currentBytes c))
    end))
  end.

(** vscore.cpp:2534-2558, first loop (count and byte conditions), body of one
    iteration and loop. *)
Definition evict_one (c : cache) : outcome (cache * Z) :=
  obind (match cweak c with
         | None => Ok (clast c)
         | Some w => match hash c w with Some n => Ok (n_prev n) | None => UB end
         end) (fun w =>
  match w with
  | None => Ok (set_counts (set_ptrs c (cfirst c) None (clast c)) (currentSize c - 1) (historySize c + 1) (currentBytes c), 0)
  | Some k =>
    match hash c k with
    | None => UB
    | Some n => Ok (set_counts (set_ptrs (set_hash c (hset (hash c) k (no_frame n))) (cfirst c) (Some k) (clast c))
                     (currentSize c - 1) (historySize c + 1) (currentBytes c - frame_bytes n), frame_bytes n)
    end
  end).

Fixpoint evict_loop (fuel : nat) (c : cache) (maxCount budget freed : Z) : outcome (cache * Z) :=
  if (maxCount <? currentSize c) && (freed <? budget) then
    match fuel with
    | O => UB
    | S fu => obind (evict_one c) (fun r => evict_loop fu (fst r) maxCount budget (freed + snd r))
    end
  else Ok (c, freed).

(** vscore.cpp:2553-2555 *)
Fixpoint hist_loop (fuel : nat) (c : cache) : outcome cache :=
  match clast c with
  | None => Ok c
  | Some l =>
    if maxHistorySize c <? historySize c then
      match fuel with
      | O => UB
      | S fu => obind (unlink c l) (hist_loop fu)
      end
    else Ok c
  end.

(** SIZE_MAX as a byte budget. *)
Definition SIZE_MAX : Z := 18446744073709551615.

Definition evictFrames (c : cache) (maxCount budget : Z) : outcome (cache * Z) :=
  obind (evict_loop (Z.to_nat (currentSize c - maxCount)) c maxCount budget 0) (fun r =>
  obind (hist_loop (Z.to_nat (historySize (fst r) - maxHistorySize (fst r))) (fst r)) (fun c2 =>
  Ok (c2, snd r))).

(** vscore.h:729-782 *)
Definition relink (c : cache) (k : Z) : outcome (cache * option F) :=
  match hash c k with
  | None => Ok (set_stats c (hits c) (nearMiss c) (farMiss c + 1), None)
  | Some n =>
    match n_frame n with
    | None => Ok (set_stats c (hits c) (nearMiss c + 1) (farMiss c), None)
    | Some _ =>
      let c := set_stats c (hits c + 1) (nearMiss c) (farMiss c) in
      let orig := cweak c in
      let c := if oeqb orig (Some k) then set_ptrs c (cfirst c) (n_next n) (clast c) else c in
      obind
        (if oeqb (cfirst c) (Some k) then Ok c
         else
           obind (match n_prev n with Some p => upd (hash c) p (with_next (n_next n)) | None => Ok (hash c) end) (fun h1 =>
           obind (match n_next n with Some x => upd h1 x (with_prev (n_prev n)) | None => Ok h1 end) (fun h2 =>
           let l := if oeqb (clast c) (Some k) then n_prev n else clast c in
           obind (upd h2 k (fun n => with_next (cfirst c) (with_prev None n))) (fun h3 =>
           match cfirst c with
           | None => UB
           | Some f => obind (upd h3 f (with_prev (Some k))) (fun h4 =>
                       Ok (set_hash (set_ptrs c (Some k) (cweak c) l) h4))
           end))))
      (fun c =>
      obind
        (match cweak c with
         | None =>
           if maxSize c <? currentSize c then
             match clast c with
             | None => UB
             | Some l => match hash c l with
                         | None => UB
                         | Some m => Ok (set_counts (set_ptrs (set_hash c (hset (hash c) l (no_frame m))) (cfirst c) (Some l) (clast c))
                                          (currentSize c) (historySize c) (currentBytes c - frame_bytes m))
                         end
             end
           else Ok c
         | Some w =>
           if oeqb orig (Some k) || (maxHistorySize c <? historySize c) then
             match hash c w with
             | None => UB
             | Some wn =>
               match n_prev wn with
               | None => UB
               | Some p => match hash c p with
                           | None => UB
                           | Some m => Ok (set_counts (set_ptrs (set_hash c (hset (hash c) p (no_frame m))) (cfirst c) (Some p) (clast c))
                                            (currentSize c) (historySize c) (currentBytes c - frame_bytes m))
                           end
               end
             end
           else Ok c
         end)
      (fun c =>
        match hash c k with Some n' => Ok (c, n_frame n') | None => UB end))
    end
  end.

(** vscore.cpp:2498-2507 *)
Definition remove (c : cache) (k : Z) : outcome (cache * bool) :=
  match hash c k with
  | None => Ok (c, false)
  | Some _ => obind (unlink c k) (fun c' => Ok (c', true))
  end.

(** vscore.cpp:2510-2531 *)
Definition insert (c : cache) (k : Z) (f : F) : outcome cache :=
  obind (remove c k) (fun r =>
  let c := fst r in
  let h := hset (hash c) k {| n_frame := Some f; n_prev := None; n_next := None |} in
  obind (match cfirst c with Some x => upd h x (with_prev (Some k)) | None => Ok h end) (fun h =>
  obind (upd h k (with_next (cfirst c))) (fun h =>
  let l := match clast c with None => Some k | Some _ => clast c end in
  let c := set_counts (set_hash (set_ptrs c (Some k) (cweak c) l) h)
             (currentSize c + 1) (historySize c) (currentBytes c + fsz f) in
  obind (evictFrames c (maxSize c) SIZE_MAX) (fun r => Ok (fst r))))).

(** vscore.h:800-812, 865-873 *)
Definition setMaxFrames (c : cache) (m : Z) : outcome cache :=
  obind (evictFrames (set_limits c m (maxHistorySize c)) m SIZE_MAX) (fun r => Ok (fst r)).
Definition setMaxHistory (c : cache) (m : Z) : outcome cache :=
  obind (evictFrames (set_limits c (maxSize c) m) (maxSize c) SIZE_MAX) (fun r => Ok (fst r)).
Definition setFixedSize (c : cache) (b : bool) : cache := set_tuning c b (userSize c) (lastActivity c).
Definition setUserMaxFrames (c : cache) (m : Z) : outcome cache :=
  setMaxFrames (set_tuning c (fixedSize c) m (lastActivity c)) m.
Definition resetSizeTuning (c : cache) : cache := set_tuning c (fixedSize c) 0 (lastActivity c).
Definition reSeedSize (c : cache) : Z := Z.max 20 (userSize c).

(** vscore.cpp:2560-2568 *)
Definition dropLRUFrames (c : cache) (maxBytes : Z) : outcome (cache * Z) :=
  obind (evictFrames c 0 maxBytes) (fun r =>
  let c := fst r in
  Ok (if reSeedSize c <? maxSize c
      then set_limits c (Z.max (reSeedSize c) (currentSize c)) (maxHistorySize c) else c, snd r)).

(** vscore.cpp:2465-2487 *)
Inductive action := Grow | NoChange | Shrink | Clear.
Definition recommendSize (c : cache) : cache * action :=
  let total := hits c + nearMiss c + farMiss c in
  if total =? 0 then (c, Clear)
  else if total <? 30 then (c, NoChange)
  else
    let shrink := (nearMiss c =? 0) && (hits c =? 0) in
    let grow := total <=? nearMiss c * 20 in
    if grow then (clearStats c, Grow)
    else if shrink then (clearStats c, Shrink)
    else (clearStats c, NoChange).

(** vscore.cpp:2570-2605.  [completed - lastActivity] is a uint64_t difference. *)
Definition deadBranchDelay : Z := 3.
Definition adjustSize (c : cache) (comfortable : bool) (completed : Z) : outcome cache :=
  if fixedSize c then Ok c
  else
    let total := hits c + nearMiss c + farMiss c in
    let c1 := if 0 <? total then set_tuning c (fixedSize c) (userSize c) completed else c in
    if negb (0 <? total) && (wrapu64 (completed - lastActivity c) <? deadBranchDelay) then Ok c
    else
      let '(c2, act) := recommendSize c1 in
      obind (match act with
             | Clear => let c3 := clear c2 in setMaxFrames c3 (Z.max (maxSize c3 - 2) (userSize c3))
             | Grow => if comfortable then setMaxFrames c2 (maxSize c2 + 2) else Ok c2
             | Shrink => setMaxFrames c2 (Z.max (maxSize c2 - 1) (userSize c2))
             | NoChange => Ok c2
             end) (fun c4 =>
      if maxHistorySize c4 <? maxSize c4 then setMaxHistory c4 (maxSize c4) else Ok c4).

(** vscore.cpp:2489-2492 with the default arguments of vscore.h:793. *)
Definition newCache (m mh : Z) (fx : bool) : cache :=
  {| hash := fun _ => None; cfirst := None; cweak := None; clast := None;
     maxSize := m; currentSize := 0; maxHistorySize := mh; historySize := 0;
     fixedSize := fx; hits := 0; nearMiss := 0; farMiss := 0;
     currentBytes := 0; userSize := 0; lastActivity := 0 |}.

(** Result of an operation: a frame for lookups, otherwise nothing. *)
Definition step (c : cache) (o : op F) : outcome (cache * option F) :=
  match o with
  | OInsert k f => obind (insert c k f) (fun c => Ok (c, None))
  | OLookup k => relink c k
  | ORemove k => obind (remove c k) (fun r => Ok (fst r, None))
  | OClear => Ok (clear c, None)
  | OSetMax m => obind (setMaxFrames c m) (fun c => Ok (c, None))
  | OSetHist m => obind (setMaxHistory c m) (fun c => Ok (c, None))
  | OSetUser m => obind (setUserMaxFrames c m) (fun c => Ok (c, None))
  | OSetFixed b => Ok (setFixedSize c b, None)
  | OResetTuning => Ok (resetSizeTuning c, None)
  | ODrop b => obind (dropLRUFrames c b) (fun r => Ok (fst r, None))
  | OAdjust m x => obind (adjustSize c m x) (fun c => Ok (c, None))
  end.

Fixpoint run (c : cache) (os : list (op F)) : outcome (cache * list (option F)) :=
  match os with
  | [] => Ok (c, [])
  | o :: t => obind (step c o) (fun r => obind (run (fst r) t) (fun r2 => Ok (fst r2, snd r :: snd r2)))
  end.

End Cache.
