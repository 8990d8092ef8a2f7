(** FrameEval and ModifyFrame: filters that hand every frame number to a function
    of the user and deliver what it returns (src/core/simplefilters.cpp:1372-1639). *)
From Coq Require Import ZArith List Lia Bool.
From Verif Require Import Common FormatSpec Frame Spatial ClipProp.
Import ListNotations.
Open Scope Z_scope.

(** A frame as these filters see it: a video frame with its format and the size of
    its first plane, or an audio frame. The number tells frames apart. *)
Inductive media :=
| MVideo (f : vfmt) (w h : Z) (id : Z)
| MAudio (id : Z).

(** What the key "val" of the map a function fills may hold. *)
Inductive val :=
| VNode (node : Z)
| VFrame (m : media)
| VOther.

(** The argument map [d->in]: the integers of key "n" and the frames of key "f",
    each in the order of appending. *)
Record inMap := mkIn { in_n : list Z; in_f : list media }.
Definition inEmpty := mkIn [] [].

(** The result map [d->out]: the error, if one was set, and the values of "val". *)
Record outMap := mkOut { out_err : option Z; out_val : list val }.
Definition outEmpty := mkOut None [].

(** The instance: the two maps, shared by every frame in flight; [e_calls], a ghost
    list, newest first, of the argument and result maps the function was given;
    and two ghost tallies of the references the filter itself owns at the moment:
    by node, and of frames. *)
Record inst := mkInst { e_in : inMap; e_out : outMap; e_calls : list (inMap * outMap);
                        e_nodes : Z -> Z; e_frames : Z }.

Definition bump (t : Z -> Z) (k d : Z) : Z -> Z := fun x => if x =? k then t x + d else t x.

Definition setIn (s : inst) (m : inMap) := mkInst m (e_out s) (e_calls s) (e_nodes s) (e_frames s).
Definition setOut (s : inst) (m : outMap) := mkInst (e_in s) m (e_calls s) (e_nodes s) (e_frames s).
Definition addFrames (s : inst) (d : Z) := mkInst (e_in s) (e_out s) (e_calls s) (e_nodes s) (e_frames s + d).
Definition takeNode (s : inst) (k : Z) := mkInst (e_in s) (e_out s) (e_calls s) (bump (e_nodes s) k 1) (e_frames s).

(** vsapi->freeNode: nothing for a null pointer; giving back a reference that is not
    owned is a use after free. *)
Definition freeNode (s : inst) (k : option Z) : outcome inst :=
  match k with
  | None => Ok s
  | Some k => if e_nodes s k <=? 0 then UB
              else Ok (mkInst (e_in s) (e_out s) (e_calls s) (bump (e_nodes s) k (-1)) (e_frames s))
  end.

Definition freeFrame (s : inst) : outcome inst := if e_frames s <=? 0 then UB else Ok (addFrames s (-1)).

(** What one call of a getFrame function amounts to: frames requested from the listed
    nodes, a frame returned (whose reference passes to the core), or a filter error;
    the number tells the messages apart. [RNothing]: the null pointer without either. *)
Inductive reply :=
| RWait (nodes : list Z)
| RFrame (m : media)
| RFail (msg : Z)
| RNothing.

Definition msgNoClip := -1.
Definition msgSize := -2.
Definition msgFormat := -3.
Definition msgNoFrame := -4.

(** getFrameFilter(n, node, frameCtx): a new reference to the frame, which has to be
    among those that arrived; the null pointer it gives otherwise is dereferenced. *)
Definition getFrameFilter (avail : Z -> option media) (s : inst) (node : Z) : outcome (inst * media) :=
  match avail node with Some m => Ok (addFrames s 1, m) | None => UB end.

(** The loop over the property sources, simplefilters.cpp:1392-1396 and 1573-1577:
    get, append to "f" of the argument map, release. *)
Fixpoint gather (avail : Z -> option media) (nodes : list Z) (s : inst) : outcome inst :=
  match nodes with
  | [] => Ok s
  | k :: tl =>
      obind (getFrameFilter avail s k) (fun p =>
        let s1 := setIn (fst p) (mkIn (in_n (e_in (fst p))) (in_f (e_in (fst p)) ++ [snd p])) in
        obind (freeFrame s1) (gather avail tl))
  end.

(** vsapi->callFunction: the function sees the argument map and adds to the result
    map. It may answer differently every time: [fn] gets the number of earlier calls. *)
Definition callFunction (fn : nat -> inMap -> outMap -> outMap) (s : inst) : inst :=
  mkInst (e_in s) (fn (length (e_calls s)) (e_in s) (e_out s)) ((e_in s, e_out s) :: e_calls s) (e_nodes s) (e_frames s).

(** mapSetInt(d->in, "n", n, maAppend). *)
Definition appendN (s : inst) (n : Z) : inst := setIn s (mkIn (in_n (e_in s) ++ [n]) (in_f (e_in s))).

(** mapGetNode(d->out, "val", 0, &err): the first value, if there is one and it is a node. *)
Definition firstNode (m : outMap) : option Z := match out_val m with VNode k :: _ => Some k | _ => None end.
Definition firstFrame (m : outMap) : option media := match out_val m with VFrame f :: _ => Some f | _ => None end.

(** The middle of both FrameEval functions, simplefilters.cpp:1397-1416 and
    1451-1470: call, look for an error, take the node, request its frame. The result
    is the instance, frameData[0] and the reply. *)
Definition evaluate (fn : nat -> inMap -> outMap -> outMap) (s : inst) : inst * option Z * reply :=
  let s1 := callFunction fn s in
  let s2 := setIn s1 inEmpty in
  match out_err (e_out s2) with
  | Some msg => (setOut s2 outEmpty, None, RFail msg)
  | None =>
      match firstNode (e_out s2) with
      | None => (setOut s2 outEmpty, None, RFail msgNoClip)
      | Some k => (setOut (takeNode s2 k) outEmpty, Some k, RWait [k])
      end
  end.

(** getFrameWidth, getFrameHeight and getVideoFrameFormat are for video frames only:
    on an audio frame they read the wrong member of the frame (vscore.cpp asserts it). *)
Definition sizeOf (m : media) : outcome (Z * Z) := match m with MVideo _ w h _ => Ok (w, h) | MAudio _ => UB end.
Definition fmtOf (m : media) : outcome vfmt := match m with MVideo f _ _ _ => Ok f | MAudio _ => UB end.

Definition wrongSize (vi : vinfo) (m : media) : outcome bool :=
  if negb (vi_w vi =? 0) || negb (vi_h vi =? 0)
  then obind (sizeOf m) (fun p => Ok (negb (vi_w vi =? fst p) || negb (vi_h vi =? snd p)))
  else Ok false.

Definition wrongFormat (vi : vinfo) (m : media) : outcome bool :=
  if negb (f_cf (vi_fmt vi) =? cfUndefined)
  then obind (fmtOf m) (fun f => Ok (negb (sameFormat (vi_fmt vi) f)))
  else Ok false.

(** The end of both FrameEval functions, simplefilters.cpp:1417-1439 and 1471-1492.
    A null frameData[0] would be dereferenced by getFrameFilter. *)
Definition deliver (vi : vinfo) (avail : Z -> option media) (s : inst) (fd : option Z) : outcome (inst * option Z * reply) :=
  match fd with
  | None => UB
  | Some k =>
      obind (getFrameFilter avail s k) (fun p =>
      obind (freeNode (fst p) fd) (fun s1 =>
      obind (wrongSize vi (snd p)) (fun ws =>
      if (ws : bool) then obind (freeFrame s1) (fun s2 => Ok (s2, fd, RFail msgSize))
      else obind (wrongFormat vi (snd p)) (fun wf =>
      if (wf : bool) then obind (freeFrame s1) (fun s2 => Ok (s2, fd, RFail msgFormat))
      else Ok (addFrames s1 (-1), fd, RFrame (snd p))))))
  end.

(** Activation reasons; [AReady] with the frames that have arrived so far. *)
Inductive reason := AInitial | AReady (avail : Z -> option media) | AError.

(** frameEvalGetFrameWithProps, simplefilters.cpp:1383-1445. *)
Definition evalWithProps (vi : vinfo) (fn : nat -> inMap -> outMap -> outMap) (propsrc : list Z)
    (n : Z) (r : reason) (s : inst) (fd : option Z) : outcome (inst * option Z * reply) :=
  match r with
  | AInitial => Ok (s, fd, RWait propsrc)
  | AReady avail =>
      match fd with
      | None => obind (gather avail propsrc (appendN s n)) (fun s1 => Ok (evaluate fn s1))
      | Some _ => deliver vi avail s fd
      end
  | AError => obind (freeNode s fd) (fun s1 => Ok (s1, fd, RNothing))
  end.

(** frameEvalGetFrameNoProps, simplefilters.cpp:1447-1498. *)
Definition evalNoProps (vi : vinfo) (fn : nat -> inMap -> outMap -> outMap)
    (n : Z) (r : reason) (s : inst) (fd : option Z) : outcome (inst * option Z * reply) :=
  match r with
  | AInitial => Ok (evaluate fn (appendN s n))
  | AReady avail => deliver vi avail s fd
  | AError => obind (freeNode s fd) (fun s1 => Ok (s1, fd, RNothing))
  end.

(** frameEvalCreate, simplefilters.cpp:1541: which of the two serves. *)
Definition evalGetFrame (vi : vinfo) (fn : nat -> inMap -> outMap -> outMap) (propsrc : list Z) :=
  match propsrc with [] => evalNoProps vi fn | _ :: _ => evalWithProps vi fn propsrc end.

(** modifyFrameGetFrame, simplefilters.cpp:1560-1614: a reference comes with the
    frame taken out of the map. *)
Definition modifyGetFrame (vi : vinfo) (fn : nat -> inMap -> outMap -> outMap) (nodes : list Z)
    (n : Z) (r : reason) (s : inst) (fd : option Z) : outcome (inst * option Z * reply) :=
  match r with
  | AInitial => Ok (s, fd, RWait nodes)
  | AReady avail =>
      obind (gather avail nodes (appendN s n)) (fun s0 =>
      let s1 := setIn (callFunction fn s0) inEmpty in
      match out_err (e_out s1) with
      | Some msg => Ok (setOut s1 outEmpty, fd, RFail msg)
      | None =>
          match firstFrame (e_out s1) with
          | None => Ok (setOut s1 outEmpty, fd, RFail msgNoFrame)
          | Some f =>
              let s2 := setOut (addFrames s1 1) outEmpty in
              obind (wrongFormat vi f) (fun wf =>
              if (wf : bool) then obind (freeFrame s2) (fun s3 => Ok (s3, fd, RFail msgFormat))
              else obind (wrongSize vi f) (fun ws =>
              if (ws : bool) then obind (freeFrame s2) (fun s3 => Ok (s3, fd, RFail msgSize))
              else Ok (addFrames s2 (-1), fd, RFrame f)))
          end
      end)
  | AError => Ok (s, fd, RNothing)
  end.

(** ---- The frames in flight ---- *)

(** A frame context of the filter: the frame asked for, frameData[0] and the nodes
    whose frames were requested so far. *)
Record ctx := mkCtx { c_n : Z; c_fd : option Z; c_req : list Z }.

(** What the core does with one context: the first call for frame [n]; every frame
    requested so far by the context at this position arrived; one of them failed. *)
Inductive event := EvStart (n : Z) | EvReady (i : nat) | EvFail (i : nat).

(** The whole: the instance, the contexts waiting for frames, and what the finished
    frames came to, newest first. *)
Record world := mkWorld { w_inst : inst; w_ctx : list ctx; w_done : list (Z * reply) }.

Definition w0 : world := mkWorld (mkInst inEmpty outEmpty [] (fun _ => 0) 0) [] [].

Fixpoint dropAt {A} (i : nat) (l : list A) : list A :=
  match l, i with
  | [], _ => []
  | _ :: tl, O => tl
  | x :: tl, S j => x :: dropAt j tl
  end.

(** After a call: a waiting context stays, any other is finished. The thread pool
    runs the calls of one instance that touch it one at a time (fmParallelRequests
    and fmUnordered, vsthreadpool.cpp:190-191), so that they are atomic here. *)
Definition settle (n : Z) (req : list Z) (x : inst * option Z * reply) (cs : list ctx) (ds : list (Z * reply)) : world :=
  match x with
  | (s, fd, RWait l) => mkWorld s (mkCtx n fd (req ++ l) :: cs) ds
  | (s, _, r) => mkWorld s cs ((n, r) :: ds)
  end.

(** [serve node n]: the frame the node delivers when [n] is requested of it. *)
Definition arrived (serve : Z -> Z -> media) (c : ctx) : Z -> option media :=
  fun k => if existsb (Z.eqb k) (c_req c) then Some (serve k (c_n c)) else None.

Definition step (gf : Z -> reason -> inst -> option Z -> outcome (inst * option Z * reply))
    (serve : Z -> Z -> media) (w : world) (e : event) : outcome world :=
  match e with
  | EvStart n => obind (gf n AInitial (w_inst w) None) (fun x => Ok (settle n [] x (w_ctx w) (w_done w)))
  | EvReady i =>
      match nth_error (w_ctx w) i with
      | None => Err
      | Some c => obind (gf (c_n c) (AReady (arrived serve c)) (w_inst w) (c_fd c))
                        (fun x => Ok (settle (c_n c) (c_req c) x (dropAt i (w_ctx w)) (w_done w)))
      end
  | EvFail i =>
      match nth_error (w_ctx w) i with
      | None => Err
      | Some c => obind (gf (c_n c) AError (w_inst w) (c_fd c))
                        (fun x => Ok (settle (c_n c) (c_req c) x (dropAt i (w_ctx w)) (w_done w)))
      end
  end.

Definition run (gf : Z -> reason -> inst -> option Z -> outcome (inst * option Z * reply))
    (serve : Z -> Z -> media) (es : list event) (w : world) : outcome world :=
  fold_left (fun o e => obind o (fun w => step gf serve w e)) es (Ok w).
