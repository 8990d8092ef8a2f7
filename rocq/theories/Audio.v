(** Audio filters at frame level: which source frames are requested, which
    cells are copied where.  The per-channel loops of AudioTrim, AudioSplice,
    AudioLoop and AudioReverse do the same in every channel, so a cell stands
    for the samples of all channels at one position; memcpy lengths are counted
    in samples instead of bytes (all of them are a sample count times
    bytesPerSample).  Division and remainder are C's (truncating). *)
From Coq Require Import ZArith List Bool Lia.
From Verif Require Import Common AudioSpec.
Import ListNotations.
Open Scope Z_scope.

Section Model.
Context {A : Type}.

(** *** Nodes *)

(** src/core/vscore.cpp:1092-1098, the check of a returned frame ([Err]: logFatal). *)
Definition checkFrame (L frames n : Z) (f : aframe A) : outcome (aframe A) :=
  let expected := if n <? frames - 1 then AFS
                  else if Z.rem L AFS =? 0 then AFS else Z.rem L AFS in
  if af_len f =? expected then Ok f else Err.

(** src/core/vscore.cpp:806-816 (VSNode::VSNode for audio) with 1603-1613
    (isValidAudioInfo): the frame count is recomputed from the length. *)
Definition newNode (L : Z) (get : Z -> outcome (aframe A)) : outcome (clip A) :=
  if L <? 1 then Err
  else if INT_MAX * AFS <? L then Err
  else let frames := wrap32 (Z.quot (L + AFS - 1) AFS) in
       Ok (mkClip L frames (fun n => obind (get n) (checkFrame L frames n))).

(** src/core/vsapi.cpp:148-154, requestFrameFilter: a number past the end asks for
    the last frame; a negative one would be passed on (undefined here). *)
Definition clampN (c : clip A) (n : Z) : Z := if c_frames c <=? n then c_frames c - 1 else n.

Fixpoint requests (clips : list (clip A)) (l : list (nat * Z)) : outcome (list (nat * Z)) :=
  match l with
  | [] => Ok []
  | (i, n) :: t =>
      match nth_error clips i with
      | None => UB
      | Some c => if n <? 0 then UB
                  else obind (requests clips t) (fun r => Ok ((i, clampN c n) :: r))
      end
  end.

Definition keyEqb (a b : nat * Z) : bool := Nat.eqb (fst a) (fst b) && (snd a =? snd b).

(** src/core/vsapi.cpp:156-171, getFrameFilter: only requested frames are available; for
    any other it returns null, which every filter below dereferences. *)
Definition getFilter (clips : list (clip A)) (av : list (nat * Z)) (i : nat) (n : Z)
  : outcome (aframe A) :=
  match nth_error clips i with
  | None => UB
  | Some c => if existsb (keyEqb (i, clampN c n)) av then c_get c (clampN c n) else UB
  end.

(** arInitial, then arAllFramesReady. *)
Definition runFilter (clips : list (clip A)) (reqs : outcome (list (nat * Z)))
  (ready : list (nat * Z) -> outcome (aframe A)) : outcome (aframe A) :=
  obind reqs (fun l => obind (requests clips l) ready).

(** *** Frames *)

(** src/core/vscore.cpp:255-277: [Err] is logFatal.  The buffer always has 3072
    cells per channel and is not initialised. *)
Definition newFrame (len : Z) : outcome (aframe A) :=
  if len <=? 0 then Err else Ok (mkAF len (repeat None (Z.to_nat AFS))).

(** memcpy of [cnt] samples; outside the channel's buffer undefined. *)
Definition copyTo (dst : list (option A)) (dOff : Z) (src : list (option A)) (sOff cnt : Z)
  : outcome (list (option A)) :=
  if (cnt <? 0) || (dOff <? 0) || (sOff <? 0) || (AFS <? dOff + cnt) || (AFS <? sOff + cnt) then UB
  else Ok (firstn (Z.to_nat dOff) dst ++
           firstn (Z.to_nat cnt) (skipn (Z.to_nat sOff) src) ++
           skipn (Z.to_nat (dOff + cnt)) dst).

(** *** AudioTrim *)

(** src/core/audiofilters.cpp:48-91, audioTrimGetframe.  [nf] is d->ai.numFrames, which
    still is the frame count of the input clip (audioTrimCreate only changes numSamples). *)
Definition trimRequests (first L nf n : Z) : list (nat * Z) :=
  let startSample := n * AFS + first in
  let startFrame := wrap32 (Z.quot startSample AFS) in
  let length := wrap32 (Z.min (L - n * AFS) AFS) in
  if (Z.rem startSample AFS =? 0) && negb (n =? nf - 1) then [(O, startFrame)]
  else
    let num1 := AFS - Z.rem startSample AFS in
    (O, startFrame) :: (if num1 <? length then [(O, startFrame + 1)] else []).

Definition trimReady (src : clip A) (first L nf n : Z) (av : list (nat * Z)) : outcome (aframe A) :=
  let startSample := n * AFS + first in
  let startFrame := wrap32 (Z.quot startSample AFS) in
  let length := wrap32 (Z.min (L - n * AFS) AFS) in
  if (Z.rem startSample AFS =? 0) && negb (n =? nf - 1) then
    obind (getFilter [src] av 0 startFrame) (fun f =>
    if length =? af_len f then Ok f
    else obind (newFrame length) (fun d =>
         obind (copyTo (af_buf d) 0 (af_buf f) 0 length) (fun b => Ok (mkAF length b))))
  else
    let num1 := AFS - Z.rem startSample AFS in
    obind (getFilter [src] av 0 startFrame) (fun f1 =>
    obind (newFrame length) (fun d =>
    obind (copyTo (af_buf d) 0 (af_buf f1) (AFS - num1) num1) (fun b =>
    if num1 <? length then
      obind (getFilter [src] av 0 (startFrame + 1)) (fun f2 =>
      obind (copyTo b num1 (af_buf f2) 0 (length - num1)) (fun b' => Ok (mkAF length b')))
    else Ok (mkAF length b)))).

(** src/core/audiofilters.cpp:93-147, audioTrimCreate; absent arguments are [None] and
    read as 0.  [d->first + length] is signed 64 bit arithmetic. *)
Definition audioTrim (src : clip A) (first last len : option Z) : outcome (clip A) :=
  let fi := match first with Some x => x | None => 0 end in
  let la := match last with Some x => x | None => 0 end in
  let le := match len with Some x => x | None => 0 end in
  let lastset := match last with Some _ => true | None => false end in
  let lenset := match len with Some _ => true | None => false end in
  let firstset := match first with Some _ => true | None => false end in
  if fi <? 0 then Err
  else if c_samples src <=? fi then Err
  else if lastset && lenset then Err
  else if lastset && (la <? fi) then Err
  else if lenset && (le <? 1) then Err
  else if lastset && (c_samples src <=? la) then Err
  else if lenset && negb (in_int64b (fi + le)) then UB
  else if lenset && (c_samples src <? fi + le) then Err
  else
    let trimlen := if lastset then la - fi + 1 else if lenset then le else c_samples src - fi in
    if (negb firstset && negb lastset && negb lenset)
       || (negb (trimlen =? 0) && (trimlen =? c_samples src)) then Ok src
    else newNode trimlen (fun n =>
      runFilter [src] (Ok (trimRequests fi trimlen (c_frames src) n))
        (trimReady src fi trimlen (c_frames src) n)).

(** *** AudioSplice *)

(** Out of [fuel] counts as undefined; the theorems show it never happens. *)

(** src/core/audiofilters.cpp:169-193: the request loop. *)
Fixpoint spliceReqLoop (fuel : nat) (clips : list (clip A)) (i : nat) (reqFrame off rem : Z)
  : outcome (list (nat * Z)) :=
  match fuel with
  | O => UB
  | S fuel' =>
      match nth_error clips i with
      | None => UB
      | Some c =>
          let reqStart := reqFrame * AFS in
          let reqSamples := wrap32 (Z.min (AFS - off) (c_samples c - reqStart - off)) in
          let rem' := rem - reqSamples in
          let reqFrame' := reqFrame + 1 in
          let '(i', reqFrame'') := if c_frames c - 1 <? reqFrame' then (S i, 0) else (i, reqFrame') in
          if 0 <? rem' then
            obind (spliceReqLoop fuel' clips i' reqFrame'' 0 rem') (fun r => Ok ((i, reqFrame) :: r))
          else Ok [(i, reqFrame)]
      end
  end.

(** src/core/audiofilters.cpp:200-217: the copy loop.  [dst] is [None] before the first iteration;
    the new frame is created with the samples still missing at that point. *)
Fixpoint spliceCopyLoop (fuel : nat) (clips : list (clip A)) (av : list (nat * Z)) (i : nat)
  (reqFrame off rem : Z) (dst : option (aframe A)) (dstOff : Z) : outcome (aframe A) :=
  match fuel with
  | O => UB
  | S fuel' =>
      match nth_error clips i with
      | None => UB
      | Some c =>
          obind (getFilter clips av i reqFrame) (fun f =>
          let length := af_len f - off in
          obind (match dst with Some d => Ok d | None => newFrame rem end) (fun d =>
          obind (copyTo (af_buf d) dstOff (af_buf f) off (Z.min length rem)) (fun b =>
          let d' := mkAF (af_len d) b in
          let reqFrame' := reqFrame + 1 in
          let rem' := rem - length in
          let '(i', reqFrame'') := if c_frames c - 1 <? reqFrame' then (S i, 0) else (i, reqFrame') in
          if 0 <? rem' then
            spliceCopyLoop fuel' clips av i' reqFrame'' 0 rem' (Some d') (dstOff + length)
          else Ok d')))
      end
  end.

(** The search [for (i...) if (cumSamples[i] > sampleStart)]: index and the position inside that clip. *)
Fixpoint spliceFind (i : nat) (prev : Z) (cum : list Z) (start : Z) : option (nat * Z) :=
  match cum with
  | [] => None
  | c :: t => if start <? c then Some (i, start - prev) else spliceFind (S i) c t start
  end.

Definition spliceFuel : nat := Z.to_nat AFS.

(** src/core/audiofilters.cpp:162-228, audioSpliceGetframe (no clip found: nothing requested, null returned). *)
Definition spliceGet (clips : list (clip A)) (cum : list Z) (L n : Z) : outcome (aframe A) :=
  let sampleStart := n * AFS in
  let remaining := wrap32 (Z.min AFS (L - sampleStart)) in
  match spliceFind 0 0 cum sampleStart with
  | None => Err
  | Some (i, pos) =>
      let off := Z.rem pos AFS in
      let reqFrame := wrap32 (Z.quot pos AFS) in
      runFilter clips (spliceReqLoop spliceFuel clips i reqFrame off remaining)
        (fun av => spliceCopyLoop spliceFuel clips av i reqFrame off remaining None 0)
  end.

(** 64 bit sum of the lengths (src/core/audiofilters.cpp:247-252); overflow is undefined. *)
Fixpoint sum64 (acc : Z) (l : list Z) : outcome Z :=
  match l with
  | [] => Ok acc
  | x :: t => if in_int64b (acc + x) then sum64 (acc + x) t else UB
  end.

(** src/core/audiofilters.cpp:254-261: cumulative lengths, each checked against the limit. *)
Fixpoint cumLoop (back : Z) (l : list Z) : outcome (list Z) :=
  match l with
  | [] => Ok []
  | x :: t =>
      if negb (in_int64b (back + x)) then UB
      else if INT_MAX * AFS <? back + x then Err
      else obind (cumLoop (back + x) t) (fun r => Ok (back + x :: r))
  end.

(** src/core/audiofilters.cpp:230-277, audioSpliceCreate.  [fmt] numbers the combination of
    format and sample rate that isSameAudioInfo compares. *)
Definition audioSplice (clips : list (Z * clip A)) : outcome (clip A) :=
  match clips with
  | [] => UB
  | [(_, c)] => Ok c
  | (fmt0, c0) :: t =>
      if negb (forallb (fun x => fst x =? fmt0) t) then Err
      else
        let cs := map snd clips in
        obind (sum64 0 (map c_samples cs)) (fun L =>
        obind (cumLoop (c_samples c0) (map c_samples (map snd t))) (fun cum =>
        newNode L (spliceGet cs (c_samples c0 :: cum) L)))
  end.

(** *** AudioLoop *)

(** src/core/audiofilters.cpp:292-304 *)
Fixpoint loopReqLoop (fuel : nat) (src : clip A) (startFrame reqFrame off reqStart rem : Z)
  : outcome (list (nat * Z)) :=
  match fuel with
  | O => UB
  | S fuel' =>
      let reqSamples := wrap32 (Z.min (AFS - off) (c_samples src - reqStart)) in
      let rem' := rem - reqSamples in
      let '(reqFrame', reqStart') :=
        if c_frames src - 1 <? reqFrame + 1 then (0, 0) else (reqFrame + 1, reqStart + reqSamples) in
      if (0 <? rem') && negb (reqFrame' =? startFrame) then
        obind (loopReqLoop fuel' src startFrame reqFrame' 0 reqStart' rem') (fun r =>
        Ok ((O, reqFrame) :: r))
      else Ok [(O, reqFrame)]
  end.

(** src/core/audiofilters.cpp:306-328 *)
Fixpoint loopCopyLoop (fuel : nat) (src : clip A) (av : list (nat * Z))
  (reqFrame off rem : Z) (dst : option (aframe A)) (dstOff : Z) : outcome (aframe A) :=
  match fuel with
  | O => UB
  | S fuel' =>
      obind (getFilter [src] av 0 reqFrame) (fun f =>
      let length := af_len f - off in
      obind (match dst with Some d => Ok d | None => newFrame rem end) (fun d =>
      obind (copyTo (af_buf d) dstOff (af_buf f) off (Z.min length rem)) (fun b =>
      let d' := mkAF (af_len d) b in
      let reqFrame' := if c_frames src - 1 <? reqFrame + 1 then 0 else reqFrame + 1 in
      if 0 <? rem - length then
        loopCopyLoop fuel' src av reqFrame' 0 (rem - length) (Some d') (dstOff + length)
      else Ok d')))
  end.

(** src/core/audiofilters.cpp:282-335, audioLoopGetFrame *)
Definition loopGet (src : clip A) (L n : Z) : outcome (aframe A) :=
  let reqStart := Z.rem (n * AFS) (c_samples src) in
  let startFrame := wrap32 (Z.quot reqStart AFS) in
  let off := wrap32 (Z.rem reqStart AFS) in
  let remaining := wrap32 (Z.min AFS (L - n * AFS)) in
  runFilter [src] (loopReqLoop spliceFuel src startFrame startFrame off reqStart remaining)
    (fun av => loopCopyLoop spliceFuel src av startFrame off remaining None 0).

(** src/core/audiofilters.cpp:337-368, audioLoopCreate (an absent [times] reads as 0). *)
Definition audioLoop (src : clip A) (times : option Z) : outcome (clip A) :=
  let t := match times with Some x => x | None => 0 end in
  if t <? 0 then Err
  else if t =? 1 then Ok src
  else if 0 <? t then
    if Z.quot (INT_MAX * AFS) t <? c_samples src then Err
    else newNode (c_samples src * t) (loopGet src (c_samples src * t))
  else newNode (INT_MAX * AFS) (loopGet src (INT_MAX * AFS)).

(** *** AudioReverse *)

(** The element loop [for (i < cnt) dst[dOff + i] = src[top - 1 - i]] with [top] = l1 - s1offset
    (size_t arithmetic); [cnt] is bounded first because a longer loop leaves the buffer anyway. *)
Definition getCell (b : list (option A)) (i : Z) : outcome (option A) :=
  match nthz b i with Some c => Ok c | None => UB end.

Fixpoint revLoop (k : nat) (src : list (option A)) (top i : Z) : outcome (list (option A)) :=
  match k with
  | O => Ok []
  | S k' =>
      obind (getCell src (wrapu64 (top - i - 1))) (fun c =>
      obind (revLoop k' src top (i + 1)) (fun r => Ok (c :: r)))
  end.

Definition revCopy (dst : list (option A)) (dOff : Z) (src : list (option A)) (top cnt : Z)
  : outcome (list (option A)) :=
  if (AFS <? dOff + cnt) then UB
  else obind (revLoop (Z.to_nat cnt) src top 0) (fun cells =>
       copyTo dst dOff (cells ++ repeat None (Z.to_nat (AFS - cnt))) 0 cnt).

(** src/core/audiofilters.cpp:372-420, audioReverseGetFrame *)
Definition reverseRequests (L nf n : Z) : list (nat * Z) :=
  let n1 := nf - 1 - n in
  let n2 := Z.max (nf - 2 - n) 0 in
  (O, n1) :: (if Z.rem L AFS =? 0 then [] else [(O, n2)]).

Definition reverseReady (src : clip A) (L nf n : Z) (av : list (nat * Z)) : outcome (aframe A) :=
  let n1 := nf - 1 - n in
  let n2 := Z.max (nf - 2 - n) 0 in
  let dstLength := wrap32 (Z.min AFS (L - n * AFS)) in
  obind (getFilter [src] av 0 n1) (fun f1 =>
  let l1 := wrapu64 (af_len f1) in
  let off0 := wrapu64 (l1 - Z.rem L AFS) in
  let s1offset := if off0 =? AFS then 0 else off0 in
  let s1samples := wrapu64 (af_len f1 - s1offset) in
  obind (newFrame dstLength) (fun d =>
  obind (revCopy (af_buf d) 0 (af_buf f1) (l1 - s1offset) s1samples) (fun b =>
  let remaining := wrapu64 (dstLength - s1samples) in
  if 0 <? remaining then
    obind (getFilter [src] av 0 n2) (fun f2 =>
    obind (revCopy b s1samples (af_buf f2) (wrapu64 (af_len f2)) remaining) (fun b' =>
    Ok (mkAF dstLength b')))
  else Ok (mkAF dstLength b)))).

Definition audioReverse (src : clip A) : outcome (clip A) :=
  newNode (c_samples src) (fun n =>
    runFilter [src] (Ok (reverseRequests (c_samples src) (c_frames src) n))
      (reverseReady src (c_samples src) (c_frames src) n)).

(** *** BlankAudio *)

(** src/core/audiofilters.cpp:1180-1193, generateWaveform: [value phase] is the sample computed from
    the phase (a fixed double expression); the phase is an unsigned 64 bit counter. *)
Fixpoint generate (k : nat) (value : Z -> A) (phase step : Z) : list (option A) :=
  match k with
  | O => []
  | S k' => Some (value phase) :: generate k' value (wrapu64 (phase + step)) step
  end.

(** src/core/audiofilters.cpp:1204-1254, blankAudioGetframe, waveform branch *)
Definition waveGet (value : Z -> A) (step L n : Z) : outcome (aframe A) :=
  let startSample := n * AFS in
  let samples := wrap32 (Z.min AFS (L - startSample)) in
  obind (newFrame samples) (fun d =>
  if AFS <? samples then UB
  else Ok (mkAF samples
    (generate (Z.to_nat samples) value (wrapu64 (wrapu64 startSample * step)) step
     ++ skipn (Z.to_nat samples) (af_buf d)))).

Definition waveAudio (value : Z -> A) (step L : Z) : outcome (clip A) :=
  newNode L (waveGet value step L).

(** The silent branch; [kept] is d->f, [keep] d->keep.  The result is the new d->f and the frame. *)
Definition silentFrame (zero : A) (L n : Z) : outcome (aframe A) :=
  let samples := wrap32 (Z.min AFS (L - n * AFS)) in
  obind (newFrame samples) (fun d =>
  if AFS <? samples then UB
  else Ok (mkAF samples (repeat (Some zero) (Z.to_nat samples)
                         ++ skipn (Z.to_nat samples) (af_buf d)))).

Definition silentGet (zero : A) (keep : bool) (L n : Z) (kept : option (aframe A))
  : outcome (option (aframe A) * aframe A) :=
  match kept with
  | Some f => if keep then Ok (kept, f) else UB
  | None =>
      obind (silentFrame zero L n) (fun f => Ok (if keep then Some f else None, f))
  end.

(** A run of the silent node over a sequence of frame requests, with the frame check of the core. *)
Fixpoint silentRun (zero : A) (keep : bool) (L frames : Z) (kept : option (aframe A)) (ns : list Z)
  : list (outcome (aframe A)) :=
  match ns with
  | [] => []
  | n :: t =>
      match silentGet zero keep L n kept with
      | Ok (kept', f) => checkFrame L frames n f :: silentRun zero keep L frames kept' t
      | Err => Err :: silentRun zero keep L frames kept t
      | UB => UB :: silentRun zero keep L frames kept t
      end
  end.

End Model.
