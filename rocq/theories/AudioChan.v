(** ShuffleChannels, SplitChannels, channel routing of AudioMix, integer quantisation. *)
From Coq Require Import ZArith List Bool QArith Qround Lia.
From Verif Require Import Common FormatSpec Format ReqPat AudioSpec Audio AudioChanSpec.
Import ListNotations.
Open Scope Z_scope.

Section Chan.
Context {B : Type}.
Variable zero : B.

(** *** ShuffleChannels *)

(** The counting loops of src/core/audiofilters.cpp:833-841 (AudioMix) and 1022-1025:
    set bits of the layout below [ch]. *)
Fixpoint rankLoop (k : nat) (j : Z) (layout pos : Z) : Z :=
  match k with
  | O => pos
  | S k' => rankLoop k' (j + 1) layout
              (if Z.land (Z.shiftl 1 j) layout =? 0 then pos else pos + 1)
  end.
Definition rank (layout ch : Z) : Z := rankLoop (Z.to_nat ch) 0 layout 0.

(** src/core/audiofilters.cpp:932-957, shuffleChannelsGetFrame for one output channel.  All reqNodes
    are requested at frame [n], so every source frame is available. *)
Definition shuffleChan (nd : anode B) (idx L n : Z) : outcome (aframe B) :=
  let dstLength := wrap32 (Z.min (L - n * AFS) AFS) in
  match nthz (an_chans nd) idx with
  | None => UB
  | Some c =>
      obind (c_get c (clampN c n)) (fun f =>
      let srcLength := if n <? an_frames nd then af_len f else 0 in
      let copyLength := Z.min dstLength srcLength in
      let zeroLength := dstLength - copyLength in
      obind (newFrame dstLength) (fun d =>
      obind (if 0 <? copyLength then copyTo (af_buf d) 0 (af_buf f) 0 copyLength else Ok (af_buf d)) (fun b =>
      obind (if 0 <? zeroLength
             then copyTo b copyLength (repeat (Some zero) (Z.to_nat AFS)) 0 zeroLength else Ok b) (fun b' =>
      Ok (mkAF dstLength b')))))
  end.

(** ShuffleChannelsDataNode: node, source channel, destination channel. *)
Definition entry : Type := (anode B * Z) * Z.

(** src/core/audiofilters.cpp:974-997: nodes are matched to channels, the last node repeats; std::sort by
    destination (insertion sort here: equal keys are rejected later, so stability does not matter). *)
Fixpoint shuffleEntries (nodes : list (anode B)) (i : Z) (cin cout : list Z) : outcome (list entry) :=
  match cin, cout with
  | c0 :: cin', d0 :: cout' =>
      let c := sat32 c0 in
      let d := sat32 d0 in
      if (d <? 0) || (64 <=? d) || (c <? -64) || (64 <=? c) then Err
      else match nthz nodes (Z.min (zlength nodes - 1) i) with
           | None => UB
           | Some nd => obind (shuffleEntries nodes (i + 1) cin' cout') (fun r => Ok ((nd, c, d) :: r))
           end
  | _, _ => Ok []
  end.

Fixpoint insertE (e : entry) (l : list entry) : list entry :=
  match l with
  | [] => [e]
  | x :: t => if snd x <? snd e then x :: insertE e t else e :: l
  end.
Fixpoint sortE (l : list entry) : list entry :=
  match l with [] => [] | e :: t => insertE e (sortE t) end.

(** src/core/audiofilters.cpp:1008-1030: request number to channel index. *)
Definition resolve (nd : anode B) (c : Z) : option Z :=
  if c <? 0 then
    (if popcount 64 (an_layout nd) <=? - c - 1 then None else Some (- c - 1))
  else if (0 <? c) && (Z.land (an_layout nd) (Z.shiftl 1 c) =? 0) then None
  else Some (rank (an_layout nd) c).

Fixpoint resolveAll (fmt : Z) (l : list entry) (L : Z) : option (list (anode B * Z) * Z) :=
  match l with
  | [] => Some ([], L)
  | (nd, c, _) :: t =>
      if negb (an_fmt nd =? fmt) then None
      else match resolve nd c with
           | None => None
           | Some idx =>
               match resolveAll fmt t (Z.max L (an_samples nd)) with
               | Some (r, L') => Some ((nd, idx) :: r, L')
               | None => None
               end
           end
  end.

Fixpoint orBits (chs : list Z) : Z :=
  match chs with [] => 0 | c :: t => Z.lor (Z.shiftl 1 c) (orBits t) end.

(** One node per output channel, all with the same length. *)
Fixpoint planes (src : list (anode B * Z)) (L : Z) : outcome (list (clip B)) :=
  match src with
  | [] => Ok []
  | (nd, idx) :: t =>
      obind (newNode L (shuffleChan nd idx L)) (fun c =>
      obind (planes t L) (fun r => Ok (c :: r)))
  end.

(** src/core/audiofilters.cpp:967-1064, shuffleChannelsCreate.  The output format is queried with the
    sample type and bits of a valid format, so only the layout can make it fail. *)
Definition shuffleChannels (nodes : list (anode B)) (cin cout : list Z) : outcome (anode B) :=
  if negb (zlength cin =? zlength cout) then Err
  else if zlength cin <? zlength nodes then Err
  else obind (shuffleEntries nodes 0 cin cout) (fun es0 =>
    let es := sortE es0 in
    match es with
    | [] => UB
    | (nd0, _, _) :: _ =>
        match resolveAll (an_fmt nd0) es (an_samples nd0) with
        | None => Err
        | Some (src, L) =>
            let layout := orBits (map (fun e => snd e) es) in
            if layout =? 0 then Err
            else if negb (popcount 64 layout =? zlength cout) then Err
            else obind (planes src L) (fun cs =>
                 Ok (mkN (an_fmt nd0) layout L (wrap32 (Z.quot (L + AFS - 1) AFS)) cs))
        end
    end).

(** Declared dependency of each source (src/core/audiofilters.cpp:1056-1058).  d->ai was copied from
    sourceNodes[0], so d->ai.numFrames is that node's frame count. *)
Definition shufflePattern (nd0 nd : anode B) : reqpat :=
  if an_frames nd0 <=? an_frames nd then rpStrictSpatial else rpFrameReuseLastOnly.

(** What shuffleChannelsGetFrame requests from each of its nodes (line 925-927): frame [n], always. *)
Definition shuffleRequest (n j : Z) : Prop := j = n.

(** Requests of AudioSplice for output frame [n] (same code as in [spliceGet]). *)
Definition spliceRequests (clips : list (clip B)) (cum : list Z) (L n : Z) : outcome (list (nat * Z)) :=
  match spliceFind 0 0 cum (n * AFS) with
  | None => Err
  | Some (i, pos) =>
      spliceReqLoop spliceFuel clips i (wrap32 (Z.quot pos AFS)) (Z.rem pos AFS)
        (wrap32 (Z.min AFS (L - n * AFS)))
  end.

(** *** SplitChannels *)

(** [while (!(channelLayout & (1 << index))) index++], undefined from 64 on. *)
Fixpoint nextBit (fuel : nat) (layout index : Z) : outcome Z :=
  match fuel with
  | O => UB
  | S fuel' =>
      if 64 <=? index then UB
      else if Z.land layout (Z.shiftl 1 index) =? 0 then nextBit fuel' layout (index + 1)
      else Ok index
  end.

(** src/core/audiofilters.cpp:1069-1099, splitChannelsCreate. *)
Fixpoint splitLoop (k : nat) (nd : anode B) (index : Z) : outcome (list (anode B)) :=
  match k with
  | O => Ok []
  | S k' =>
      obind (nextBit 65 (an_layout nd) index) (fun ch =>
      obind (shuffleChannels [nd] [ch] [ch]) (fun r =>
      obind (splitLoop k' nd (ch + 1)) (fun rs => Ok (r :: rs))))
  end.
Definition splitChannels (nd : anode B) : outcome (list (anode B)) :=
  let numChannels := popcount 64 (an_layout nd) in
  if numChannels =? 1 then Ok [nd] else splitLoop (Z.to_nat numChannels) nd 0.

(** *** AudioMix *)

(** src/core/audiofilters.cpp:820-843 and the sample loops (660-690): matrix row [j] is written to plane
    outputIdx[j]; [row j] stands for the mixed samples of row [j]. *)
Definition mixOutputIdx (cout : list Z) : list Z :=
  map (rank (orBits cout)) cout.

Definition setNth {C} (l : list C) (i : Z) (x : C) : outcome (list C) :=
  if (i <? 0) || (zlength l <=? i) then UB
  else Ok (firstn (Z.to_nat i) l ++ x :: skipn (Z.to_nat (i + 1)) l).

Fixpoint mixStore {C} (planes : list C) (idx : list Z) (rows : list C) : outcome (list C) :=
  match idx, rows with
  | i :: idx', r :: rows' => obind (setNth planes i r) (fun p => mixStore p idx' rows')
  | _, _ => Ok planes
  end.

Definition mixPlanes {C} (unset : C) (cout : list Z) (rows : list C) : outcome (list C) :=
  if negb (forallb (fun c => (0 <=? c) && (c <? 64)) cout) then Err
  else if orBits cout =? 0 then Err
  else if negb (popcount 64 (orBits cout) =? zlength cout) then Err
  else mixStore (repeat unset (length cout)) (mixOutputIdx cout) rows.

End Chan.

(** *** Integer quantisation *)

(** std::round: half away from zero. *)
Definition qround (q : Q) : Z :=
  if Qle_bool 0 q then Qfloor (q + (1 # 2)) else - Qfloor (- q + (1 # 2)).

Definition dround (v : dbl) : dbl := match v with Fin q => Fin (inject_Z (qround q)) | _ => v end.

(** std::clamp for doubles: NaN compares false both ways and is returned unchanged. *)
Definition dclamp (v : dbl) (lo hi : Z) : dbl :=
  match v with
  | Fin q => if Qle_bool (inject_Z lo) q then (if Qle_bool q (inject_Z hi) then v else Fin (inject_Z hi))
             else Fin (inject_Z lo)
  | PInf => Fin (inject_Z hi)
  | NInf => Fin (inject_Z lo)
  | NaN => NaN
  end.

(** Scaling by a power of two (exact for the doubles involved; a value so small that scaling would
    underflow rounds to zero either way). *)
Definition dscale (v : dbl) (q : Q) : dbl := match v with Fin x => Fin (x * q)%Q | _ => v end.

Definition dneq (a b : dbl) : bool :=
  match a, b with
  | Fin x, Fin y => negb (Qeq_bool x y)
  | PInf, PInf | NInf, NInf => false
  | _, _ => true
  end.

(** Conversion to an integer type: truncation; out of range or NaN undefined. *)
Definition castInt (bytes : Z) (v : dbl) : outcome Z :=
  match v with
  | Fin q =>
      let t := if Qle_bool 0 q then Qfloor q else - Qfloor (- q) in
      if (- 2 ^ (8 * bytes - 1) <=? t) && (t <=? 2 ^ (8 * bytes - 1) - 1) then Ok t else UB
  | _ => UB
  end.

(** src/core/audiofilters.cpp:438-460, intSampleRange and quantizeIntSample. *)
Definition quantize (bits bytes : Z) (v : dbl) : dbl * bool :=
  let step := 2 ^ (8 * bytes - bits) in
  let maxV := 2 ^ (bits - 1) - 1 in
  let minV := - 2 ^ (bits - 1) in
  let rounded := dround (dscale v (/ inject_Z step)) in
  let limited := dclamp rounded minV maxV in
  (dscale limited (inject_Z step), dneq limited rounded).

(** The sample stored by AudioGain and AudioMix (lines 496-511, 672-687): value and clip flag. *)
Definition quantizeStore (bits bytes : Z) (v : dbl) : outcome (Z * bool) :=
  let r := quantize bits bytes v in
  obind (castInt bytes (fst r)) (fun x => Ok (x, snd r)).

(** src/core/audiofilters.cpp:1180-1193, integer branch of generateWaveform. *)
Definition waveStore (bits bytes : Z) (v : dbl) : outcome Z :=
  let scale := 2 ^ (bits - 1) in
  let shift := 2 ^ (8 * bytes - bits) in
  castInt bytes (dscale (dclamp (dround (dscale v (inject_Z scale))) (- scale) (scale - 1)) (inject_Z shift)).

(** A product of doubles up to rounding: finite factors are multiplied exactly. *)
Definition dmul (a b : dbl) : dbl :=
  match a, b with
  | NaN, _ | _, NaN => NaN
  | Fin x, Fin y => Fin (x * y)%Q
  | Fin x, PInf | PInf, Fin x =>
      if Qeq_bool x 0 then NaN else if Qle_bool 0 x then PInf else NInf
  | Fin x, NInf | NInf, Fin x =>
      if Qeq_bool x 0 then NaN else if Qle_bool 0 x then NInf else PInf
  | PInf, PInf | NInf, NInf => PInf
  | _, _ => NInf
  end.

(** One sample of AudioGain with an integer format. *)
Definition gainStore (bits bytes s : Z) (gain : dbl) : outcome (Z * bool) :=
  quantizeStore bits bytes (dmul (Fin (inject_Z s)) gain).

(** src/core/audiofilters.cpp:501-504 (and 547-550, 677-680, 740-743): the interval printed in the clip
    report, computed in int. *)
Definition clipReport (n len : Z) : outcome (Z * Z) :=
  if negb (in_intb (n * AFS)) then UB
  else if negb (in_intb (n * AFS + len)) then UB
  else Ok (n * AFS, n * AFS + len - 1).
