(** Frames as the code implements them: reference counted frames sharing
    reference counted plane buffers taken from the allocator. *)
From Coq Require Import ZArith List Lia Bool.
From Verif Require Import Common Sums Memory FormatSpec FrameSpec.
Import ListNotations.
Open Scope Z_scope.

(** VSPlaneData, vscore.h:392-405: [p_blk] is the allocator block behind [data],
    [p_data] the bytes ([None] = uninitialised).  guardSpace is 0 (vscore.h:433-437,
    no VS_FRAME_GUARD). *)
Record plane := mkP { p_ref : Z; p_blk : nat; p_size : Z; p_data : Z -> option Z }.

(** VSFrame, vscore.h:407-493.  [fr_data] are the non-null entries of data[3]; the
    properties are a VSMap and modelled in MapModel.v. *)
Record frame := mkF { fr_ref : Z; fr_kind : kind; fr_stride : list Z; fr_data : list nat }.

Record fst_ := mkSt {
  nP : nat; planes : nat -> option plane;
  nF : nat; frames : nat -> option frame;
  mm : mem; core : bool
}.

Definition finit (limit : Z) (rng : list nat) : fst_ :=
  mkSt 0 (fun _ => None) 0 (fun _ => None) (mem0 limit rng) true.

(** vscore.cpp:115-131, VSPlaneData(size_t, MemoryUse &). *)
Definition newPlane (s : fst_) (size : Z) : outcome (fst_ * nat) :=
  obind (allocate (mm s) size) (fun r =>
    Ok (mkSt (S (nP s)) (fset (planes s) (nP s) (Some (mkP 1 (snd r) size (fun _ => None))))
             (nF s) (frames s) (fst r) (core s), nP s)).

(** vscore.cpp:133-140, copy constructor: same size, memcpy of all bytes. *)
Definition copyPlane (s : fst_) (p : nat) : outcome (fst_ * nat) :=
  match planes s p with
  | None => UB
  | Some x =>
      obind (allocate (mm s) (p_size x)) (fun r =>
        Ok (mkSt (S (nP s)) (fset (planes s) (nP s) (Some (mkP 1 (snd r) (p_size x) (p_data x))))
                 (nF s) (frames s) (fst r) (core s), nP s))
  end.

(** vscore.cpp:146-148 *)
Definition uniqueP (x : plane) : bool := p_ref x =? 1.

(** vscore.cpp:150-152 *)
Definition addrefP (s : fst_) (p : nat) : outcome fst_ :=
  match planes s p with
  | None => UB
  | Some x => Ok (mkSt (nP s) (fset (planes s) p (Some (mkP (p_ref x + 1) (p_blk x) (p_size x) (p_data x))))
                       (nF s) (frames s) (mm s) (core s))
  end.

(** vscore.cpp:154-157 and the destructor 142-144. *)
Definition releaseP (s : fst_) (p : nat) : outcome fst_ :=
  match planes s p with
  | None => UB
  | Some x =>
      if p_ref x =? 1 then
        obind (deallocate (mm s) (p_blk x)) (fun m' =>
          Ok (mkSt (nP s) (fset (planes s) p None) (nF s) (frames s) m' (core s)))
      else Ok (mkSt (nP s) (fset (planes s) p (Some (mkP (p_ref x - 1) (p_blk x) (p_size x) (p_data x))))
                    (nF s) (frames s) (mm s) (core s))
  end.

Fixpoint addrefPs (s : fst_) (l : list nat) : outcome fst_ :=
  match l with [] => Ok s | p :: r => obind (addrefP s p) (fun s' => addrefPs s' r) end.

Fixpoint releasePs (s : fst_) (l : list nat) : outcome fst_ :=
  match l with [] => Ok s | p :: r => obind (releaseP s p) (fun s' => releasePs s' r) end.

Definition setFrame (s : fst_) (g : nat) (v : option frame) : fst_ :=
  mkSt (nP s) (planes s) (nF s) (fset (frames s) g v) (mm s) (core s).

Definition addFrame (s : fst_) (v : frame) : fst_ * nat :=
  (mkSt (nP s) (planes s) (S (nF s)) (fset (frames s) (nF s) (Some v)) (mm s) (core s), nF s).

Definition setPlane (s : fst_) (p : nat) (v : option plane) : fst_ :=
  mkSt (nP s) (fset (planes s) p v) (nF s) (frames s) (mm s) (core s).

(** vscore.h:454-462, getWidth / getHeight. *)
Definition getWidth (f : vfmt) (w i : Z) : Z := Z.shiftr w (if i =? 0 then 0 else f_ssw f).
Definition getHeight (f : vfmt) (h i : Z) : Z := Z.shiftr h (if i =? 0 then 0 else f_ssh f).

(** vscore.cpp:187-196 and 224-233; [al] is VSFrame::alignment. *)
Definition stride0 (al : Z) (f : vfmt) (w : Z) : Z := alignUp (w * f_bytes f) al.
Definition stride12 (al : Z) (f : vfmt) (w : Z) : Z := alignUp (Z.shiftr w (f_ssw f) * f_bytes f) al.

Definition strides (al : Z) (f : vfmt) (w : Z) : list Z :=
  if f_np f =? 3 then [stride0 al f w; stride12 al f w; stride12 al f w] else [stride0 al f w; 0; 0].

(** stride * rows in ptrdiff_t; overflow is undefined. *)
Definition mul64 (a b : Z) : outcome Z := if in_int64b (a * b) then Ok (a * b) else UB.

(** vscore.cpp:175-208, VSFrame(VSVideoFormat, width, height, propSrc).  A format
    with a plane count other than 1 or 3 is outside the API contract. *)
Definition newVideoFrame (al : Z) (s : fst_) (f : vfmt) (w h : Z) : outcome (fst_ * nat) :=
  if negb (core s) then UB
  else if (w <=? 0) || (h <=? 0) then Err
  else
    let st := strides al f w in
    obind (mul64 (stride0 al f w) h) (fun size0 =>
    obind (newPlane s size0) (fun r0 =>
    if f_np f =? 3 then
      obind (mul64 (stride12 al f w) (Z.shiftr h (f_ssh f))) (fun size23 =>
      obind (newPlane (fst r0) size23) (fun r1 =>
      obind (newPlane (fst r1) size23) (fun r2 =>
      Ok (addFrame (fst r2) (mkF 1 (Video f w h) st [snd r0; snd r1; snd r2])))))
    else if f_np f =? 1 then Ok (addFrame (fst r0) (mkF 1 (Video f w h) st [snd r0]))
    else UB)).

(** The loop of vscore.cpp:235-249 from plane [i] on. *)
Fixpoint sharePlanes (al : Z) (s : fst_) (f : vfmt) (w h i : Z) (src : list (option (nat * Z)))
  : outcome (fst_ * list nat) :=
  match src with
  | [] => Ok (s, [])
  | o :: rest =>
      obind
        match o with
        | Some (g, k) =>
            match frames s g with
            | Some (mkF _ (Video f' w' h') _ data) =>
                if (k <? 0) || (f_np f' <=? k) then Err
                else if negb (getHeight f' h' k =? getHeight f h i) || negb (getWidth f' w' k =? getWidth f w i)
                then Err
                else match nthz data k with
                     | Some p => obind (addrefP s p) (fun s' => Ok (s', p))
                     | None => UB
                     end
            | _ => UB                      (* dead frame, or an audio frame read as video *)
            end
        | None =>
            if i =? 0 then obind (mul64 (stride0 al f w) h) (newPlane s)
            else obind (mul64 (stride12 al f w) (Z.shiftr h (f_ssh f))) (newPlane s)
        end
        (fun r => obind (sharePlanes al (fst r) f w h (i + 1) rest) (fun q => Ok (fst q, snd r :: snd q)))
  end.

(** vscore.cpp:210-253, VSFrame(VSVideoFormat, width, height, planeSrc, plane,
    propSrc); [src] are the two arrays planeSrc and plane.  Arrays of another
    length than the plane count are outside the API contract. *)
Definition newVideoFrame2 (al : Z) (s : fst_) (f : vfmt) (w h : Z) (src : list (option (nat * Z)))
  : outcome (fst_ * nat) :=
  if negb (core s) then UB
  else if (w <=? 0) || (h <=? 0) then Err
  else if negb (zlength src =? f_np f) then UB
  else if negb (f_np f =? 3) && negb (f_np f =? 1) then UB
  else obind (sharePlanes al s f w h 0 src) (fun r =>
       Ok (addFrame (fst r) (mkF 1 (Video f w h) (strides al f w) (snd r)))).

(** vscore.cpp:255-277, VSFrame(VSAudioFormat, numSamples, propSrc). *)
Definition newAudioFrame (s : fst_) (a : afmt) (n : Z) : outcome (fst_ * nat) :=
  if negb (core s) then UB
  else if n <=? 0 then Err
  else
    let st0 := a_bytes a * AUDIO_FRAME_SAMPLES in
    obind (newPlane s (st0 * a_nch a)) (fun r =>
    Ok (addFrame (fst r) (mkF 1 (Audio a n) [st0; 0; 0] [snd r]))).

(** memcpy of [len] bytes between two buffers; leaving a buffer is undefined. *)
Definition copyBytes (s : fst_) (dst : nat) (doff : Z) (src : nat) (soff len : Z) : outcome fst_ :=
  match planes s dst, planes s src with
  | Some x, Some y =>
      if (0 <=? doff) && (doff + len <=? p_size x) && (0 <=? soff) && (soff + len <=? p_size y)
      then Ok (setPlane s dst (Some (mkP (p_ref x) (p_blk x) (p_size x)
                 (fun o => if (doff <=? o) && (o <? doff + len) then p_data y (o - doff + soff)
                           else p_data x o))))
      else UB
  | _, _ => UB
  end.

(** The loop of vscore.cpp:300-308 from channel [i] on; [p] is the new buffer,
    uniquely owned so getWritePtr does not copy. *)
Fixpoint copyChannels (s : fst_) (a : afmt) (n i : Z) (p : nat) (src : list (option (nat * Z)))
  : outcome fst_ :=
  match src with
  | [] => Ok s
  | o :: rest =>
      obind
        match o with
        | Some (g, k) =>
            match frames s g with
            | Some (mkF _ (Audio a' n') st data) =>
                if (k <? 0) || (a_nch a' <=? k) then Err
                else if negb (n' =? n) then Err
                else match data, st with
                     | q :: _, st0 :: _ =>
                         copyBytes s p (i * (a_bytes a * AUDIO_FRAME_SAMPLES)) q (k * st0) (n * a_bytes a)
                     | _, _ => UB
                     end
            | _ => UB
            end
        | None => Ok s
        end
        (fun s' => copyChannels s' a n (i + 1) p rest)
  end.

(** vscore.cpp:279-311, VSFrame(VSAudioFormat, numSamples, channelSrc, channel, propSrc). *)
Definition newAudioFrame2 (s : fst_) (a : afmt) (n : Z) (src : list (option (nat * Z)))
  : outcome (fst_ * nat) :=
  if negb (core s) then UB
  else if n <=? 0 then Err
  else if negb (zlength src =? a_nch a) then UB
  else
    let st0 := a_bytes a * AUDIO_FRAME_SAMPLES in
    obind (newPlane s (st0 * a_nch a)) (fun r =>
    obind (copyChannels (fst r) a n 0 (snd r) src) (fun s' =>
    Ok (addFrame s' (mkF 1 (Audio a n) [st0; 0; 0] [snd r])))).

(** vscore.cpp:313-341, copy constructor (copyFrame, vsapi.cpp:209-212). *)
Definition copyFrame (s : fst_) (g : nat) : outcome (fst_ * nat) :=
  if negb (core s) then UB
  else match frames s g with
  | None => UB
  | Some fr => obind (addrefPs s (fr_data fr)) (fun s' =>
                 Ok (addFrame s' (mkF 1 (fr_kind fr) (fr_stride fr) (fr_data fr))))
  end.

(** vscore.h:440-449, add_ref / release, and ~VSFrame (vscore.cpp:343-354). *)
Definition addrefF (s : fst_) (g : nat) : outcome fst_ :=
  match frames s g with
  | None => UB
  | Some fr => Ok (setFrame s g (Some (mkF (fr_ref fr + 1) (fr_kind fr) (fr_stride fr) (fr_data fr))))
  end.

Definition releaseF (s : fst_) (g : nat) : outcome fst_ :=
  match frames s g with
  | None => UB
  | Some fr =>
      if fr_ref fr =? 1 then releasePs (setFrame s g None) (fr_data fr)
      else Ok (setFrame s g (Some (mkF (fr_ref fr - 1) (fr_kind fr) (fr_stride fr) (fr_data fr))))
  end.

(** vscore.cpp:370-378, getReadPtr: plane buffer and byte offset. *)
Definition readPtr (fr : frame) (i : Z) : option (nat * Z) :=
  if (i <? 0) || (k_np (fr_kind fr) <=? i) then None
  else match fr_kind fr with
       | Video _ _ _ => match nthz (fr_data fr) i with Some p => Some (p, 0) | None => None end
       | Audio _ _ => match fr_data fr, fr_stride fr with p :: _, s0 :: _ => Some (p, i * s0) | _, _ => None end
       end.

(** list assignment data[i] = p *)
Fixpoint upd (l : list nat) (i : nat) (p : nat) : list nat :=
  match l, i with
  | [], _ => []
  | _ :: r, O => p :: r
  | x :: r, S k => x :: upd r k p
  end.

(** vscore.cpp:380-402, getWritePtr. *)
Definition getWritePtr (s : fst_) (g : nat) (i : Z) : outcome (fst_ * option (nat * Z)) :=
  match frames s g with
  | None => UB
  | Some fr =>
      if (i <? 0) || (k_np (fr_kind fr) <=? i) then Ok (s, None)
      else
        let idx := match fr_kind fr with Video _ _ _ => Z.to_nat i | Audio _ _ => O end in
        let base := match fr_kind fr with Video _ _ _ => 0 | Audio _ _ => i * hd 0 (fr_stride fr) end in
        match nth_error (fr_data fr) idx with
        | None => UB
        | Some p =>
            match planes s p with
            | None => UB
            | Some x =>
                if uniqueP x then Ok (s, Some (p, base))
                else obind (copyPlane s p) (fun r =>
                     let s1 := setFrame (fst r) g (Some (mkF (fr_ref fr) (fr_kind fr) (fr_stride fr)
                                                            (upd (fr_data fr) idx (snd r)))) in
                     obind (releaseP s1 p) (fun s2 => Ok (s2, Some (snd r, base))))
            end
        end
  end.

(** Storing a byte through a pointer: leaving the buffer is undefined. *)
Definition poke (s : fst_) (p : nat) (off v : Z) : outcome fst_ :=
  match planes s p with
  | None => UB
  | Some x =>
      if (0 <=? off) && (off <? p_size x)
      then Ok (setPlane s p (Some (mkP (p_ref x) (p_blk x) (p_size x)
                                       (fun o => if o =? off then Some v else p_data x o))))
      else UB
  end.

Definition peek (s : fst_) (p : nat) (off : Z) : outcome (option Z) :=
  match planes s p with
  | None => UB
  | Some x => if (0 <=? off) && (off <? p_size x) then Ok (p_data x off) else UB
  end.

Definition writeByte (s : fst_) (g : nat) (i off v : Z) : outcome fst_ :=
  obind (getWritePtr s g i) (fun r =>
    match snd r with
    | None => UB
    | Some (p, base) => poke (fst r) p (base + off) v
    end).

Definition readByte (s : fst_) (g : nat) (i off : Z) : outcome (option Z) :=
  match frames s g with
  | None => UB
  | Some fr => match readPtr fr i with
               | None => UB
               | Some (p, base) => peek s p (base + off)
               end
  end.

Definition withMem (s : fst_) (m : mem) (c : bool) : fst_ :=
  mkSt (nP s) (planes s) (nF s) (frames s) m c.

Definition handle (r : outcome (fst_ * nat)) : outcome (fst_ * obs) :=
  obind r (fun x => Ok (fst x, RHandle (snd x))).

Definition step (al : Z) (s : fst_) (o : op) : outcome (fst_ * obs) :=
  match o with
  | ONewVideo f w h => handle (newVideoFrame al s f w h)
  | ONewVideo2 f w h src => handle (newVideoFrame2 al s f w h src)
  | ONewAudio a n => handle (newAudioFrame s a n)
  | ONewAudio2 a n src => handle (newAudioFrame2 s a n src)
  | OCopy g => handle (copyFrame s g)
  | OAddRef g => obind (addrefF s g) (fun s' => Ok (s', RNone))
  | OFree g => obind (releaseF s g) (fun s' => Ok (s', RNone))
  | OWrite g i off v => obind (writeByte s g i off v) (fun s' => Ok (s', RNone))
  | ORead g i off => obind (readByte s g i off) (fun b => Ok (s, RByte b))
  | OGetWrite g i => obind (getWritePtr s g i) (fun r =>
      Ok (fst r, RPtr (match snd r with Some _ => true | None => false end)))
  | OLimit l => if negb (core s) then UB
                else obind (set_limit (mm s) l) (fun m => Ok (withMem s m (core s), RNone))
  | OCoreFree => if negb (core s) then UB
                 else obind (on_core_freed (mm s)) (fun m => Ok (withMem s m false, RNone))
  end.

(** A whole run: observations and how it ended. *)
Inductive ending := Finished (s : fst_) | Fatal | Undefined.

Fixpoint run (al : Z) (s : fst_) (l : list op) : list obs * ending :=
  match l with
  | [] => ([], Finished s)
  | o :: r => match step al s o with
              | UB => ([], Undefined)
              | Err => ([], Fatal)
              | Ok (s', b) => let (bs, e) := run al s' r in (b :: bs, e)
              end
  end.
