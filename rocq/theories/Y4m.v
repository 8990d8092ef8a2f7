(** Video output of vspipe: src/vspipe/vspipe.cpp:236-262 (outputFrame), 345-362 (FRAME markers), 439-520 (initializeVideoOutput) and bitblt, include/VSHelper4.h:185-200. *)
From Coq Require Import String Ascii ZArith List Bool Lia.
From Verif Require Import Common OptSpec Y4mSpec.
Import ListNotations.
Open Scope Z_scope.

(** A plane in memory; the bytes after the end of a row may be anything. *)
Record plane := mkPl { pl_stride : Z; pl_mem : text }.
Definition slice (off n : Z) (m : text) : outcome text :=
  if (0 <=? off) && (0 <=? n) && (off + n <=? Z.of_nat (length m)) then Ok (firstn (Z.to_nat n) (skipn (Z.to_nat off) m)) else UB.
(** memcpy of [b] to offset [off]. *)
Definition store (off : Z) (b m : text) : outcome text :=
  if (0 <=? off) && (off + Z.of_nat (length b) <=? Z.of_nat (length m))
  then Ok (firstn (Z.to_nat off) m ++ b ++ skipn (Z.to_nat off + length b) m) else UB.
(** bitblt, VSHelper4.h:185-200, for height > 0. *)
Fixpoint blitRows (k : nat) (dst : text) (dOff dStride : Z) (src : text) (sOff sStride rowSize : Z) : outcome text :=
  match k with
  | O => Ok dst
  | S k => obind (slice sOff rowSize src) (fun b => obind (store dOff b dst) (fun dst => blitRows k dst (dOff + dStride) dStride src (sOff + sStride) sStride rowSize))
  end.
Definition bitblt (dst : text) (dStride : Z) (src : text) (sStride rowSize height : Z) : outcome text :=
  if height =? 0 then Ok dst
  else if (sStride =? dStride) && (sStride =? rowSize) then obind (slice 0 (rowSize * height) src) (fun b => store 0 b dst)
  else blitRows (Z.to_nat height) dst 0 dStride src 0 sStride rowSize.
(** getFrameWidth, getFrameHeight: src/core/vscore.h:475-482. *)
Definition frameWidth (f : format) (w : Z) (p : nat) : Z := match p with O => w | _ => Z.shiftr w (f_ssw f) end.
Definition frameHeight (f : format) (h : Z) (p : nat) : Z := match p with O => h | _ => Z.shiftr h (f_ssh f) end.
Definition bytesPerSample (f : format) : Z := sampleBytes (f_bits f).
(** One round of the loop of outputFrame: what is written and the buffer afterwards. *)
Definition writePlane (f : format) (w h : Z) (p : nat) (pl : plane) (buffer : text) : outcome (text * text) :=
  let rowSize := frameWidth f w p * bytesPerSample f in
  let height := frameHeight f h p in
  if negb (rowSize =? pl_stride pl)
  then obind (bitblt buffer rowSize (pl_mem pl) (pl_stride pl) rowSize height) (fun buffer => obind (slice 0 (rowSize * height) buffer) (fun out => Ok (out, buffer)))
  else obind (slice 0 (rowSize * height) (pl_mem pl)) (fun out => Ok (out, buffer)).
Definition rgbRemap (rp : nat) : nat := match rp with O => 1%nat | S O => 2%nat | _ => 0%nat end.
Fixpoint writePlanes (f : format) (w h : Z) (fr : list plane) (rps : list nat) (buffer : text) : outcome (text * text) :=
  match rps with
  | [] => Ok ([], buffer)
  | rp :: rest =>
      let p := match f_family f with RGB => rgbRemap rp | _ => rp end in
      match nth_error fr p with
      | None => UB
      | Some pl => obind (writePlane f w h p pl buffer) (fun x => obind (writePlanes f w h fr rest (snd x)) (fun y => Ok (fst x ++ fst y, snd y)))
      end
  end.
Definition outputFrame (f : format) (w h : Z) (fr : list plane) (buffer : text) : outcome (text * text) := writePlanes f w h fr (seq 0 (planeCount f)) buffer.
(** The frames in their order (C59), each with the alpha frame if there is one; an alpha clip is Gray with the same samples (vapoursynth.pyx:2423-2434). *)
Definition alphaFormat (f : format) : format := mkF Gray (f_float f) (f_bits f) 0 0.
Fixpoint writeFrames (y4m : bool) (f : format) (w h : Z) (fs : list (list plane * option plane)) (buffer : text) : outcome text :=
  match fs with
  | [] => Ok []
  | (fr, a) :: rest =>
      obind (outputFrame f w h fr buffer) (fun x =>
      obind (match a with Some a => outputFrame (alphaFormat f) w h [a] (snd x) | None => Ok ([], snd x) end) (fun z =>
      obind (writeFrames y4m f w h rest (snd z)) (fun out => Ok ((if y4m then T "FRAME" ++ [nl] else []) ++ fst x ++ fst z ++ out))))
  end.
(** floatBitsToLetter; the assertion for other sizes is not compiled in. *)
Definition floatBitsToLetter (bits : Z) : text := if bits =? 16 then T "h" else if bits =? 32 then T "s" else if bits =? 64 then T "d" else T "u".
Definition y4mFormat (f : format) : outcome text :=
  match f_family f with
  | Gray => Ok (T "mono" ++ if 8 <? f_bits f then dec (f_bits f) else [])
  | YUV =>
      obind (if (f_ssw f =? 1) && (f_ssh f =? 1) then Ok (T "420") else if (f_ssw f =? 1) && (f_ssh f =? 0) then Ok (T "422")
             else if (f_ssw f =? 0) && (f_ssh f =? 0) then Ok (T "444") else if (f_ssw f =? 2) && (f_ssh f =? 2) then Ok (T "410")
             else if (f_ssw f =? 2) && (f_ssh f =? 0) then Ok (T "411") else if (f_ssw f =? 0) && (f_ssh f =? 1) then Ok (T "440") else Err) (fun t =>
      Ok (t ++ if (8 <? f_bits f) && negb (f_float f) then T "p" ++ dec (f_bits f) else if f_float f then T "p" ++ floatBitsToLetter (f_bits f) else []))
  | RGB => Err
  end.
Definition header (f : format) (w h num den frames : Z) : outcome text :=
  obind (y4mFormat f) (fun c => Ok (T "YUV4MPEG2" ++ (T " C" ++ c) ++ T " W" ++ dec w ++ T " H" ++ dec h ++ T " F" ++ dec num ++ T ":" ++ dec den
    ++ T " Ip A0:0" ++ T " XLENGTH=" ++ dec frames ++ [nl])).
(** initializeVideoOutput followed by the frames; [junk] is what the new buffer holds (zeros). *)
Definition bufferSize (f : format) (w h : Z) : Z := w * h * bytesPerSample f.
Definition newBuffer (f : format) (w h : Z) : text := repeat (ascii_of_nat 0) (Z.to_nat (bufferSize f w h)).
Definition writeVideo (y4m : bool) (f : format) (w h num den : Z) (fs : list (list plane * option plane)) : outcome text :=
  let hasAlpha := existsb (fun x => match snd x with Some _ => true | None => false end) fs in
  if y4m && ((match f_family f with RGB => true | _ => false end) || hasAlpha) then Err
  else obind (if y4m then header f w h num den (Z.of_nat (length fs)) else Ok []) (fun t =>
       obind (writeFrames y4m f w h fs (newBuffer f w h)) (fun out => Ok (t ++ out))).

(** What a frame in memory shows. *)
Definition planeShows (w h bytes : Z) (pl : plane) (r : rows) : Prop :=
  w * bytes <= pl_stride pl /\ Z.of_nat (length (pl_mem pl)) = pl_stride pl * h /\
  r = map (fun y => firstn (Z.to_nat (w * bytes)) (skipn (Z.to_nat (pl_stride pl) * y) (pl_mem pl))) (seq 0 (Z.to_nat h)).
Definition frameShows (f : format) (w h : Z) (fr : list plane) (v : list rows) : Prop :=
  length fr = planeCount f /\ length v = planeCount f /\
  forall p pl r, nth_error fr p = Some pl -> nth_error v p = Some r -> planeShows (planeW f w p) (planeH f h p) (sampleBytes (f_bits f)) pl r.
