(** What the audio filters promise, in terms of sample streams.  Nothing here
    refers to the filter models; the frame and clip records are the interface
    (what a filter receives and hands out). *)
From Coq Require Import ZArith List Bool.
From Verif Require Import Common.
Import ListNotations.
Open Scope Z_scope.

(** include/VapourSynth4.h:38, VS_AUDIO_FRAME_SAMPLES. *)
Definition AFS : Z := 3072.

(** An audio frame: its length and the cells of its buffer.  A cell holds the
    sample of every channel at that position (filters that treat all channels
    alike need nothing more); [None] is memory nobody wrote. *)
Record aframe (A : Type) := mkAF { af_len : Z; af_buf : list (option A) }.
Arguments mkAF {A} _ _.
Arguments af_len {A} _.
Arguments af_buf {A} _.

(** An audio clip: declared length, declared frame count, frame function. *)
Record clip (A : Type) := mkClip { c_samples : Z; c_frames : Z; c_get : Z -> outcome (aframe A) }.
Arguments mkClip {A} _ _ _.
Arguments c_samples {A} _.
Arguments c_frames {A} _.
Arguments c_get {A} _ _.

(** A sample stream: [None] outside. *)
Definition stream (A : Type) := Z -> option A.

(** Number of frames for [L] samples: the least number of 3072 sample frames that hold them. *)
Definition framesFor (L k : Z) : Prop := AFS * (k - 1) < L <= AFS * k.

(** Frame [f] is frame [n] of the stream [s] of [L] samples. *)
Definition holds {A} (L : Z) (s : stream A) (n : Z) (f : aframe A) : Prop :=
  af_len f = Z.min AFS (L - AFS * n) /\ zlength (af_buf f) = AFS /\
  forall i, 0 <= i < af_len f ->
    exists a, nthz (af_buf f) i = Some (Some a) /\ s (AFS * n + i) = Some a.

(** The clip delivers the stream: right length, right frame count, every
    frame is produced and is the right one. *)
Definition serves {A} (c : clip A) (L : Z) (s : stream A) : Prop :=
  c_samples c = L /\ 1 <= L <= INT_MAX * AFS /\ framesFor L (c_frames c) /\
  forall n, 0 <= n < c_frames c -> exists f, c_get c n = Ok f /\ holds L s n f.

(** *** Streams of the edited clips *)

Definition trimmed {A} (s : stream A) (first : Z) : stream A := fun i => s (first + i).

Fixpoint joined {A} (l : list (Z * stream A)) : stream A :=
  match l with
  | [] => fun _ => None
  | (L, s) :: t => fun i => if i <? L then s i else joined t (i - L)
  end.
Fixpoint total (l : list Z) : Z := match l with [] => 0 | x :: t => x + total t end.

Definition looped {A} (s : stream A) (L : Z) : stream A := fun i => s (i mod L).
Definition reversed {A} (s : stream A) (L : Z) : stream A := fun i => s (L - 1 - i).

(** What a trim request asks for: [Some (first, length)] when legal. *)
Definition trimWish (L : Z) (first last len : option Z) : option (Z * Z) :=
  let f := match first with Some x => x | None => 0 end in
  let ok n := if (0 <=? f) && (1 <=? n) && (f + n <=? L) then Some (f, n) else None in
  match last, len with
  | Some _, Some _ => None
  | Some z, None => ok (z - f + 1)
  | None, Some n => ok n
  | None, None => ok (L - f)
  end.

(** *** Sets of clips *)

Definition allServe {A} (cs : list (clip A)) (ls : list (Z * stream A)) : Prop :=
  Forall2 (fun c x => serves c (fst x) (snd x)) cs ls.

Definition sameFmt {A} (clips : list (Z * clip A)) : Prop :=
  forall x y, In x clips -> In y clips -> fst x = fst y.

(** All frames have the same length. *)
Definition uniform (L : Z) : Prop := L <= AFS \/ L mod AFS = 0.
