(** Wave headers and interleaving: src/common/wave.cpp:46-167, wave.h:31-69; their use: src/vspipe/vspipe.cpp:262-286, 547-583.  On a little-endian machine; the byte swaps of a big-endian one give the same bytes. *)
From Coq Require Import ZArith List Bool Lia.
From Verif Require Import Common FormatSpec WaveSpec.
Import ListNotations.
Open Scope Z_scope.

(** A value of an unsigned type of n bytes, as it is in memory. *)
Fixpoint store (n : nat) (v : Z) : bytes := match n with O => [] | S k => Z.land v 255 :: store k (Z.shiftr v 8) end.
Definition uuidTail : bytes := [0xF3; 0xAC; 0xD3; 0x11; 0x8C; 0xD1; 0x00; 0xC0; 0x4F; 0x8E; 0xDB; 0x8A].
Definition subtypePCM : bytes := [0x01; 0x00; 0x00; 0x00; 0x00; 0x00; 0x10; 0x00; 0x80; 0x00; 0x00; 0xAA; 0x00; 0x38; 0x9B; 0x71].
Definition subtypeFloat : bytes := [0x03; 0x00; 0x00; 0x00; 0x00; 0x00; 0x10; 0x00; 0x80; 0x00; 0x00; 0xAA; 0x00; 0x38; 0x9B; 0x71].
(** CreateWaveFormatExtensible, 106-124; None: false is returned. *)
Definition fmtExtensible (c : clip) : option bytes :=
  if negb (c_mask c =? wrapu32 (c_mask c)) then None else
  let n := popcount 64 (c_mask c) in
  let b := (c_bits c + 7) / 8 in
  Some ([0xFE; 0xFF] ++ store 2 (wrapu16 n) ++ store 4 (wrapu32 (c_rate c)) ++ store 4 (wrapu32 (wrapu64 (n * b * c_rate c))) ++ store 2 (wrapu16 (n * b)) ++ store 2 (wrapu16 (b * 8)) ++ store 2 (40 - 18)
    ++ store 2 (wrapu16 (c_bits c)) ++ store 4 (wrapu32 (c_mask c)) ++ (if c_float c then subtypeFloat else subtypePCM)).
Definition dataSize (c : clip) : Z := wrapu64 (popcount 64 (c_mask c) * ((c_bits c + 7) / 8) * c_samples c).
(** CreateWave64Header, 126-144. *)
Definition wave64Header (c : clip) : option bytes :=
  match fmtExtensible c with
  | None => None
  | Some wfx => Some ([0x72; 0x69; 0x66; 0x66; 0x2E; 0x91; 0xCF; 0x11; 0xA5; 0xD6; 0x28; 0xDB; 0x04; 0xC1; 0x00; 0x00] ++ store 8 (wrapu64 (128 + dataSize c)) ++ [0x77; 0x61; 0x76; 0x65] ++ uuidTail
      ++ [0x66; 0x6D; 0x74; 0x20] ++ uuidTail ++ store 8 (40 + 16 + 8) ++ wfx ++ [0x64; 0x61; 0x74; 0x61] ++ uuidTail ++ store 8 (wrapu64 (dataSize c + 16 + 8)))
  end.
Definition maxWaveFileSize : Z := 0xFFFFFFFE.
(** CreateWaveHeader, 146-167. *)
Definition waveHeader (c : clip) : option bytes :=
  if maxWaveFileSize <? wrapu64 (68 + dataSize c) then None else
  match fmtExtensible c with
  | None => None
  | Some wfx => Some ([0x52; 0x49; 0x46; 0x46] ++ store 4 (wrapu32 (68 - 4 - 4 + dataSize c)) ++ [0x57; 0x41; 0x56; 0x45] ++ [0x66; 0x6D; 0x74; 0x20] ++ store 4 40 ++ wfx ++ [0x64; 0x61; 0x74; 0x61] ++ store 4 (wrapu32 (dataSize c)))
  end.
(** ** Interleaving.  [src]: the samples of each channel as unsigned 16 or 32 bit values; what is written for one sample; UB past the end of a channel. *)
Definition enc (w : Z) (v : Z) : bytes := if w =? 3 then skipn 1 (store 4 v) else store (Z.to_nat w) v.
Fixpoint packRow (w : Z) (src : list (list Z)) (i : nat) : outcome bytes :=
  match src with [] => Ok [] | s :: r => match nth_error s i with None => UB | Some v => obind (packRow w r i) (fun d => Ok (enc w v ++ d)) end end.
Fixpoint packFrom (w : Z) (src : list (list Z)) (i len : nat) : outcome bytes :=
  match len with O => Ok [] | S k => obind (packRow w src i) (fun d => obind (packFrom w src (S i) k) (fun e => Ok (d ++ e))) end.
Definition packChannels (w : Z) (src : list (list Z)) (len : nat) : outcome bytes := packFrom w src 0 len.
(** outputFrame, vspipe.cpp:262-286, for a sequence of frames: channels and lengths. *)
Fixpoint outputFrames (w : Z) (fs : list (list (list Z) * nat)) : outcome bytes :=
  match fs with [] => Ok [] | (f, len) :: r => obind (packChannels w f len) (fun d => obind (outputFrames w r) (fun e => Ok (d ++ e))) end.
