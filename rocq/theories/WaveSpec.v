(** Wave and Wave64 files as bytes: a reader for each, and interleaved samples. *)
From Coq Require Import ZArith List Bool Lia.
From Verif Require Import FormatSpec.
Import ListNotations.
Open Scope Z_scope.
Definition bytes := list Z.
(** Little-endian numbers. *)
Fixpoint le (n : nat) (v : Z) : bytes := match n with O => [] | S k => v mod 256 :: le k (v / 256) end.
Fixpoint unle (l : bytes) : Z := match l with [] => 0 | b :: r => b + 256 * unle r end.
Definition take (n : nat) (l : bytes) : option (bytes * bytes) := if (length l <? n)%nat then None else Some (firstn n l, skipn n l).
Definition num (n : nat) (l : bytes) : option (Z * bytes) := match take n l with Some (a, r) => Some (unle a, r) | None => None end.
Definition same (a b : bytes) : bool := if list_eq_dec Z.eq_dec a b then true else false.
Definition expect (w l : bytes) : option bytes := match take (length w) l with Some (a, r) => if same a w then Some r else None | None => None end.
Notation "'do' p <- e ; f" := (match e with Some p => f | None => None end) (at level 200, p pattern, e at level 100, f at level 200).
(** The format chunk WAVEFORMATEXTENSIBLE. *)
Record info := mkI { i_float : bool; i_channels : Z; i_rate : Z; i_avg : Z; i_align : Z; i_container : Z; i_valid : Z; i_mask : Z }.
Definition guid (first : Z) : bytes := [first; 0; 0; 0; 0; 0; 16; 0; 128; 0; 0; 170; 0; 56; 155; 113].
Definition readFmt (l : bytes) : option (info * bytes) :=
  do l <- expect [254; 255] l; do (ch, l) <- num 2 l; do (rate, l) <- num 4 l; do (avg, l) <- num 4 l; do (align, l) <- num 2 l; do (bits, l) <- num 2 l; do (cb, l) <- num 2 l;
  do (valid, l) <- num 2 l; do (mask, l) <- num 4 l; do (sub, l) <- take 16 l;
  if negb (cb =? 22) then None else if same sub (guid 1) then Some (mkI false ch rate avg align bits valid mask, l) else if same sub (guid 3) then Some (mkI true ch rate avg align bits valid mask, l) else None.
(** A RIFF file: the size field counts what follows it, each chunk's size its contents; a chunk of odd size is followed by one byte more when [pad] is demanded. *)
Definition readWave (pad : bool) (l : bytes) : option (info * bytes) :=
  do l <- expect [82; 73; 70; 70] l; do (size, l) <- num 4 l;
  if negb (size =? Z.of_nat (length l)) then None else
  do l <- expect [87; 65; 86; 69] l; do l <- expect [102; 109; 116; 32] l; do (fs, l) <- num 4 l;
  if negb (fs =? 40) then None else
  do (i, l) <- readFmt l; do l <- expect [100; 97; 116; 97] l; do (ds, l) <- num 4 l;
  if ds + (if pad then ds mod 2 else 0) =? Z.of_nat (length l) then Some (i, firstn (Z.to_nat ds) l) else None.
(** A Wave64 file: identifiers of 16 bytes, sizes of 8 that count themselves and the identifier; the outermost is the size of the file. *)
Definition id64 (a b c d : Z) : bytes := [a; b; c; d; 243; 172; 211; 17; 140; 209; 0; 192; 79; 142; 219; 138].
Definition riff64 : bytes := [114; 105; 102; 102; 46; 145; 207; 17; 165; 214; 40; 219; 4; 193; 0; 0].
Definition readWave64 (l : bytes) : option (info * bytes) :=
  let total := Z.of_nat (length l) in
  do l <- expect riff64 l; do (size, l) <- num 8 l;
  if negb (size =? total) then None else
  do l <- expect (id64 119 97 118 101) l; do l <- expect (id64 102 109 116 32) l; do (fs, l) <- num 8 l;
  if negb (fs =? 64) then None else
  do (i, l) <- readFmt l; do l <- expect (id64 100 97 116 97) l; do (ds, l) <- num 8 l;
  if ds - 24 =? Z.of_nat (length l) then Some (i, l) else None.
(** What the header is to say about a clip. *)
Record clip := mkC { c_float : bool; c_bits : Z; c_rate : Z; c_mask : Z; c_samples : Z }.
Definition channels (c : clip) : Z := popcount 64 (c_mask c).
Definition width (c : clip) : Z := (c_bits c + 7) / 8.
Definition dataBytes (c : clip) : Z := channels c * width c * c_samples c.
Definition infoOf (c : clip) : info := mkI (c_float c) (channels c) (c_rate c) (channels c * width c * c_rate c) (channels c * width c) (8 * width c) (c_bits c) (c_mask c).
(** Clips there can be: 16 to 32 bits, a positive rate, at least one channel, as many samples as fit in frames. *)
Definition properClip (c : clip) : Prop := 16 <= c_bits c <= 32 /\ 0 < c_rate c < 2 ^ 31 /\ 0 < c_mask c < 2 ^ 64 /\ 0 < c_samples c <= 2 ^ 31 * 3072.
(** The rate of bytes can be told. *)
Definition rateFits (c : clip) : Prop := channels c * width c * c_rate c < 2 ^ 32.
(** ** Interleaved samples: number [i] of channel [k] among [n], each of [w] bytes. *)
Definition sampleAt (w n : nat) (d : bytes) (i k : nat) : Z := unle (firstn w (skipn (w * (i * n + k)) d)).
Definition unpack (w n len : nat) (d : bytes) : list (list Z) := map (fun k => map (fun i => sampleAt w n d i k) (seq 0 len)) (seq 0 n).
(** The value of a sample of w bytes for what is in memory: 24 bit samples are the upper ones of 32. *)
Definition valueOf (w v : Z) : Z := if w =? 3 then v / 256 else v.
Definition fitsW (w v : Z) : Prop := 0 <= v < (if w =? 2 then 2 ^ 16 else 2 ^ 32).
(** Frames: the samples of each channel, and how many. *)
Definition properFrame (w : Z) (n : nat) (f : list (list Z) * nat) : Prop := length (fst f) = n /\ Forall (fun s => length s = snd f /\ Forall (fitsW w) s) (fst f).
Definition total (fs : list (list (list Z) * nat)) : nat := fold_right (fun f a => (snd f + a)%nat) 0%nat fs.
(** The channels of the clip, joined over its frames. *)
Definition joined (w : Z) (fs : list (list (list Z) * nat)) (k : nat) : list Z := flat_map (fun f => map (valueOf w) (nth k (fst f) [])) fs.
