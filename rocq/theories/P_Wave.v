(** C62: Wave and Wave64 output. *)
From Coq Require Import ZArith List Bool.
From Verif Require Import Common FormatSpec WaveSpec Wave WaveLemmas.
Import ListNotations.
Open Scope Z_scope.

(** A wave header says of the data that follows it what it is, for files up to the limit ... *)
Theorem C62_wave : forall c, properClip c -> forall d, c_mask c < 2 ^ 32 -> rateFits c -> 68 + dataBytes c <= maxWaveFileSize -> Z.of_nat (length d) = dataBytes c ->
  exists h, waveHeader c = Some h /\ length h = 68%nat /\ readWave false (h ++ d) = Some (infoOf c, d).
Proof. exact wave_read. Qed.
Print Assumptions C62_wave.
(** ... and is refused for longer ones and for channels without a bit in 32. *)
Theorem C62_wave_refused : forall c, properClip c -> maxWaveFileSize < 68 + dataBytes c \/ 2 ^ 32 <= c_mask c -> waveHeader c = None.
Proof. exact wave_refused. Qed.
Print Assumptions C62_wave_refused.
Theorem C62_wave64 : forall c, properClip c -> forall d, c_mask c < 2 ^ 32 -> rateFits c -> Z.of_nat (length d) = dataBytes c ->
  exists h, wave64Header c = Some h /\ length h = 128%nat /\ readWave64 (h ++ d) = Some (infoOf c, d).
Proof. exact wave64_read. Qed.
Print Assumptions C62_wave64.
Theorem C62_wave64_refused : forall c, properClip c -> (2 ^ 32 <= c_mask c <-> wave64Header c = None).
Proof. exact wave64_refused. Qed.
Print Assumptions C62_wave64_refused.
(** Interleaving frames and taking the channels apart again gives the channels of the clip. *)
Theorem C62_round_trip : forall w n fs, okW w -> Forall (properFrame w n) fs ->
  exists d, outputFrames w fs = Ok d /\ length d = (Z.to_nat w * n * total fs)%nat /\ unpack (Z.to_nat w) n (total fs) d = map (joined w fs) (seq 0 n).
Proof. exact round_trip. Qed.
Print Assumptions C62_round_trip.
(** Whole files. *)
Theorem C62_wave_file : forall c fs, properClip c -> rateFits c -> c_mask c < 2 ^ 32 -> 68 + dataBytes c <= maxWaveFileSize -> Forall (properFrame (width c) (Z.to_nat (channels c))) fs -> Z.of_nat (total fs) = c_samples c ->
  exists h d, waveHeader c = Some h /\ outputFrames (width c) fs = Ok d /\ readWave false (h ++ d) = Some (infoOf c, d) /\ unpack (Z.to_nat (width c)) (Z.to_nat (channels c)) (total fs) d = map (joined (width c) fs) (seq 0 (Z.to_nat (channels c))).
Proof. exact wave_file. Qed.
Print Assumptions C62_wave_file.
Theorem C62_wave64_file : forall c fs, properClip c -> rateFits c -> c_mask c < 2 ^ 32 -> Forall (properFrame (width c) (Z.to_nat (channels c))) fs -> Z.of_nat (total fs) = c_samples c ->
  exists h d, wave64Header c = Some h /\ outputFrames (width c) fs = Ok d /\ readWave64 (h ++ d) = Some (infoOf c, d) /\ unpack (Z.to_nat (width c)) (Z.to_nat (channels c)) (total fs) d = map (joined (width c) fs) (seq 0 (Z.to_nat (channels c))).
Proof. exact wave64_file. Qed.
Print Assumptions C62_wave64_file.
(** A data chunk of odd size is not padded, so a reader that demands it finds the sizes wrong. *)
Theorem C62_padding_refuted : exists c h d, properClip c /\ waveHeader c = Some h /\ Z.of_nat (length d) = dataBytes c /\ readWave false (h ++ d) = Some (infoOf c, d) /\ readWave true (h ++ d) = None.
Proof. exact no_pad. Qed.
Print Assumptions C62_padding_refuted.
(** Bytes per second that do not fit 32 bits are cut off rather than refused. *)
Theorem C62_rate_refuted : exists c h i, properClip c /\ waveHeader c = Some h /\ readWave false (h ++ [0; 0; 0; 0]) = Some (i, [0; 0; 0; 0]) /\ i_align i * i_rate i <> i_avg i.
Proof. exact rate_wraps. Qed.
Print Assumptions C62_rate_refuted.
Example C62_ex : outputFrames 3 [([[0x11223300; 0x44556600]; [0x77889900; 0xAABBCC00]], 2%nat)] = Ok [0x33; 0x22; 0x11; 0x99; 0x88; 0x77; 0x66; 0x55; 0x44; 0xCC; 0xBB; 0xAA]
  /\ outputFrames 2 [([[1; 0x1234]], 2%nat); ([[3]], 1%nat)] = Ok [1; 0; 0x34; 0x12; 3; 0] /\ outputFrames 2 [([[1]], 2%nat)] = UB.
Proof. vm_compute. repeat split. Qed.
Example C62_header_ex : waveHeader (mkC false 16 44100 3 1) = Some [82; 73; 70; 70; 64; 0; 0; 0; 87; 65; 86; 69; 102; 109; 116; 32; 40; 0; 0; 0; 254; 255; 2; 0; 68; 172; 0; 0; 16; 177; 2; 0; 4; 0; 16; 0; 22; 0; 16; 0; 3; 0; 0; 0; 1; 0; 0; 0; 0; 0; 16; 0; 128; 0; 0; 170; 0; 56; 155; 113; 100; 97; 116; 97; 4; 0; 0; 0]
  /\ waveHeader (mkC false 16 44100 3 1073741823) = None.
Proof. vm_compute. split; reflexivity. Qed.
