(** C85: conversion of audio samples between formats. *)
From Coq Require Import ZArith List Bool SpecFloat.
From Verif Require Import Common AudioSpec Audio Soft ResampleSpec ConvertSpec Convert ConvertLemmas ConvertFacts ConvertRound.
Import ListNotations.
Open Scope Z_scope.

(** Without dither an integer sample is the nearest step of the format, halves away from zero, limited to its range and moved to the top of its container. *)
Theorem C85_exact : forall f g dt pos ch x, fmtOk f -> fmtOk g -> f_float g = false -> sampleOk f x -> finite x -> resolveDither dt f g = DNone ->
  convertSample f g dt pos ch x = Ok (storedStep g (nearest f g x)).
Proof. exact exact_step. Qed.
Print Assumptions C85_exact.

(** With dither an offset within its range is added first; only conversions to fewer bits are dithered. *)
Theorem C85_dither : forall f g dt pos ch x, fmtOk f -> fmtOk g -> f_float g = false -> sampleOk f x -> finite x ->
  exists t k, ditherRange (if dithered f g then dt else DNone) t /\ ditheredStep f g x t k /\ convertSample f g dt pos ch x = Ok (storedStep g k).
Proof. exact dithered_step. Qed.
Print Assumptions C85_dither.

(** The offsets of different positions of a channel come from different hashes. *)
Theorem C85_hash : forall ch a b, 0 <= a < 2 ^ 63 -> 0 <= b < 2 ^ 63 -> ditherHash a ch = ditherHash b ch -> a = b.
Proof. exact hash_distinct. Qed.
Print Assumptions C85_hash.

Theorem C85_infinite : forall f g dt pos ch s, fmtOk f -> fmtOk g -> f_float g = false ->
  convertSample f g dt pos ch (Flt (S754_infinity s)) = Ok (Int ((if s then - 2 ^ (f_bits g - 1) else 2 ^ (f_bits g - 1) - 1) * 2 ^ (container g - f_bits g)), true).
Proof. exact infinite_limited. Qed.
Print Assumptions C85_infinite.

(** Floats stay as they are; integers become a float of the same level when 24 digits are enough and one that is near otherwise. *)
Theorem C85_float_same : forall f g dt pos ch x, fmtOk f -> fmtOk g -> f_float f = true -> f_float g = true -> valid_binary 24 128 x = true -> convertSample f g dt pos ch (Flt x) = Ok (Flt x, false).
Proof. exact float_same. Qed.
Print Assumptions C85_float_same.
Theorem C85_float_exact : forall f g dt pos ch v, fmtOk f -> fmtOk g -> f_float g = true -> sampleOk f (Int v) -> (exists n c, 0 <= c /\ Z.abs n < 2 ^ 24 /\ v = n * 2 ^ c) ->
  exists y, convertSample f g dt pos ch (Int v) = Ok (Flt y, false) /\ sampleOk g (Flt y) /\ isFin y = true /\ sameLevel f (Int v) g (Flt y).
Proof. exact int_to_float. Qed.
Print Assumptions C85_float_exact.
Theorem C85_float_near : forall f g dt pos ch v, fmtOk f -> fmtOk g -> f_float g = true -> sampleOk f (Int v) ->
  exists y, convertSample f g dt pos ch (Int v) = Ok (Flt y, false) /\ sampleOk g (Flt y) /\ isFin y = true /\ nearLevel f (Int v) g (Flt y).
Proof. exact int_near_float. Qed.
Print Assumptions C85_float_near.

(** Integers of up to 24 bits survive the way to floats and back. *)
Theorem C85_float_trip : forall f g dt pos ch pos' ch' v, fmtOk f -> fmtOk g -> f_float g = true -> f_bits f <= 24 -> sampleOk f (Int v) -> aligned f (Int v) ->
  exists y, convertSample f g dt pos ch (Int v) = Ok (y, false) /\ convertSample g f DNone pos' ch' y = Ok (Int v, false).
Proof. exact float_round_trip. Qed.
Print Assumptions C85_float_trip.

(** More bits keep the level, never clip, and the way back restores the sample. *)
Theorem C85_widen : forall f g dt pos ch v, fmtOk f -> fmtOk g -> f_float g = false -> f_bits f <= f_bits g -> sampleOk f (Int v) -> aligned f (Int v) ->
  exists y, convertSample f g dt pos ch (Int v) = Ok (Int y, false) /\ sampleOk g (Int y) /\ aligned g (Int y) /\ sameLevel f (Int v) g (Int y) /\ forall pos' ch', convertSample g f DNone pos' ch' (Int y) = Ok (Int v, false).
Proof. exact widen_exact. Qed.
Print Assumptions C85_widen.

(** Frames: every sample of a frame is the converted sample of its position, whatever was produced before. *)
Theorem C85_frames : forall f g dt ovf channels c N s, serves c N s -> forall n, 0 <= n -> AFS * n < N ->
  convertFrame f g dt ovf channels c n = convertedFrame (convertSample f g dt) s N channels ovf n.
Proof. exact frame_converted. Qed.
Print Assumptions C85_frames.

(** Everything but not-a-number can be converted. *)
Theorem C85_defined_partial : forall f g dt pos ch x, fmtOk f -> fmtOk g -> sampleOk f x -> f_float g = true \/ notNan x -> exists r, convertSample f g dt pos ch x = Ok r.
Proof. exact convert_defined. Qed.
Print Assumptions C85_defined_partial.
Theorem C85_defined_refuted : forall f g dt pos ch, fmtOk f -> fmtOk g -> f_float g = false -> convertSample f g dt pos ch (Flt S754_nan) = UB.
Proof. exact nan_undefined. Qed.
Print Assumptions C85_defined_refuted.

Definition i16 := mkFmt false 16 2.
Definition i24 := mkFmt false 24 4.
Definition i32 := mkFmt false 32 4.
Definition f32 := mkFmt true 32 4.
Example C85_half_up : convertSample i24 i16 DNone 0 0 (Int 32768) = Ok (Int 1, false) /\ convertSample i24 i16 DNone 0 0 (Int (-32768)) = Ok (Int (-1), false) /\ convertSample i24 i16 DNone 0 0 (Int 32767) = Ok (Int 0, false).
Proof. split; [|split]; vm_compute; reflexivity. Qed.
Example C85_clips : convertSample i24 i16 DNone 0 0 (Int 2147483392) = Ok (Int 32767, true).
Proof. vm_compute. reflexivity. Qed.
Example C85_padding : convertSample f32 i24 DNone 0 0 (Flt (of32 1 (-1))) = Ok (Int 1073741824, false) /\ convertSample f32 i24 DNone 0 0 (Flt (of32 1 0)) = Ok (Int 2147483392, true).
Proof. split; vm_compute; reflexivity. Qed.
Example C85_dither_step : convertSample i24 i16 DTri 0 0 (Int 0) = Ok (Int 0, false) /\ convertSample i24 i16 DTri 3 0 (Int 0) = Ok (Int 1, false).
Proof. split; vm_compute; reflexivity. Qed.
Example C85_lossy_float : exists v, sampleOk i32 (Int v) /\ exists y, convertSample i32 f32 DNone 0 0 (Int v) = Ok (y, false) /\ exists v' b, convertSample f32 i32 DNone 0 0 y = Ok (Int v', b) /\ v' <> v.
Proof. exact float32_trip_lossy. Qed.
Example C85_formats : fmtOk i16 /\ fmtOk i24 /\ fmtOk i32 /\ fmtOk f32.
Proof. repeat split; cbn; discriminate || reflexivity. Qed.
