(** Conversion of audio samples: src/core/audioresampling.cpp:44-190 (conversion), 548-570 (parameters), 590-616 (frames).
    Simplifications: a plane is a list of typed samples, reinterpret_cast to the type of the format is not modelled; the structs ConvertSpec and AudioResampleData are passed as the formats they are computed from; memory of frames as in Audio.v. *)
From Coq Require Import ZArith List Bool.
From Coq Require Import SpecFloat.
From Verif Require Import Common AudioSpec Audio Soft ResampleSpec ConvertSpec.
Import ListNotations.
Open Scope Z_scope.

(** lines 46-58; uint64_t *)
Definition ditherChannelStride : Z := 0x9E3779B97F4A7C15.
Definition ditherMix (x0 : Z) : Z :=
  let x1 := Z.lxor x0 (Z.shiftr x0 30) in
  let x2 := wrapu64 (x1 * 0xBF58476D1CE4E5B9) in
  let x3 := Z.lxor x2 (Z.shiftr x2 27) in
  let x4 := wrapu64 (x3 * 0x94D049BB133111EB) in
  Z.lxor x4 (Z.shiftr x4 31).
Definition ditherHash (sampleIndex channel : Z) : Z :=
  ditherMix (wrapu64 (wrapu64 sampleIndex + wrapu64 (wrapu64 (wrapu64 channel + 1) * ditherChannelStride))).
(** lines 61-74 *)
Definition ditherValue (dt : ditherType) (sampleIndex channel : Z) : fl :=
  match dt with
  | DNone => S754_zero false
  | _ =>
      let h := ditherHash sampleIndex channel in
      let scale := div64 (of64 1 0) (of64 4294967296 0) in
      let u1 := mul64 (of64 (wrapu32 h) 0) scale in
      match dt with
      | DRect => sub64 u1 (of64 1 (-1))
      | _ => sub64 u1 (mul64 (of64 (wrapu32 (Z.shiftr h 32)) 0) scale)
      end
  end.

(** static_cast<double>(float) *)
Definition to64 (x : fl) : fl := match x with S754_finite s m e => binary_round 53 1024 s m e | _ => x end.
(** std::round on double *)
Definition round64 (x : fl) : fl :=
  match x with
  | S754_finite s m e => if 0 <=? e then x else match mag_away m e with 0 => S754_zero s | v => of64 (signed s v) 0 end
  | _ => x
  end.
(** std::clamp *)
Definition clamp64 (x lo hi : fl) : fl := if SFltb x lo then lo else if SFltb hi x then hi else x.
(** static_cast<int16_t> or static_cast<int32_t> of a double: undefined when the truncated value does not fit. *)
Definition castTo (bytes : Z) (x : fl) : outcome Z :=
  match x with
  | S754_zero _ => Ok 0
  | S754_finite s m e => let v := signed s (mag_trunc m e) in if (- 2 ^ (8 * bytes - 1) <=? v) && (v <? 2 ^ (8 * bytes - 1)) then Ok v else UB
  | _ => UB
  end.

(** lines 148-190 *)
Definition containerBits (f : afmt) : Z := f_bytes f * 8.
Definition formatToNorm (f : afmt) : fl := if f_float f then of64 1 0 else of64 1 (- (containerBits f - 1)).
Definition normToFormat (f : afmt) : fl := if f_float f then of64 1 0 else of64 1 (f_bits f - 1).
Definition formatOutputShift (f : afmt) : fl := if f_float f then of64 1 0 else of64 1 (containerBits f - f_bits f).
Definition needsDither (src dst : afmt) : bool := if f_float dst then false else if f_float src then true else f_bits dst <? f_bits src.
Definition resolveDither (requested : ditherType) (working dst : afmt) : ditherType := if needsDither working dst then requested else DNone.

(** lines 94-118, one sample; the sample after its clamping test. *)
Definition quantize (bytes : Z) (minV maxV outputShift x : fl) : outcome (sample * bool) :=
  let rounded := round64 x in
  let limited := clamp64 rounded minV maxV in
  obind (castTo bytes (mul64 limited outputShift)) (fun v => Ok (Int v, negb (SFeqb limited rounded))).
Definition asDouble (x : sample) : fl := match x with Int v => of64 v 0 | Flt v => to64 v end.
(** with the parameters of lines 552-561 *)
Definition convertSample (working dst : afmt) (requested : ditherType) (pos ch : Z) (x : sample) : outcome (sample * bool) :=
  let mul := mul64 (formatToNorm working) (normToFormat dst) in
  if f_float dst then Ok (Flt (to32 (mul64 (asDouble x) mul)), false)
  else
    let maxV := of64 (2 ^ (f_bits dst - 1) - 1) 0 in
    let minV := SFopp (of64 (2 ^ (f_bits dst - 1)) 0) in
    quantize (f_bytes dst) minV maxV (formatOutputShift dst) (add64 (mul64 (asDouble x) mul) (ditherValue (resolveDither requested working dst) pos ch)).

(** lines 590-616 *)
Definition convertReady (src dst : afmt) (requested : ditherType) (overflowError : bool) (channels : Z) (c : clip (Z -> sample)) (n : Z) (av : list (nat * Z)) : outcome (list (list sample)) :=
  obind (getFilter [c] av 0 n) (fun f =>
  let length := af_len f in
  let startSample := wrap64 (n * AFS) in
  obind (inOrder (fun p => obind (inOrder (fun i =>
      match nthz (af_buf f) i with Some (Some cell) => convertSample src dst requested (wrap64 (startSample + i)) p (cell p) | _ => UB end) (zseq length))
    (fun l => Ok (map fst l, existsb snd l))) (zseq channels)) (fun chs =>
  if existsb snd chs && overflowError then Err else Ok (map fst chs))).
Definition convertFrame (src dst : afmt) (requested : ditherType) (overflowError : bool) (channels : Z) (c : clip (Z -> sample)) (n : Z) : outcome (list (list sample)) :=
  obind (requests [c] [(O, n)]) (convertReady src dst requested overflowError channels c n).
