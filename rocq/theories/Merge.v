(** Merge, MaskedMerge, PreMultiply and the difference filters: scalar kernels
    (src/core/kernel/merge.cpp) and the argument handling around them
    (src/core/mergefilters.cpp).  Integer formats only; float and half kernels
    are not modelled here. *)
From Coq Require Import ZArith List Lia Bool.
From Verif Require Import Common Simd.
Import ListNotations.
Open Scope Z_scope.

(** ** Kernels, one sample *)

(** kernel/merge.cpp:126-154 (vs_merge_byte_c, vs_merge_word_c): unsigned 32 bit
    arithmetic, [w] is weight.u, MERGESHIFT = 15, ROUND = 1 << 14. *)
Definition merge_core (w v1 v2 : Z) : Z :=
  wrapu32 (v1 + wrapu32 (wrapu32 (wrapu32 (v2 - v1) * w) + 16384) / 32768).
Definition merge_byte_c (w v1 v2 : Z) : Z := wrapu8 (merge_core w v1 v2).
Definition merge_word_c (w v1 v2 : Z) : Z := wrapu16 (merge_core w v1 v2).

(** kernel/merge.h:149-150, indexed by depth - 9. *)
Definition div_table (depth : Z) : Z :=
  if depth =? 9 then 2151686161 (* 0x80402011 *)
  else if depth =? 10 then 2149582851 (* 0x80200803 *)
  else if depth =? 11 then 2148532737 (* 0x80100201 *)
  else if depth =? 12 then 2148008065 (* 0x80080081 *)
  else if depth =? 13 then 2147745825 (* 0x80040021 *)
  else if depth =? 14 then 2147614729 (* 0x80020009 *)
  else if depth =? 15 then 2147549187 (* 0x80010003 *)
  else 2147516417 (* 0x80008001 *).
Definition shift_table (depth : Z) : Z := depth - 1.

(** kernel/merge.cpp:187-206 (vs_mask_merge_byte_c). *)
Definition mask_merge_byte_c (v1 v2 m : Z) : Z :=
  let invmask := wrapu8 (255 - m) in
  let tmp := wrapu16 (invmask * v1 + m * v2 + 127) in
  wrapu8 (tmp / 255).

(** kernel/merge.cpp:208-231 (vs_mask_merge_word_c). *)
Definition mask_merge_word_c (depth v1 v2 m : Z) : Z :=
  let maxval := wrapu16 (2 ^ depth - 1) in
  let invmask := wrapu16 (maxval - m) in
  let tmp := wrapu32 (wrapu32 (invmask * v1) + wrapu32 (m * v2) + maxval / 2) in
  wrapu16 (wrapu64 (tmp * div_table depth) / 2 ^ (32 + shift_table depth)).

(** kernel/merge.cpp:33-42 (premul_u8). *)
Definition premul_u8 (x a offset : Z) : Z :=
  let tmp := wrapu16 (x - offset) in
  let sign := s16 tmp <? 0 in
  let tmp := if sign then wrapu16 (- tmp) else tmp in
  let tmp := wrapu16 ((tmp * a + 127) / 255) in
  if sign then wrapu16 (- tmp) else tmp.

(** kernel/merge.cpp:44-57 (premul_u16). *)
Definition premul_u16 (x a offset depth : Z) : Z :=
  let maxval := 2 ^ depth - 1 in
  let tmp := wrapu32 (x - offset) in
  let sign := s32 tmp <? 0 in
  let tmp := if sign then wrapu32 (- tmp) else tmp in
  let tmp := wrapu32 (wrapu64 (wrapu64 (tmp * a + maxval / 2) * div_table depth)
                      / 2 ^ (32 + shift_table depth)) in
  if sign then wrapu32 (- tmp) else tmp.

(** kernel/merge.cpp:62-90 (vs_premultiply_byte_c, vs_premultiply_word_c). *)
Definition premultiply_byte_c (offset v a : Z) : Z :=
  wrapu8 (wrapu32 (wrapu8 (premul_u8 v a offset) + offset)).
Definition premultiply_word_c (depth offset v a : Z) : Z :=
  wrapu16 (wrapu32 (wrapu16 (premul_u16 v a offset depth) + offset)).

(** kernel/merge.cpp:278-316 (vs_mask_merge_premul_byte_c, _word_c). *)
Definition mask_merge_premul_byte_c (offset v1 v2 m : Z) : Z :=
  let invmask := wrapu8 (255 - m) in
  let x := s16 (wrapu16 (s16 (premul_u8 v1 invmask offset) + v2)) in
  Z.min (Z.max x 0) 255.
Definition mask_merge_premul_word_c (depth offset v1 v2 m : Z) : Z :=
  let maxval := wrapu16 (2 ^ depth - 1) in
  let invmask := wrapu16 (maxval - m) in
  let x := wrap32 (s32 (premul_u16 v1 invmask offset depth) + v2) in
  Z.min (Z.max x 0) maxval.

(** kernel/merge.cpp:364-396 (vs_makediff_byte_c, _word_c): int arithmetic; no
    intermediate value leaves the int range for 16 bit samples. *)
Definition makediff_byte_c (v1 v2 : Z) : Z := Z.min (Z.max (v1 - v2 + 128) 0) 255.
Definition makediff_word_c (depth v1 v2 : Z) : Z :=
  Z.min (Z.max (v1 - v2 + 2 ^ (depth - 1)) 0) (2 ^ depth - 1).

(** kernel/merge.cpp:426-469 (vs_makefulldiff_byte_word_c, _word_word_c, _word_dword_c). *)
Definition makefulldiff_byte_word_c (v1 v2 : Z) : Z := wrapu16 (v1 - v2 + 256).
Definition makefulldiff_word_word_c (depth v1 v2 : Z) : Z :=
  wrapu16 (v1 - v2 + wrapu16 (2 ^ depth)).
Definition makefulldiff_word_dword_c (depth v1 v2 : Z) : Z := wrapu32 (v1 - v2 + 2 ^ depth).

(** kernel/merge.cpp:471-503 (vs_mergediff_byte_c, _word_c). *)
Definition mergediff_byte_c (v1 v2 : Z) : Z := Z.min (Z.max (v1 + v2 - 128) 0) 255.
Definition mergediff_word_c (depth v1 v2 : Z) : Z :=
  Z.min (Z.max (v1 + v2 - 2 ^ (depth - 1)) 0) (2 ^ depth - 1).

(** kernel/merge.cpp:533-581 (vs_mergefulldiff_word_byte_c, _word_word_c, _dword_word_c). *)
Definition mergefulldiff_word_byte_c (v1 v2 : Z) : Z := Z.min (Z.max (v1 + v2 - 256) 0) 255.
Definition mergefulldiff_word_word_c (depth v1 v2 : Z) : Z :=
  Z.min (Z.max (v1 + v2 - 2 ^ depth) 0) (2 ^ depth - 1).
Definition mergefulldiff_dword_word_c (depth v1 v2 : Z) : Z :=
  Z.min (Z.max (wrap32 (v1 + wrap32 v2) - 2 ^ depth) 0) (2 ^ depth - 1).

(** ** Kernel selection by format, mergefilters.cpp:203-213, 352-361, 556-565, 732-741,
    833-844, 948-957, 1048-1059: bytesPerSample for the clamped kernels,
    bitsPerSample for the full-difference kernels. *)
Definition bytesOf (depth : Z) : Z := if depth <=? 8 then 1 else 2.

Definition mergeKernel (depth w v1 v2 : Z) : Z :=
  if bytesOf depth =? 1 then merge_byte_c w v1 v2 else merge_word_c w v1 v2.
Definition maskMergeKernel (depth v1 v2 m : Z) : Z :=
  if bytesOf depth =? 1 then mask_merge_byte_c v1 v2 m else mask_merge_word_c depth v1 v2 m.
Definition maskMergePremulKernel (depth offset v1 v2 m : Z) : Z :=
  if bytesOf depth =? 1 then mask_merge_premul_byte_c offset v1 v2 m
  else mask_merge_premul_word_c depth offset v1 v2 m.
Definition premultiplyKernel (depth offset v a : Z) : Z :=
  if bytesOf depth =? 1 then premultiply_byte_c offset v a
  else premultiply_word_c depth offset v a.
Definition makediffKernel (depth v1 v2 : Z) : Z :=
  if bytesOf depth =? 1 then makediff_byte_c v1 v2 else makediff_word_c depth v1 v2.
Definition mergediffKernel (depth v1 v2 : Z) : Z :=
  if bytesOf depth =? 1 then mergediff_byte_c v1 v2 else mergediff_word_c depth v1 v2.
Definition makefulldiffKernel (depth v1 v2 : Z) : Z :=
  if depth =? 8 then makefulldiff_byte_word_c v1 v2
  else if depth <? 16 then makefulldiff_word_word_c depth v1 v2
  else makefulldiff_word_dword_c depth v1 v2.
Definition mergefulldiffKernel (depth v1 v2 : Z) : Z :=
  if depth =? 8 then mergefulldiff_word_byte_c v1 v2
  else if depth <? 16 then mergefulldiff_word_word_c depth v1 v2
  else mergefulldiff_dword_word_c depth v1 v2.

(** ** Limited range offset, mergefilters.cpp:145-151: [range] is the _Range frame
    property when present (VSC_RANGE_LIMITED = 0), [grayOrYuv] the colour family test. *)
Definition limitedOffset (range : option Z) (grayOrYuv : bool) (depth : Z) : Z :=
  let limited := match range with Some r => r =? 0 | None => grayOrYuv end in
  if limited then 16 * 2 ^ (depth - 8) else 0.

(** mergefilters.cpp:191,219 and 516,571: chroma planes of YUV use the midpoint. *)
Definition planeOffset (range : option Z) (grayOrYuv yuv : bool) (depth plane : Z) : Z :=
  if (0 <? plane) && yuv then 2 ^ (depth - 1) else limitedOffset range grayOrYuv depth.

(** ** mergeCreate, mergefilters.cpp:388-443

    A weight is a rational num/den with den > 0 (every float in [0,1] is one; the
    rounding of the single precision addition of 0.5f is not modelled, and NaN,
    which the range test rejects, is not a rational). *)
Definition frac : Type := (Z * Z)%type.
Definition half : frac := (1, 2).
Definition inUnit (f : frac) : bool := (0 <=? fst f) && (fst f <=? snd f).

(* std::min<unsigned>(f * (1 << 15) + 0.5f, (1 << 15) - 1) *)
Definition weightOf (f : frac) : Z :=
  Z.min ((2 * fst f * 32768 + snd f) / (2 * snd f)) 32767.

(* mergefilters.cpp:391-402: fills fweight[3]; the array has three elements, a
   fourth weight is stored past its end *)
Definition fillWeights (ws : list frac) : outcome (frac * frac * frac) :=
  match ws with
  | [] => Ok (half, half, half)
  | [a] => Ok (a, a, a)
  | [a; b] => Ok (a, b, b)
  | [a; b; c] => Ok (a, b, c)
  | _ => UB
  end.

Inductive process := Blend | First | Second.

(* mergefilters.cpp:414-420, integer formats *)
Definition processOf (f : frac) : process :=
  if weightOf f =? 0 then First else if fst f =? snd f then Second else Blend.

Record plane_cfg := { pc_weight : Z; pc_process : process }.
Definition planeCfg (f : frac) : plane_cfg :=
  {| pc_weight := weightOf f; pc_process := processOf f |}.

(* [formatOk]: is8to16orFloatFormat, constant format and equal video infos *)
Definition mergeCreate (numPlanes : Z) (formatOk : bool) (ws : list frac)
  : outcome (list plane_cfg) :=
  obind (fillWeights ws) (fun '(a, b, c) =>
  if negb (inUnit a && inUnit b && inUnit c) then Err
  else if negb formatOk then Err
  else if numPlanes <? zlength ws then Err
  else Ok [planeCfg a; planeCfg b; planeCfg c]).

(** mergeGetFrame, mergefilters.cpp:307-386, one plane: unprocessed planes are
    shared with the chosen source frame, the others computed row by row. *)
Definition mergeSample (depth : Z) (c : plane_cfg) (v1 v2 : Z) : Z :=
  match pc_process c with
  | First => v1
  | Second => v2
  | Blend => mergeKernel depth (pc_weight c) v1 v2
  end.

(** ** maskedMergeCreate, mergefilters.cpp:599-614: the mask format test.  Formats
    are (float?, bits per sample, number of planes, gray?, everything else). *)
Record mfmt := { mf_float : bool; mf_bits : Z; mf_planes : Z; mf_gray : bool; mf_rest : Z }.
Definition mfmt_eqb (a b : mfmt) : bool :=
  Bool.eqb (mf_float a) (mf_float b) && (mf_bits a =? mf_bits b)
  && (mf_planes a =? mf_planes b) && Bool.eqb (mf_gray a) (mf_gray b)
  && (mf_rest a =? mf_rest b).

Definition maskAccepted (clip mask : mfmt) (sameDims first_plane : bool) : bool :=
  let first_plane := first_plane || (mf_planes mask =? 1) in
  negb (negb sameDims || negb (mf_bits mask =? mf_bits clip)
        || (negb (mfmt_eqb mask clip) && negb (mf_gray mask) && negb first_plane)).

(** ** Sanity *)
Example merge_ex1 : merge_byte_c 16384 10 20 = 15. Proof. reflexivity. Qed.
Example merge_ex2 : merge_byte_c 16384 20 10 = 15. Proof. reflexivity. Qed.
Example merge_ex3 : merge_word_c 32767 0 65535 = 65533. Proof. reflexivity. Qed.
Example mask_ex1 : mask_merge_word_c 10 100 900 1023 = 900. Proof. reflexivity. Qed.
Example mask_ex2 : mask_merge_byte_c 100 200 128 = 150. Proof. reflexivity. Qed.
Example premul_ex : premultiply_byte_c 128 28 128 = 78. Proof. reflexivity. Qed.
Example diff_ex : mergefulldiffKernel 16 7 (makefulldiffKernel 16 60000 7) = 60000.
Proof. reflexivity. Qed.
Example create_ex : mergeCreate 3 true [(1, 1); (0, 1)]
  = Ok [{| pc_weight := 32767; pc_process := Second |};
        {| pc_weight := 0; pc_process := First |};
        {| pc_weight := 0; pc_process := First |}].
Proof. reflexivity. Qed.
