(** The x86 merge kernels (src/core/kernel/x86/merge_sse2.cpp, merge_avx2.cpp,
    merge_avx512.cpp), one loop iteration each, on vectors of lanes.  [nb] is the
    number of 128 bit blocks of a register: 1 (SSE2), 2 (AVX2), 4 (AVX-512).  Where
    the SSE2 and AVX2 texts differ only in the register width they share a
    definition. *)
From Coq Require Import ZArith List Lia Bool.
From Verif Require Import Common Simd Merge.
Import ListNotations.
Open Scope Z_scope.

Definition set1 (k : nat) (x : Z) : list Z := repeat x k.
Definition words (nb : nat) : nat := 8 * nb.    (* 16 bit lanes *)
Definition dwords (nb : nat) : nat := 4 * nb.   (* 32 bit lanes *)

(* INT8_MIN, INT16_MIN as lane values *)
Definition min8v : Z := 128.
Definition min16v : Z := 32768.
Definition min16d : Z := 4294934528. (* (int32)INT16_MIN *)

(** ** merge *)

(* merge_sse2.cpp:29-59 *)
Definition merge_byte_half_sse2 (w : Z) (v1 v2 : list Z) : list Z :=
  let wv := set1 8 (wrapu16 w) in
  let tmp1 := map (slli16 1) (map2 sub16 v2 v1) in
  map2 add16 (map2 add16 (map2 mulhi16 tmp1 wv) (map (srli16 15) (map2 mullo16 tmp1 wv))) v1.
Definition merge_byte_sse2 (w : Z) (m1 m2 : list Z) : list Z :=
  let zero := set1 16 0 in
  packus16 1 (merge_byte_half_sse2 w (unpacklo8 1 m1 zero) (unpacklo8 1 m2 zero))
             (merge_byte_half_sse2 w (unpackhi8 1 m1 zero) (unpackhi8 1 m2 zero)).

(* merge_avx2.cpp:39-62; _mm256_cvtepu8_epi16 leaves the lane values unchanged *)
Definition merge_byte_half_avx2 (w : Z) (v1 v2 : list Z) : list Z :=
  map2 add16 (map2 mulhrs16 (map2 sub16 v2 v1) (set1 16 (wrapu16 w))) v1.
Definition merge_byte_avx2 (w : Z) (m1 m2 : list Z) : list Z :=
  permute64 [0; 2; 1; 3]%nat
    (packus16 2 (merge_byte_half_avx2 w (firstn 16 m1) (firstn 16 m2))
                (merge_byte_half_avx2 w (skipn 16 m1) (skipn 16 m2))).

(* merge_sse2.cpp:61-95, merge_avx2.cpp:64-98 *)
Definition merge_word_dhalf (nb : nat) (wv tmp : list Z) : list Z :=
  map (srai32 15) (map2 add32 (map2 madd16 wv tmp) (set1 (dwords nb) 16384)).
Definition merge_word_simd (nb : nat) (w : Z) (v1 v2 : list Z) : list Z :=
  let w2 := Z.min (Z.max w 1) 32767 in
  let w1 := wrapu32 (32768 - w2) in
  let wv := set1 (dwords nb) (wrapu32 (w2 * 65536 + w1)) in
  let v1 := map2 add16 v1 (set1 (words nb) min16v) in
  let v2 := map2 add16 v2 (set1 (words nb) min16v) in
  map2 sub16
    (packs32 nb (merge_word_dhalf nb wv (unpacklo16 nb v1 v2))
                (merge_word_dhalf nb wv (unpackhi16 nb v1 v2)))
    (set1 (words nb) min16v).

(** ** division by 255 and by 2^depth - 1 *)

(* merge_sse2.cpp:117-122, merge_avx2.cpp:118-123, merge_avx512.cpp:49-54 *)
Definition div255 (k : nat) (x : list Z) : list Z :=
  map (srli16 7) (map2 mulhiu16 x (set1 k 32897)). (* 0x8081 *)

Fixpoint interleave (a b : list Z) : list Z :=
  match a, b with x :: a', y :: b' => x :: y :: interleave a' b' | _, _ => [] end.
Definition unpacklo32 (nb : nat) : list Z -> list Z -> list Z :=
  perBlock nb 4 (fun x y => interleave (firstn 2 x) (firstn 2 y)).
Definition unpackhi32 (nb : nat) : list Z -> list Z -> list Z :=
  perBlock nb 4 (fun x y => interleave (skipn 2 x) (skipn 2 y)).
(* _mm_mul_epu32: even 32 bit lanes to 64 bit products, shown as 32 bit lanes *)
Fixpoint mul_epu32 (a b : list Z) : list Z :=
  match a, b with
  | x :: _ :: a', y :: _ :: b' =>
      (x * y) mod 4294967296 :: mulhiu32 x y :: mul_epu32 a' b'
  | _, _ => []
  end.
(* _mm_shuffle_ps(lo, hi, _MM_SHUFFLE(3, 1, 3, 1)) *)
Definition shuffle3131 (nb : nat) : list Z -> list Z -> list Z :=
  perBlock nb 4 (fun x y => [nth 1 x 0; nth 3 x 0; nth 1 y 0; nth 3 y 0]).
(* merge_sse2.cpp:124-134, merge_avx2.cpp:125-135, merge_avx512.cpp:56-66 *)
Definition divX (nb : nat) (depth : Z) (x : list Z) : list Z :=
  let lo := unpacklo32 nb x x in
  let hi := unpackhi32 nb x x in
  let dv := set1 (dwords nb) (div_table depth) in
  map (srl32 (shift_table depth)) (shuffle3131 nb (mul_epu32 lo dv) (mul_epu32 hi dv)).

(** ** mask merge *)

(* merge_sse2.cpp:136-141, merge_avx2.cpp:155-161, merge_avx512.cpp:86-92 *)
Definition maskmerge_byte_half (k : nat) (v1 v2 w2 : list Z) : list Z :=
  let w1 := map2 sub16 (set1 k 255) w2 in
  div255 k (map2 add16 (map2 add16 (map2 mullo16 v1 w1) (map2 mullo16 v2 w2)) (set1 k 127)).
(* merge_sse2.cpp:143-166 *)
Definition mask_merge_byte_sse2 (m1 m2 mm : list Z) : list Z :=
  let zero := set1 16 0 in
  packus16 1
    (maskmerge_byte_half 8 (unpacklo8 1 m1 zero) (unpacklo8 1 m2 zero) (unpacklo8 1 mm zero))
    (maskmerge_byte_half 8 (unpackhi8 1 m1 zero) (unpackhi8 1 m2 zero) (unpackhi8 1 mm zero)).
(* merge_avx2.cpp:137-167 *)
Definition mask_merge_byte_avx2 (m1 m2 mm : list Z) : list Z :=
  permute64 [0; 2; 1; 3]%nat
    (packus16 2 (maskmerge_byte_half 16 (firstn 16 m1) (firstn 16 m2) (firstn 16 mm))
                (maskmerge_byte_half 16 (skipn 16 m1) (skipn 16 m2) (skipn 16 mm))).
(* merge_avx512.cpp:42-47, 68-96 *)
Definition mask_merge_byte_avx512 (m1 m2 mm : list Z) : list Z :=
  permute64 [0; 2; 4; 6; 1; 3; 5; 7]%nat
    (packus16 4 (maskmerge_byte_half 32 (firstn 32 m1) (firstn 32 m2) (firstn 32 mm))
                (maskmerge_byte_half 32 (skipn 32 m1) (skipn 32 m2) (skipn 32 mm))).

(* the 32 bit sums of merge_sse2.cpp:183-199, merge_avx2.cpp:184-200, merge_avx512.cpp:113-129 *)
Definition mm_sum (unpack : list Z -> list Z -> list Z) (nb : nat) (maxval : Z)
                  (w1 v1 w2 v2 : list Z) : list Z :=
  map2 add32
    (map2 add32 (unpack (map2 mullo16 w1 v1) (map2 mulhiu16 w1 v1))
                (unpack (map2 mullo16 w2 v2) (map2 mulhiu16 w2 v2)))
    (set1 (dwords nb) (maxval / 2)).
(* merge_sse2.cpp:168-209 *)
Definition mask_merge_word_sse2 (depth : Z) (v1 v2 w2 : list Z) : list Z :=
  let maxval := wrapu16 (2 ^ depth - 1) in
  let w1 := map2 sub16 (set1 8 maxval) w2 in
  let lo := divX 1 depth (mm_sum (unpacklo16 1) 1 maxval w1 v1 w2 v2) in
  let hi := divX 1 depth (mm_sum (unpackhi16 1) 1 maxval w1 v1 w2 v2) in
  map2 sub16 (packs32 1 (map2 add32 lo (set1 4 min16d)) (map2 add32 hi (set1 4 min16d)))
       (set1 8 min16v).
(* merge_avx2.cpp:169-207, merge_avx512.cpp:98-136 *)
Definition mask_merge_word_avx (nb : nat) (depth : Z) (v1 v2 w2 : list Z) : list Z :=
  let maxval := wrapu16 (2 ^ depth - 1) in
  let w1 := map2 sub16 (set1 (words nb) maxval) w2 in
  packus32 nb (divX nb depth (mm_sum (unpacklo16 nb) nb maxval w1 v1 w2 v2))
              (divX nb depth (mm_sum (unpackhi16 nb) nb maxval w1 v1 w2 v2)).

(** ** premultiplied mask merge *)

(* sign ? neg : tmp in the three dialects *)
Definition selOr16 (sign tmp neg : Z) : Z := orL (andnot16 sign tmp) (andL sign neg).
Definition selOr32 (sign tmp neg : Z) : Z := orL (andnot32 sign tmp) (andL sign neg).
Definition negIf (sel : Z -> Z -> Z -> Z) (sub : Z -> Z -> Z) (sign tmp : Z) : Z :=
  sel sign tmp (sub 0 tmp).

(* merge_sse2.cpp:235-254 *)
Definition premul_byte_half_sse2 (o : Z) (v1 v2 w2 : list Z) : list Z :=
  let w1 := map2 sub16 (set1 8 255) w2 in
  let tmp := map2 sub16 v1 (set1 8 (wrapu16 o)) in
  let sign := map2 cmplt16 tmp (set1 8 0) in
  let tmp := map2 (negIf selOr16 sub16) sign tmp in
  let tmp := div255 8 (map2 add16 (map2 mullo16 tmp w1) (set1 8 127)) in
  map2 add16 (map2 (negIf selOr16 sub16) sign tmp) v2.
(* merge_sse2.cpp:256-279 *)
Definition mask_merge_premul_byte_sse2 (o : Z) (m1 m2 mm : list Z) : list Z :=
  let zero := set1 16 0 in
  packus16 1
    (premul_byte_half_sse2 o (unpacklo8 1 m1 zero) (unpacklo8 1 m2 zero) (unpacklo8 1 mm zero))
    (premul_byte_half_sse2 o (unpackhi8 1 m1 zero) (unpackhi8 1 m2 zero) (unpackhi8 1 mm zero)).

(* merge_avx2.cpp:233-252 (vpblendvb), merge_avx512.cpp:138-158 (mask blend: the same
   selection per lane) *)
Definition premul_byte_half_avx (k : nat) (sel : Z -> Z -> Z -> Z) (o : Z)
                                (v1 v2 w2 : list Z) : list Z :=
  let w1 := map2 sub16 (set1 k 255) w2 in
  let tmp := map2 sub16 v1 (set1 k (wrapu16 o)) in
  let sign := map2 cmpgt16 (set1 k 0) tmp in
  let tmp := map2 (negIf sel sub16) sign tmp in
  let tmp := div255 k (map2 add16 (map2 mullo16 tmp w1) (set1 k 127)) in
  map2 add16 (map2 (negIf sel sub16) sign tmp) v2.
Definition selBlend16 (sign tmp neg : Z) : Z := blendv16 tmp neg sign.
Definition selBlend32 (sign tmp neg : Z) : Z := blendv32 tmp neg sign.
Definition selMask (sign tmp neg : Z) : Z := if sign =? 0 then tmp else neg.
(* merge_avx2.cpp:254-281 *)
Definition mask_merge_premul_byte_avx2 (o : Z) (m1 m2 mm : list Z) : list Z :=
  permute64 [0; 2; 1; 3]%nat
    (packus16 2
      (premul_byte_half_avx 16 selBlend16 o (firstn 16 m1) (firstn 16 m2) (firstn 16 mm))
      (premul_byte_half_avx 16 selBlend16 o (skipn 16 m1) (skipn 16 m2) (skipn 16 mm))).
(* merge_avx512.cpp:160-185 *)
Definition mask_merge_premul_byte_avx512 (o : Z) (m1 m2 mm : list Z) : list Z :=
  permute64 [0; 2; 4; 6; 1; 3; 5; 7]%nat
    (packus16 4
      (premul_byte_half_avx 32 selMask o (firstn 32 m1) (firstn 32 m2) (firstn 32 mm))
      (premul_byte_half_avx 32 selMask o (skipn 32 m1) (skipn 32 m2) (skipn 32 mm))).

(* merge_sse2.cpp:281-332 *)
Definition premul_word_dhalf (neg : Z -> Z -> Z)
    (unpack : list Z -> list Z -> list Z) (nb : nat) (depth maxval : Z)
    (w1 tmp sign v2 : list Z) : list Z :=
  let t := unpack (map2 mullo16 w1 tmp) (map2 mulhiu16 w1 tmp) in
  let t := divX nb depth (map2 add32 t (set1 (dwords nb) (maxval / 2))) in
  let t := map2 neg (unpack sign sign) t in
  map2 add32 t (unpack v2 (set1 (words nb) 0)).
Definition mask_merge_premul_word_sse2 (depth o : Z) (v1 v2 w2 : list Z) : list Z :=
  let maxval := wrapu16 (2 ^ depth - 1) in
  let w1 := map2 sub16 (set1 8 maxval) w2 in
  let tmp := map2 sub16 v1 (set1 8 (wrapu16 o)) in
  let sign := map2 cmplt16 (map2 add16 v1 (set1 8 min16v)) (set1 8 (wrapu16 (o - 32768))) in
  let tmp := map2 (negIf selOr16 sub16) sign tmp in
  let lo := premul_word_dhalf (negIf selOr32 sub32) (unpacklo16 1) 1 depth maxval w1 tmp sign v2 in
  let hi := premul_word_dhalf (negIf selOr32 sub32) (unpackhi16 1) 1 depth maxval w1 tmp sign v2 in
  let t := packs32 1 (map2 add32 lo (set1 4 min16d)) (map2 add32 hi (set1 4 min16d)) in
  map2 sub16 (map2 min16 t (set1 8 (wrapu16 (maxval - 32768)))) (set1 8 min16v).

(* merge_avx2.cpp:283-330 *)
Definition mask_merge_premul_word_avx2 (depth o : Z) (v1 v2 w2 : list Z) : list Z :=
  let maxval := wrapu16 (2 ^ depth - 1) in
  let w1 := map2 sub16 (set1 16 maxval) w2 in
  let tmp := map2 sub16 v1 (set1 16 (wrapu16 o)) in
  let sign := map2 cmpgt16 (set1 16 (wrapu16 (o - 32768))) (map2 add16 v1 (set1 16 min16v)) in
  let tmp := map2 (negIf selBlend16 sub16) sign tmp in
  let lo := premul_word_dhalf (negIf selBlend32 sub32) (unpacklo16 2) 2 depth maxval w1 tmp sign v2 in
  let hi := premul_word_dhalf (negIf selBlend32 sub32) (unpackhi16 2) 2 depth maxval w1 tmp sign v2 in
  map2 minu16 (packus32 2 lo hi) (set1 16 maxval).

(* merge_avx512.cpp:187-232: (x ^ sign) - sign *)
Definition negXor16 (sign tmp : Z) : Z := sub16 (xorL tmp sign) sign.
Definition negXor32 (sign tmp : Z) : Z := sub32 (xorL tmp sign) sign.
Definition mask_merge_premul_word_avx512 (depth o : Z) (v1 v2 w2 : list Z) : list Z :=
  let maxval := wrapu16 (2 ^ depth - 1) in
  let w1 := map2 sub16 (set1 32 maxval) w2 in
  let sign := map2 cmpgt16 (set1 32 (wrapu16 (o - 32768))) (map2 add16 v1 (set1 32 min16v)) in
  let tmp := map2 negXor16 sign (map2 sub16 v1 (set1 32 (wrapu16 o))) in
  let lo := premul_word_dhalf negXor32 (unpacklo16 4) 4 depth maxval w1 tmp sign v2 in
  let hi := premul_word_dhalf negXor32 (unpackhi16 4) 4 depth maxval w1 tmp sign v2 in
  map2 minu16 (packus32 4 lo hi) (set1 32 maxval).

(** ** differences *)

(* merge_sse2.cpp:358-374, merge_avx2.cpp:356-372 *)
Definition makediff_byte_simd (k : nat) (v1 v2 : list Z) : list Z :=
  let m := set1 k min8v in
  map2 sub8 (map2 subs8 (map2 add8 v1 m) (map2 add8 v2 m)) m.
(* merge_sse2.cpp:376-394, merge_avx2.cpp:374-392 *)
Definition makediff_word_simd (k : nat) (depth : Z) (v1 v2 : list Z) : list Z :=
  let maxval := 2 ^ (depth - 1) - 1 in
  let minv := set1 k (wrapu16 (- maxval - 1)) in
  let maxv := set1 k (wrapu16 maxval) in
  let diff := map2 subs16 (map2 add16 v1 minv) (map2 add16 v2 minv) in
  map2 sub16 (map2 min16 (map2 max16 diff minv) maxv) minv.
(* merge_sse2.cpp:412-428, merge_avx2.cpp:410-426 *)
Definition mergediff_byte_simd (k : nat) (v1 v2 : list Z) : list Z :=
  let m := set1 k min8v in
  map2 sub8 (map2 adds8 (map2 add8 v1 m) (map2 add8 v2 m)) m.
(* merge_sse2.cpp:430-448, merge_avx2.cpp:428-446 *)
Definition mergediff_word_simd (k : nat) (depth : Z) (v1 v2 : list Z) : list Z :=
  let maxval := 2 ^ (depth - 1) - 1 in
  let minv := set1 k (wrapu16 (- maxval - 1)) in
  let maxv := set1 k (wrapu16 maxval) in
  let t := map2 adds16 (map2 add16 v1 minv) (map2 add16 v2 minv) in
  map2 sub16 (map2 min16 (map2 max16 t minv) maxv) minv.

(** ** Kernel selection, mergefilters.cpp:332-350, 528-552, 712-730, 928-946.  The CPU
    must support the instruction set; [align] is VSFrame::alignment on such a CPU
    (vscore.cpp:2618-2624), the unit of every stride. *)
Inductive isa := SSE2 | AVX2 | AVX512.
(* samples per loop iteration *)
Definition chunk (i : isa) (depth : Z) : nat :=
  let b := match i with SSE2 => 16 | AVX2 => 32 | AVX512 => 64 end%nat in
  if depth <=? 8 then b else (b / 2)%nat.
(* the plain merge and difference filters have no AVX-512 version and take the AVX2 one *)
Definition noAvx512 (i : isa) : isa := match i with AVX512 => AVX2 | x => x end.

Definition simd_merge (i : isa) (depth w : Z) : list Z -> list Z -> list Z :=
  if depth <=? 8
  then match i with SSE2 => merge_byte_sse2 w | _ => merge_byte_avx2 w end
  else match i with SSE2 => merge_word_simd 1 w | _ => merge_word_simd 2 w end.
Definition simd_maskmerge (i : isa) (depth : Z) : list Z -> list Z -> list Z -> list Z :=
  if depth <=? 8
  then match i with SSE2 => mask_merge_byte_sse2 | AVX2 => mask_merge_byte_avx2
       | AVX512 => mask_merge_byte_avx512 end
  else match i with SSE2 => mask_merge_word_sse2 depth | AVX2 => mask_merge_word_avx 2 depth
       | AVX512 => mask_merge_word_avx 4 depth end.
Definition simd_premul (i : isa) (depth o : Z) : list Z -> list Z -> list Z -> list Z :=
  if depth <=? 8
  then match i with SSE2 => mask_merge_premul_byte_sse2 o | AVX2 => mask_merge_premul_byte_avx2 o
       | AVX512 => mask_merge_premul_byte_avx512 o end
  else match i with SSE2 => mask_merge_premul_word_sse2 depth o
       | AVX2 => mask_merge_premul_word_avx2 depth o
       | AVX512 => mask_merge_premul_word_avx512 depth o end.
Definition simd_makediff (i : isa) (depth : Z) : list Z -> list Z -> list Z :=
  if depth <=? 8 then makediff_byte_simd (chunk i depth) else makediff_word_simd (chunk i depth) depth.
Definition simd_mergediff (i : isa) (depth : Z) : list Z -> list Z -> list Z :=
  if depth <=? 8 then mergediff_byte_simd (chunk i depth) else mergediff_word_simd (chunk i depth) depth.

Definition align (i : isa) : nat := match i with AVX512 => 64 | _ => 32 end%nat.

Example simd_ex1 : merge_byte_sse2 16384 (set1 16 10) (set1 16 21) = set1 16 16.
Proof. vm_compute; reflexivity. Qed.
Example simd_ex2 : mask_merge_word_avx 2 10 (set1 16 100) (set1 16 900) (set1 16 1023) = set1 16 900.
Proof. vm_compute; reflexivity. Qed.
Example simd_ex3 : mask_merge_premul_word_sse2 16 32768 (set1 8 5) (set1 8 40000) (set1 8 65535)
  = set1 8 40000.
Proof. vm_compute; reflexivity. Qed.
