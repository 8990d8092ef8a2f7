(** Model of src/core/kernel/x86/square_impl.h and square_vnni_impl.h: the vector kernels of
    the square convolutions of 5x5, 7x7, 9x9 and 11x11 taps for integer samples, on the
    primitives of ISA_AVX2 (convolution_avx2.cpp) and ISA_AVX512 (convolution_avx512.cpp).

    Registers are lists of lanes as in Simd.v.  The kernels of float formats are not modelled. *)
From Coq Require Import ZArith List Lia Bool.
From Coq Require Import SpecFloat.
From Verif Require Import Common PlaneMem Pixel Lut Soft Generic Simd GenericSimd.
Import ListNotations.
Open Scope Z_scope.

(** ** Floats *)

(** _mm256_fmadd_ps: the product is not rounded before the addition.  A product of two finite
    non zero numbers and a zero is the product, rounded once; with an infinite or NaN third
    operand the result is that operand; in every other case the product is exact. *)
Definition fma32 (x y z : fl) : fl :=
  match x, y with
  | S754_finite sx mx ex, S754_finite sy my ey =>
      match z with
      | S754_finite sz mz ez =>
          let e := Z.min (ex + ey) ez in
          binary_normalize 24 128
            (cond_Zopp (xorb sx sy) (Z.pos (fst (shl_align (mx * my) (ex + ey) e)))
             + cond_Zopp sz (Z.pos (fst (shl_align mz ez e)))) e false
      | S754_zero _ => mul32 x y
      | _ => z
      end
  | _, _ => Soft.add32 (mul32 x y) z
  end.

(** scale_bias_sat of one lane: fused, then the mask that clears the sign bit. *)
Definition scaled (g : gparams) (x : fl) : fl :=
  let v := fma32 x (g_div g) (g_bias g) in if g_sat g then v else SFabs v.

Definition s64 (x : Z) : Z := if x <? 9223372036854775808 then x else x - 18446744073709551616.

(** The double with these 64 bits. *)
Definition pdOfBits (u : Z) : fl :=
  let s := 9223372036854775808 <=? u in
  let ex := u / 4503599627370496 mod 2048 in
  let fr := u mod 4503599627370496 in
  if ex =? 0 then (if fr =? 0 then S754_zero s else S754_finite s (Z.to_pos fr) (-1074))
  else if ex =? 2047 then (if fr =? 0 then S754_infinity s else S754_nan)
  else S754_finite s (Z.to_pos (4503599627370496 + fr)) (ex - 1075).

(** convolution_avx2.cpp:132-137, i64_to_pd. *)
Definition i64ToPd (x : Z) : fl :=
  let u := wrapu64 (x + 2251799813685248) in
  let u := Z.lor u 4841369599423283200 in
  Soft.sub64 (pdOfBits u) (S754_finite false 6755399441055744 0).

Section Kernels.
(** The number of 128 bit blocks of a register: 2 for AVX2, 4 for AVX-512. *)
Variable nb : nat.
Let B : backend := mkBE nb false.
Definition ipels : Z := 8 * Z.of_nat nb.

(** _mm256_cvtpd_ps of i64_to_pd, and _mm512_cvtepi64_ps. *)
Definition cvt64 (x : Z) : fl := match nb with 2%nat => to32 (i64ToPd x) | _ => of32 (s64 x) 0 end.

(** ** Sums *)

(** widen_byte and load_word_biased: IPELS samples as words; those of two bytes are moved by
    -32768.  Unaligned. *)
Definition loadPels (k : Z) (p : plane) (row x : Z) : outcome vec :=
  obind (loadLanes k (p_buf p) (row * p_stride p + x * k) (8 * nb)) (fun v =>
  Ok (if k =? 1 then v else zip add16 v (set16 B (-32768)))).

(** The accumulators lo and hi. *)
Definition acc : Type := (vec * vec)%type.
Definition zeroAcc : acc := (set32 B 0, set32 B 0).

(** Two taps at once: (uint16_t(b) << 16) | uint16_t(a) in every 32 bit lane. *)
Definition pairTaps (a b : Z) : Z := Z.lor (wrapu16 b * 65536) (wrapu16 a).
Definition addTaps (w : Z) (x0 x1 : vec) (a : acc) : acc :=
  (zip Simd.add32 (fst a) (zip madd16 (unpacklo16 nb x0 x1) (set32 B w)),
   zip Simd.add32 (snd a) (zip madd16 (unpackhi16 nb x0 x1) (set32 B w))).

(** One row of taps: square_impl.h:104-118, 156-172, 232-248.  The row of the matrix is [r], the
    row of the plane [row]; the block starts at column [j]. *)
Definition rowTaps (k n : Z) (g : gparams) (p : plane) (row r j : Z) (a : acc) : outcome acc :=
  let load c := loadPels k p row (j - n / 2 + c) in
  obind (forZ (n / 2) (fun t a =>
           obind (load (2 * t)) (fun x0 =>
           obind (load (2 * t + 1)) (fun x1 =>
           Ok (addTaps (pairTaps (coef g (r * n + 2 * t)) (coef g (r * n + 2 * t + 1))) x0 x1 a)))) a) (fun a =>
  obind (load (n - 1)) (fun x0 =>
  Ok (addTaps (wrapu16 (coef g (r * n + n - 1))) x0 (set16 B 0) a))).

(** sq_mirror, square_impl.h:51-58: as mirror_index of the scalar kernel, in int. *)
Definition sqMirror (pos len : Z) : outcome Z := mirrorIndex pos len.

Definition overRows {S} (n : Z) (h i : Z) (f : Z -> Z -> S -> outcome S) (s : S) : outcome S :=
  forZ n (fun r s => obind (sqMirror (i + r - n / 2) h) (fun row => f row r s)) s.

Definition sums32 (k n : Z) (g : gparams) (p : plane) (h i j : Z) : outcome acc :=
  overRows n h i (fun row r a => rowTaps k n g p row r j a) zeroAcc.

(** The 64 bit accumulators la, lb, ha, hb: square_impl.h:226-254. *)
Definition acc64 : Type := (vec * vec * vec * vec)%type.
Definition widenlo (x : vec) : vec := map (fun v => wrapu64 (s32 v)) (firstn (2 * nb) x).
Definition widenhi (x : vec) : vec := map (fun v => wrapu64 (s32 v)) (skipn (2 * nb) x).
Definition addl64 (a b : Z) : Z := wrapu64 (a + b).
Definition subl64 (a b : Z) : Z := wrapu64 (a - b).
Definition set64 (x : Z) : vec := repeat (wrapu64 x) (2 * nb).
Definition sums64 (k n : Z) (g : gparams) (p : plane) (h i j : Z) : outcome acc64 :=
  let z := set64 0 in
  overRows n h i (fun row r s =>
    obind (rowTaps k n g p row r j zeroAcc) (fun a =>
    let '(la, lb, ha, hb) := s in
    Ok (zip addl64 la (widenlo (fst a)), zip addl64 lb (widenhi (fst a)),
        zip addl64 ha (widenlo (snd a)), zip addl64 hb (widenhi (snd a))))) (z, z, z, z).

(** ** Stores *)

(** storeu_u8: convolution_avx2.cpp:107-116, convolution_avx512.cpp:113-123; the lower half of
    the permuted register. *)
Definition gather : list nat := match nb with 2%nat => [0; 2; 1; 3]%nat | _ => [0; 2; 4; 6; 1; 3; 5; 7]%nat end.
Definition finishAcc (g : gparams) (x : vec) : vec := map (fun v => cvtI (scaled g (cvtF v))) x.
Definition outByte (g : gparams) (a : acc) : vec :=
  let x := packs32 nb (finishAcc g (fst a)) (finishAcc g (snd a)) in
  firstn (8 * nb) (permute64 gather (packus16 nb x x)).

(** storeu_u16: convolution_avx2.cpp:117-125, convolution_avx512.cpp:124-132. *)
Definition outWord (g : gparams) (a : acc) : vec :=
  zip minu (packus32 nb (finishAcc g (fst a)) (finishAcc g (snd a))) (set16 B (g_maxval g)).

(** storeu_u16_i64: convolution_avx2.cpp:141-150, convolution_avx512.cpp:144-153. *)
Definition outWord64 (g : gparams) (s : acc64) : vec :=
  let '(la, lb, ha, hb) := s in
  let f x y := map (fun v => cvtI (scaled g v)) (map cvt64 x ++ map cvt64 y) in
  zip minu (packus32 nb (f la lb) (f ha hb)) (set16 B (g_maxval g)).

(** wb, square_impl.h:188-190 and 268-270: an int32_t or an int64_t. *)
Definition wbSum (wide : bool) (n : Z) (g : gparams) : outcome Z :=
  forZ (n * n) (fun i wb => (if wide then chk64 else chk32) (wb + -32768 * coef g i)) 0.

(** One block of IPELS columns at [j]: square_impl.h:100-120, 147-176, 219-258. *)
Definition block (k n : Z) (g : gparams) (src : plane) (h i j : Z) : outcome vec :=
  if k =? 1 then obind (sums32 k n g src h i j) (fun a => Ok (outByte g a))
  else if n <=? 7 then
    obind (wbSum false n g) (fun wb =>
    obind (sums32 k n g src h i j) (fun a =>
    let w := set32 B wb in Ok (outWord g (zip Simd.sub32 (fst a) w, zip Simd.sub32 (snd a) w))))
  else
    obind (wbSum true n g) (fun wb =>
    obind (sums64 k n g src h i j) (fun s =>
    let '(la, lb, ha, hb) := s in
    let w := set64 wb in Ok (outWord64 g (zip subl64 la w, zip subl64 lb w, zip subl64 ha w, zip subl64 hb w)))).

(** ** Rows *)

(** A run of groups of [blk] blocks from column [j]; the group reads the source only, so its
    blocks are computed one after the other.  The result carries the first column not covered. *)
Definition run (blk pels : Z) (put : Z -> pbuf -> outcome pbuf) (stop j : Z) (m : pbuf) : outcome (pbuf * Z) :=
  let count := Z.max 0 ((stop - j) / (pels * blk)) in
  obind (forZ count (fun t m => forZ blk (fun b m => put (j + (t * blk + b) * pels) m) m) m) (fun m =>
  Ok (m, j + count * (pels * blk))).

(** How many blocks a group of the first run has: square_impl.h:121-126, 193-196, 274-276; one
    means that there is only the second run. *)
Definition groupOf (k n : Z) : Z := if k =? 1 then 1 else if ipels <? 32 then 1 else if n <=? 7 then 4 else 2.

Definition interior (k n : Z) (put : Z -> pbuf -> outcome pbuf) (w : Z) (m : pbuf) : outcome (pbuf * Z) :=
  let s := n / 2 in
  let stop := if s <? w then w - s else 0 in
  obind (if 1 <? groupOf k n then run (groupOf k n) ipels put stop s m else Ok (m, s)) (fun r =>
  obind (run 1 ipels put stop (snd r) (fst r)) (fun r =>
  if (snd r <? stop) && (s + ipels <=? stop) then run 1 ipels put stop (stop - ipels) (fst r) else Ok r)).

End Kernels.

(** sq_scalar_px, square_impl.h:62-84: the taps column by column, an int64_t sum for words of
    more than 5x5 taps.  The products and the sum are those of conv_plane_square; std::min with
    maxval is in long. *)
Definition scalarPx (k n : Z) (g : gparams) (src : plane) (w h i j : Z) : outcome Z :=
  obind (mapO (fun t => let '(c, r) := t in
           obind (sqMirror (i + r - n / 2) h) (fun row =>
           obind (sqMirror (j + c - n / 2) w) (fun col =>
           obind (sampleAt k src col row) (fun v =>
           match nthz (g_matrix g) (r * n + c) with Some q => Ok (q, v) | None => UB end)))) (tapsOf n)) (fun l =>
  obind (dot ((1 <? k) && (5 <? n)) l) (fun a =>
  obind (finish k g a) (fun x => Ok (Z.min x (g_maxval g) mod 256 ^ k)))).

(** One row: square_impl.h:300-313; [inner] paints the interior. *)
Definition sqRow (k n : Z) (g : gparams) (src : plane) (w h i base : Z)
    (inner : pbuf -> outcome (pbuf * Z)) (m : pbuf) : outcome pbuf :=
  let s := n / 2 in
  obind (inner m) (fun r =>
  paintRow k base [ (0, Z.min s w, scalarPx k n g src w h i);
                    (Z.max (snd r) s, w, scalarPx k n g src w h i) ] (fst r)).

(** sq_plane, square_impl.h:289-314. *)
Definition squareV (nb : nat) (k n : Z) (g : gparams) (src : plane) (w h : Z) (dst : plane) : outcome pbuf :=
  forZ h (fun i m =>
    let base := i * p_stride dst in
    let put j m := obind (block nb k n g src h i j) (fun v => storeLanes k m (base + j * k) v) in
    sqRow k n g src w h i base (interior nb k n put w) m) (p_buf dst).

(** ** VNNI: square_vnni_impl.h *)

(** The coefficients of group [q] of row [r], truncated to int8_t, as four bytes: 62-66. *)
Definition groupTaps (n : Z) (g : gparams) (r q : Z) : list Z :=
  map (fun d => let c := q * 4 + d in if c <? n then wrapu8 (coef g (r * n + c)) else 0) (zseq 4).

(** _mm512_loadu_si512, and _mm512_maskz_loadu_epi8: bytes whose bit is clear are zero and are
    not read. *)
Definition load64 (p : plane) (row x : Z) : outcome vec := loadLanes 1 (p_buf p) (row * p_stride p + x) 64.
Definition load64masked (p : plane) (row x valid : Z) : outcome vec :=
  if 64 <=? valid then load64 p row x
  else obind (loadLanes 1 (p_buf p) (row * p_stride p + x) (Z.to_nat valid)) (fun v =>
       Ok (v ++ repeat 0 (64 - Z.to_nat valid))).

(** permutexvar_epi8 with widx (59-61): lane [i] gets bytes i .. i+3 of the window; dpbusd: the
    four products of unsigned and signed bytes added to a 32 bit lane. *)
Definition window (v : vec) (i : nat) : list Z := map (fun d => nth (i + d) v 0) (seq 0 4).
Definition dpbusd (a : vec) (v : vec) (taps : list Z) : vec :=
  map (fun i => Simd.add32 (nth i a 0) (wrapu32 (fold_left Z.add (zip (fun u c => u * s8 c) (window v i) taps) 0))) (seq 0 16).

Definition sumsVnni (n : Z) (g : gparams) (p : plane) (h i j : Z) (load : Z -> Z -> outcome vec) : outcome vec :=
  overRows n h i (fun row r a =>
    forZ ((n + 3) / 4) (fun q a => obind (load row (j - n / 2 + q * 4)) (fun v => Ok (dpbusd a v (groupTaps n g r q)))) a)
    (repeat 0 16).

(** store16: 68-72.  _mm512_max_epi32 and _mm512_min_epi32 are signed. *)
Definition out16 (g : gparams) (a : vec) : vec :=
  map (fun v => Z.min (Z.max (s32 (cvtI (scaled g (cvtF v)))) 0) 255 mod 256) a.

(** sq_interior_byte_vnni, 73-127: the groups of four blocks while the widest load stays inside
    the row, single blocks while their loads do, then masked loads. *)
Definition interiorVnni (n : Z) (g : gparams) (src : plane) (h i : Z) (base w : Z) (m : pbuf) : outcome (pbuf * Z) :=
  let s := n / 2 in
  let stop := if s <? w then w - s else 0 in
  let maxoff := ((n + 3) / 4 - 1) * 4 in
  let ss := p_stride src in
  let put load j m := obind (sumsVnni n g src h i j (load j)) (fun a => storeLanes 1 m (base + j) (out16 g a)) in
  let plain (j : Z) := load64 src in
  let masked (j row x : Z) := load64masked src row x (if x <? ss then ss - x else 0) in
  (* j + 64 <= stop and (j - s) + maxoff + 112 <= ss *)
  obind (run 4 16 (put plain) (Z.min stop (ss - maxoff - 112 + s + 64)) s m) (fun r =>
  obind (run 1 16 (put plain) (Z.min stop (ss - maxoff - 64 + s + 16)) (snd r) (fst r)) (fun r =>
  run 1 16 (put masked) stop (snd r) (fst r))).

(** sq_plane_byte_vnni, 129-149. *)
Definition squareVnni (n : Z) (g : gparams) (src : plane) (w h : Z) (dst : plane) : outcome pbuf :=
  forZ h (fun i m =>
    let base := i * p_stride dst in
    sqRow 1 n g src w h i base (interiorVnni n g src h i base w) m) (p_buf dst).

(** ** Which kernel runs *)

(** genericfilters.cpp:977-991: every coefficient fits int8_t. *)
Definition convInt8 (m : list Z) : bool := forallb (fun c => (-128 <=? c) && (c <=? 127)) m.

(** The square convolutions of genericSelectAVX2 and genericSelectAVX512, genericfilters.cpp:256-420;
    [vnni]: the processor has avx512_vnni and avx512_vbmi. *)
Inductive level := LAvx2 | LAvx512.
Definition squareKernel (l : level) (vnni : bool) (k : Z) (g : gparams) (src : plane) (w h : Z) (dst : plane) : outcome pbuf :=
  let nb := match l with LAvx2 => 2%nat | LAvx512 => 4%nat end in
  let go n := if match l with LAvx512 => (k =? 1) && vnni && convInt8 (g_matrix g) | LAvx2 => false end
              then squareVnni n g src w h dst else squareV nb k n g src w h dst in
  if g_size g =? 25 then go 5
  else if g_size g =? 49 then go 7
  else if g_size g =? 81 then go 9
  else if g_size g =? 121 then go 11
  else Err.
