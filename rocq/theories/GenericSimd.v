(** Model of src/core/kernel/x86/generic_impl.h with its three instruction sets,
    generic_sse2.cpp, generic_avx2.cpp and generic_avx512.cpp: the 3x3 kernels of integer
    formats.

    A vector register is the list of its lanes, see Simd.v; where the code reinterprets a
    register with lanes of another width the unpack and pack operations produce the lists of
    the new width.  Kernels of float and half formats are not modelled. *)
From Coq Require Import ZArith List Lia Bool.
From Coq Require Import SpecFloat.
From Verif Require Import Common PlaneMem Pixel Soft Generic Simd.
Import ListNotations.
Open Scope Z_scope.

Definition vec := list Z.

Fixpoint zip {A B C} (f : A -> B -> C) (a : list A) (b : list B) : list C :=
  match a, b with
  | x :: a', y :: b' => f x y :: zip f a' b'
  | _, _ => []
  end.

(** Lane operations that Simd.v does not have: _mm_min_epu8, _mm_max_epu8 and the epu16 forms,
    _mm_adds_epu8 .. _mm_subs_epu16, _mm_slli_epi32 by one. *)
Definition minu (a b : Z) : Z := if a <? b then a else b.
Definition maxu (a b : Z) : Z := if a <? b then b else a.
Definition addsu (top a b : Z) : Z := clampZ 0 top (a + b).
Definition subsu (top a b : Z) : Z := clampZ 0 top (a - b).
Definition slli32 (a : Z) : Z := wrapu32 (a * 2).

(** _mm_cvtepi32_ps; _mm_cvtps_epi32: to nearest, ties to even, and 0x80000000 for a NaN or a
    number outside int32_t. *)
Definition cvtF (x : Z) : fl := of32 (s32 x) 0.
Definition cvtI (x : fl) : Z :=
  match lrint x with
  | Ok v => if in_intb v then wrapu32 v else 2147483648
  | _ => 2147483648
  end.

(** The number of 128 bit blocks and whether words are compared in the biased signed domain. *)
Record backend := mkBE { be_nb : nat; be_biased : bool }.
Definition sse2 : backend := mkBE 1 true.     (* generic_sse2.cpp:35-142 *)
Definition avx2 : backend := mkBE 2 false.    (* generic_avx2.cpp:46-158 *)
Definition avx512 : backend := mkBE 4 false.  (* generic_avx512.cpp:51-165 *)

Section Kernels.
Variable B : backend.
Let nb := be_nb B.

Definition set8 (x : Z) : vec := repeat (wrapu8 x) (16 * nb).
Definition set16 (x : Z) : vec := repeat (wrapu16 x) (8 * nb).
Definition set32 (x : Z) : vec := repeat (wrapu32 x) (4 * nb).
Definition setF (x : fl) : list fl := repeat x (4 * nb).

(** The word domain: wsign, wunsign, wsign32, wmin, wmax, wmaxval and pack_word. *)
Definition wsign (x : vec) : vec := if be_biased B then zip add16 x (set16 (-32768)) else x.
Definition wunsign (x : vec) : vec := if be_biased B then zip sub16 x (set16 (-32768)) else x.
Definition wsign32 (x : vec) : vec := if be_biased B then zip Simd.add32 x (set32 (-32768)) else x.
Definition wmin (x y : vec) : vec := zip (if be_biased B then min16 else minu) x y.
Definition wmax (x y : vec) : vec := zip (if be_biased B then max16 else maxu) x y.
Definition wmaxval (mv : Z) : vec := set16 (if be_biased B then mv - 32768 else mv).
Definition packWord (x y : vec) : vec := if be_biased B then packs32 nb x y else packus32 nb x y.

(** The halves of a register widened by an unpack with zero: the macros LO and HI. *)
Definition LO8 (x : vec) : vec := unpacklo8 nb x (set8 0).
Definition HI8 (x : vec) : vec := unpackhi8 nb x (set8 0).
Definition LO16 (x : vec) : vec := unpacklo16 nb x (set16 0).
Definition HI16 (x : vec) : vec := unpackhi16 nb x (set16 0).

(** ** Prewitt and Sobel *)

(** generic_impl.h:130-151 and 189-208: gx and gy of one half; [U] is LO or HI. *)
Definition gradients2 (add sub : Z -> Z -> Z) (dbl : Z -> Z) (sobel : bool) (U : vec -> vec)
    (a00 a01 a02 a10 a12 a20 a21 a22 : vec) : vec * vec :=
  let two x := if sobel then map dbl x else x in
  let g := zip sub (U a22) (U a00) in
  let gx := zip add g (U a20) in
  let gx := zip add gx (two (U a21)) in
  let gx := zip sub gx (two (U a01)) in
  let gx := zip sub gx (U a02) in
  let gy := zip add g (U a02) in
  let gy := zip add gy (two (U a12)) in
  let gy := zip sub gy (two (U a10)) in
  let gy := zip sub gy (U a20) in
  (gx, gy).

(** generic_impl.h:119-174, PrewittSobelByte. *)
Definition gradByte (sobel : bool) (g : gparams) (vs : list vec) : vec :=
  match vs with
  | [a00; a01; a02; a10; a11; a12; a20; a21; a22] =>
      let '(gx_lo, gy_lo) := gradients2 add16 sub16 (slli16 1) sobel LO8 a00 a01 a02 a10 a12 a20 a21 a22 in
      let '(gx_hi, gy_hi) := gradients2 add16 sub16 (slli16 1) sobel HI8 a00 a01 a02 a10 a12 a20 a21 a22 in
      let square x := zip madd16 x x in
      let lolo := square (unpacklo16 nb gx_lo gy_lo) in
      let lohi := square (unpackhi16 nb gx_lo gy_lo) in
      let hilo := square (unpacklo16 nb gx_hi gy_hi) in
      let hihi := square (unpackhi16 nb gx_hi gy_hi) in
      let sc := setF (g_scale g) in
      let f x := map cvtI (zip mul32 (map (SFsqrt 24 128) (map cvtF x)) sc) in
      packus16 nb (packs32 nb (f lolo) (f lohi)) (packs32 nb (f hilo) (f hihi))
  | _ => []
  end.

(** generic_impl.h:176-233, PrewittSobelWord. *)
Definition gradWord (sobel : bool) (g : gparams) (vs : list vec) : vec :=
  match vs with
  | [a00; a01; a02; a10; a11; a12; a20; a21; a22] =>
      let '(gx_lo, gy_lo) := gradients2 Simd.add32 Simd.sub32 slli32 sobel LO16 a00 a01 a02 a10 a12 a20 a21 a22 in
      let '(gx_hi, gy_hi) := gradients2 Simd.add32 Simd.sub32 slli32 sobel HI16 a00 a01 a02 a10 a12 a20 a21 a22 in
      let square x := zip mul32 (map cvtF x) (map cvtF x) in
      let sc := setF (g_scale g) in
      let f x y := wsign32 (map cvtI (zip mul32 (map (SFsqrt 24 128) (zip Soft.add32 (square x) (square y))) sc)) in
      wunsign (wmin (packWord (f gx_lo gy_lo) (f gx_hi gy_hi)) (wmaxval (g_maxval g)))
  | _ => []
  end.

(** ** Minimum and Maximum *)

(** The bits of the stencil with the neighbour each of them selects: generic_impl.h:275-282
    and 288-295. *)
Definition stencilOrder (vs : list vec) : list (Z * vec) :=
  match vs with
  | [a00; a01; a02; a10; a11; a12; a20; a21; a22] =>
      [(1, a00); (2, a01); (4, a02); (8, a10); (16, a12); (32, a20); (64, a21); (128, a22)]
  | _ => []
  end.
Definition middle (vs : list vec) : vec := nth 4 vs [].

(** generic_impl.h:270-301, MinMaxTraits: every neighbour takes part, masked. *)
Definition variableStencil (reduce : vec -> vec -> vec -> vec) (on off : vec) (st : Z) (start : vec) (vs : list vec) : vec :=
  fold_left (fun val q => reduce val (snd q) (if Z.land st (fst q) =? 0 then off else on)) (stencilOrder vs) start.

(** generic_impl.h:391-406, MinMaxFixedTraits: the stencil is known at compile time. *)
Definition fixedStencil (reduce : vec -> vec -> vec) (st : Z) (start : vec) (vs : list vec) : vec :=
  fold_left (fun val q => if Z.land st (fst q) =? 0 then val else reduce val (snd q)) (stencilOrder vs) start.

(** The stencils with a compiled version, generic_impl.h:59-62 and 956-982. *)
Definition isFixed (st : Z) : bool := (st =? 24) || (st =? 66) || (st =? 90) || (st =? 255).

(** generic_impl.h:303-330, MinMaxByte, and 408-430, MinMaxFixedByte. *)
Definition minMaxByte (mx : bool) (g : gparams) (vs : list vec) : vec :=
  let a11 := middle vs in
  let st := g_stencil g in
  let val :=
    if isFixed st then fixedStencil (zip (if mx then maxu else minu)) st a11 vs
    else
      let ones := set8 255 in let zeros := set8 0 in
      variableStencil (fun lhs rhs mask => if mx then zip maxu lhs (zip andL mask rhs) else zip minu lhs (zip orL mask rhs))
        (if mx then ones else zeros) (if mx then zeros else ones) st a11 vs in
  let threshold := set8 (Z.min (g_th g) 255) in
  let limit := zip (if mx then addsu 255 else subsu 255) a11 threshold in
  zip (if mx then minu else maxu) val limit.

(** generic_impl.h:332-362, MinMaxWord, and 432-460, MinMaxFixedWord. *)
Definition minMaxWord (mx : bool) (g : gparams) (vs : list vec) : vec :=
  let a11 := middle vs in
  let a11s := wsign a11 in
  let st := g_stencil g in
  let red := if mx then wmax else wmin in
  let val :=
    if isFixed st then fixedStencil (fun lhs rhs => red lhs (wsign rhs)) st a11s vs
    else
      let ones := set16 65535 in let zeros := set16 0 in
      variableStencil (fun lhs rhs mask => red lhs (wsign (zip (if mx then andL else orL) mask rhs)))
        (if mx then ones else zeros) (if mx then zeros else ones) st a11s vs in
  let threshold := set16 (g_th g) in
  let limit := wsign (zip (if mx then addsu 65535 else subsu 65535) a11 threshold) in
  wunsign ((if mx then wmin else wmax) val limit).

(** ** Median *)

(** generic_impl.h:483-508, MedianTraits, over any pair of minimum and maximum. *)
Definition medianNet {T} (mn mx : T -> T -> T) (a00 a01 a02 a10 a11 a12 a20 a21 a22 : T) : T :=
  let cex x y := (mn x y, mx x y) in
  let '(a00, a01) := cex a00 a01 in
  let '(a02, a10) := cex a02 a10 in
  let '(a12, a20) := cex a12 a20 in
  let '(a21, a22) := cex a21 a22 in
  let '(a00, a02) := cex a00 a02 in
  let '(a01, a10) := cex a01 a10 in
  let '(a12, a21) := cex a12 a21 in
  let '(a20, a22) := cex a20 a22 in
  let '(a01, a02) := cex a01 a02 in
  let '(a20, a21) := cex a20 a21 in
  let a12 := mx a00 a12 in
  let a20 := mx a01 a20 in
  let a02 := mn a02 a21 in
  let a10 := mn a10 a22 in
  let a12 := mx a02 a12 in
  let a10 := mn a10 a20 in
  let '(a10, a12) := cex a10 a12 in
  let a11 := mx a10 a11 in
  let a11 := mn a11 a12 in
  a11.

(** generic_impl.h:510-522, MedianByte, and 524-546, MedianWord. *)
Definition medianByte (vs : list vec) : vec :=
  match vs with
  | [a00; a01; a02; a10; a11; a12; a20; a21; a22] => medianNet (zip minu) (zip maxu) a00 a01 a02 a10 a11 a12 a20 a21 a22
  | _ => []
  end.
Definition medianWord (vs : list vec) : vec :=
  match map wsign vs with
  | [a00; a01; a02; a10; a11; a12; a20; a21; a22] => wunsign (medianNet wmin wmax a00 a01 a02 a10 a11 a12 a20 a21 a22)
  | _ => []
  end.

(** ** Deflate and Inflate *)

(** The sum of one half of the lanes, generic_impl.h:576-587 and 612-621. *)
Definition flateSum (add : Z -> Z -> Z) (four : vec) (U : vec -> vec) (a00 a01 a02 a10 a12 a20 a21 a22 : vec) : vec :=
  zip add (fold_left (fun acc v => zip add acc (U v)) [a01; a02; a10; a12; a20; a21; a22] (U a00)) four.

(** generic_impl.h:563-598, DeflateInflateByte. *)
Definition flateByte (inflate : bool) (g : gparams) (vs : list vec) : vec :=
  match vs with
  | [a00; a01; a02; a10; a11; a12; a20; a21; a22] =>
      let acc U := map (srli16 3) (flateSum add16 (set16 4) U a00 a01 a02 a10 a12 a20 a21 a22) in
      let tmp := packus16 nb (acc LO8) (acc HI8) in
      let tmp := zip (if inflate then maxu else minu) tmp a11 in
      let limit := zip (if inflate then addsu 255 else subsu 255) a11 (set8 (Z.min (g_th g) 255)) in
      zip (if inflate then minu else maxu) tmp limit
  | _ => []
  end.

(** generic_impl.h:600-634, DeflateInflateWord. *)
Definition flateWord (inflate : bool) (g : gparams) (vs : list vec) : vec :=
  match vs with
  | [a00; a01; a02; a10; a11; a12; a20; a21; a22] =>
      let acc U := wsign32 (map (srl32 3) (flateSum Simd.add32 (set32 4) U a00 a01 a02 a10 a12 a20 a21 a22)) in
      let tmp := packWord (acc LO16) (acc HI16) in
      let tmp := (if inflate then wmax else wmin) tmp (wsign a11) in
      let limit := wsign (zip (if inflate then addsu 65535 else subsu 65535) a11 (set16 (g_th g))) in
      wunsign ((if inflate then wmin else wmax) tmp limit)
  | _ => []
  end.

(** ** Convolution *)

(** interleave, generic_impl.h:673: two coefficients as the halves of a 32 bit lane; the
    right operand of | is converted to uint32_t, the left one is shifted in uint32_t. *)
Definition interleave (a b : Z) : Z := Z.lor (wrapu32 (wrapu32 b * 65536)) (wrapu16 a).
Definition coef (g : gparams) (i : Z) : Z := nth (Z.to_nat i) (g_matrix g) 0.

(** fand(fadd(fmul(cvt_f(x), div), bias), saturate_mask): without saturation the sign bit is
    cleared; cvt_i. *)
Definition convFinish (g : gparams) (x : vec) : vec :=
  map cvtI (map (fun v => if g_sat g then v else SFabs v)
    (zip Soft.add32 (zip mul32 (map cvtF x) (setF (g_div g))) (setF (g_bias g)))).

(** One quarter (or half) of the sums, generic_impl.h:718-744 and 789-798: [P] unpacks a pair
    of registers of words. *)
Definition convSum (g : gparams) (last : Z) (P : vec -> vec -> vec) (a00 a01 a02 a10 a11 a12 a20 a21 a22 axx : vec) : vec :=
  let c i j := set32 (interleave (coef g i) (coef g j)) in
  let acc := zip madd16 (c 0 1) (P a00 a01) in
  let acc := zip Simd.add32 acc (zip madd16 (c 2 3) (P a02 a10)) in
  let acc := zip Simd.add32 acc (zip madd16 (c 4 5) (P a11 a12)) in
  let acc := zip Simd.add32 acc (zip madd16 (c 6 7) (P a20 a21)) in
  zip Simd.add32 acc (zip madd16 (set32 (interleave (coef g 8) last)) (P a22 axx)).

(** generic_impl.h:686-758, ConvolutionByte. *)
Definition convByte (g : gparams) (vs : list vec) : vec :=
  match vs with
  | [a00; a01; a02; a10; a11; a12; a20; a21; a22] =>
      let s U P := convSum g 0 P (U a00) (U a01) (U a02) (U a10) (U a11) (U a12) (U a20) (U a21) (U a22) (set16 0) in
      let f x := convFinish g x in
      packus16 nb (packs32 nb (f (s LO8 (unpacklo16 nb))) (f (s LO8 (unpackhi16 nb))))
                  (packs32 nb (f (s HI8 (unpacklo16 nb))) (f (s HI8 (unpackhi16 nb))))
  | _ => []
  end.

(** generic_impl.h:760-809, ConvolutionWord: the tenth weight is static_cast<int16_t>(-x), x
    the sum of the coefficients. *)
Definition convWord (g : gparams) (vs : list vec) : vec :=
  let bias16 := set16 (-32768) in
  let last := s16 (wrapu16 (- fold_left Z.add (firstn 9 (g_matrix g)) 0)) in
  match map (fun v => zip add16 v bias16) vs with
  | [a00; a01; a02; a10; a11; a12; a20; a21; a22] =>
      let s P := convSum g last P a00 a01 a02 a10 a11 a12 a20 a21 a22 bias16 in
      let f x := wsign32 (convFinish g x) in
      let tmp := packWord (f (s (unpacklo16 nb))) (f (s (unpackhi16 nb))) in
      wunsign (wmin tmp (wmaxval (g_maxval g)))
  | _ => []
  end.

(** ** Edges *)

(** Byte shifts of every 128 bit block, and of the whole register: generic_avx2.cpp:25-43,
    generic_avx512.cpp:27-43.  The AVX2 permutations 0x02 and 0x31 put the lower block in the
    place of the upper one, or the upper in the place of the lower, and zero the other; the
    AVX-512 ones do so with 64 bit lanes. *)
Definition bslli (c : nat) (x : vec) : vec := perBlock nb 16 (fun a _ => repeat 0 c ++ firstn (16 - c) a) x x.
Definition bsrli (c : nat) (x : vec) : vec := perBlock nb 16 (fun a _ => skipn c a ++ repeat 0 c) x x.
Definition maskz (mask : Z) (v : vec) : vec :=
  concat (map (fun i => if Z.testbit mask (Z.of_nat i) then qword v i else repeat 0 8) (seq 0 8)).
Definition laneUp (x : vec) : vec :=
  match nb with
  | 2%nat => repeat 0 16 ++ firstn 16 x
  | _ => maskz 252 (permute64 [0; 0; 0; 1; 2; 3; 4; 5]%nat x)
  end.
Definition laneDown (x : vec) : vec :=
  match nb with
  | 2%nat => skipn 16 x ++ repeat 0 16
  | _ => maskz 63 (permute64 [2; 3; 4; 5; 6; 7; 0; 0]%nat x)
  end.
Definition shlWhole (c : nat) (x : vec) : vec :=
  match nb with
  | 1%nat => bslli c x
  | _ => zip orL (bslli c x) (bsrli (16 - c) (laneUp x))
  end.
Definition shrWhole (c : nat) (x : vec) : vec :=
  match nb with
  | 1%nat => bsrli c x
  | _ => zip orL (bsrli c x) (bslli (16 - c) (laneDown x))
  end.

(** A register of [k] byte lanes seen as bytes and back. *)
Fixpoint pairs (l : list Z) : list Z := match l with a :: b :: r => join8 a b :: pairs r | _ => [] end.
Definition toBytes (k : Z) (v : vec) : vec := if k =? 1 then v else flat_map (fun x => [x mod 256; x / 256]) v.
Definition ofBytes (k : Z) (v : vec) : vec := if k =? 1 then v else pairs v.

(** byte_shl_insert_lo and word_shl_insert_lo. *)
Definition shlInsert (k : Z) (x : vec) (y : Z) : vec :=
  let low := toBytes k [y] ++ repeat 0 (16 * nb - Z.to_nat k) in
  ofBytes k (zip orL low (shlWhole (Z.to_nat k) (toBytes k x))).
(** byte_shr_insert and word_shr_insert: the lane whose number equals idx, converted to the
    type of the lane, is taken from the vector of [y]s; the three forms of selection agree as
    the mask is all ones or zero in every lane. *)
Definition shrInsert (k : Z) (x : vec) (y idx : Z) : vec :=
  let moved := ofBytes k (shrWhole (Z.to_nat k) (toBytes k x)) in
  zip (fun i a => if Z.of_nat i =? idx mod 256 ^ k then y else a) (seq 0 (length x)) moved.

(** ** The driver *)

(** Lanes of a register of [k] byte samples. *)
Definition lanes (k : Z) : Z := if k =? 1 then 16 * Z.of_nat nb else 8 * Z.of_nat nb.

(** Aligned accesses fault when the address is not a multiple of the register size; the start
    of a plane is (vscore.cpp:166-200), offsets count from there. *)
Definition vload (aligned : bool) (k : Z) (p : plane) (r x : Z) : outcome vec :=
  let o := r * p_stride p + x * k in
  if aligned && negb (o mod (lanes k * k) =? 0) then UB else loadLanes k (p_buf p) o (Z.to_nat (lanes k)).
Definition vstore (k : Z) (stride : Z) (m : pbuf) (r x : Z) (v : vec) : outcome pbuf :=
  let o := r * stride + x * k in
  if negb (o mod (lanes k * k) =? 0) then UB else storeLanes k m o v.

(** The left, middle and right registers of row [r]: of the first group, of a group inside
    and of the last one.  unsigned arithmetic of indices. *)
Definition firstGroup (k : Z) (p : plane) (w r : Z) : outcome (list vec) :=
  obind (vload true k p r 0) (fun c =>
  obind (sampleAt k p 0 r) (fun s =>
  obind (if lanes k <? w then vload false k p r 1
         else obind (sampleAt k p (wrapu32 (w - 1)) r) (fun e => Ok (shrInsert k c e (wrapu32 (w - 1))))) (fun right =>
  Ok [shlInsert k c s; c; right]))).
Definition innerGroup (k : Z) (p : plane) (j r : Z) : outcome (list vec) :=
  obind (vload false k p r (j - 1)) (fun l =>
  obind (vload true k p r j) (fun c =>
  obind (vload false k p r (j + 1)) (fun right => Ok [l; c; right]))).
Definition lastGroup (k : Z) (p : plane) (w vend r : Z) : outcome (list vec) :=
  obind (vload false k p r (vend - 1)) (fun l =>
  obind (vload true k p r vend) (fun c =>
  obind (sampleAt k p (wrapu32 (w - 1)) r) (fun e =>
  Ok [l; c; shrInsert k c e (wrapu32 (w - vend - 1))]))).

Definition ofRows (f : Z -> outcome (list vec)) (r0 r1 r2 : Z) : outcome (list vec) :=
  obind (f r0) (fun a => obind (f r1) (fun b => obind (f r2) (fun c => Ok (a ++ b ++ c)))).

(** generic_impl.h:848-916, filter_plane_3x3; the loop j = vec_len, 2 vec_len, .. < vec_end
    counts in vectors, vec_end being a multiple of vec_len. *)
Definition rowV (k : Z) (op : list vec -> vec) (src : plane) (w h i : Z) (stride : Z) (m : pbuf) : outcome pbuf :=
  let n := lanes k in
  let vend := Z.land (wrapu32 (w - 1)) (wrapu32 (Z.lnot (n - 1))) in
  let above := if i =? 0 then 0 else i - 1 in
  let below := if i =? wrapu32 (h - 1) then wrapu32 (h - 1) else i + 1 in
  obind (obind (ofRows (firstGroup k src w) above i below) (fun vs => vstore k stride m i 0 (op vs))) (fun m =>
  obind (forFrom 1 (vend / n) (fun t m =>
           obind (ofRows (innerGroup k src (t * n)) above i below) (fun vs => vstore k stride m i (t * n) (op vs))) m) (fun m =>
  if n <=? vend
  then obind (ofRows (lastGroup k src w vend) above i below) (fun vs => vstore k stride m i vend (op vs))
  else Ok m)).

Definition filterV (k : Z) (op : list vec -> vec) (src : plane) (w h : Z) (dst : plane) : outcome pbuf :=
  forZ h (fun i m => rowV k op src w h i (p_stride dst) m) (p_buf dst).

(** The exported kernels, generic_impl.h:938-1024, for samples of [k] bytes; [None]: not one
    of them. *)
Definition opV (op : gop) (k : Z) (g : gparams) : option (list vec -> vec) :=
  let pick (b w : list vec -> vec) := Some (if k =? 1 then b else w) in
  match op with
  | OpPrewitt => pick (gradByte false g) (gradWord false g)
  | OpSobel => pick (gradByte true g) (gradWord true g)
  | OpMinimum => pick (minMaxByte false g) (minMaxWord false g)
  | OpMaximum => pick (minMaxByte true g) (minMaxWord true g)
  | OpMedian => pick medianByte medianWord
  | OpDeflate => pick (flateByte false g) (flateWord false g)
  | OpInflate => pick (flateByte true g) (flateWord true g)
  | OpConv CSquare => if g_size g =? 9 then pick (convByte g) (convWord g) else None
  | OpConv _ => None
  end.
Definition kernelV (op : gop) (k : Z) (g : gparams) (src : plane) (w h : Z) (dst : plane) : outcome pbuf :=
  match opV op k g with Some f => filterV k f src w h dst | None => Err end.
End Kernels.
