(** Property C93: the x86 vector kernels of the 5x5 to 11x11 convolutions and the scalar ones. *)
From Coq Require Import ZArith List Lia Bool.
From Coq Require Import SpecFloat.
From Verif Require Import Common FormatSpec Format Frame FrameFacts ImageSpec PlaneMem Spatial SpatialLemmas PixelSpec Pixel Lut LutFrames LutFacts Soft SoftNum SoftLe GenericSpec Generic GenericOps GenericPlanes GenericFrames Simd
  GenericSimd GenericSimdLanes GenericSimdFloat GenericSimdOps GenericSimdPlanes SquareSimd SquareSimdFloat SquareSimdLanes SquareSimdPlanes SquareSimdFacts.
Import Soft ListNotations.
Open Scope Z_scope.

(** Every column is computed, none outside the row is touched, and nothing is read outside the
    plane; the columns from half the matrix to [vectorEnd] are finished by the vector code. *)
Theorem C93_columns : forall l vnni k n g F src w h dst, ready k n g -> finishes k g F -> 1 <= w < 2 ^ 30 -> 1 <= h < 2 ^ 30 -> wfPlane k src w h -> wfPlane k dst w h -> byteBuf src ->
  exists m, squareKernel l vnni k g src w h dst = Ok m /\ b_size m = b_size (p_buf dst) /\
    same (imageOf k (mkPl (p_stride dst) m) w h) (mixed k n g F src w h (vectorEnd l vnni k n g w)).
Proof. exact kernel_vector. Qed.
Print Assumptions C93_columns.
Example C93_columns_ex : map (fun w => (vectorEnd LAvx2 false 1 5 (mkGP 255 (of32 0 0) 0 0 [] (of32 1 0) (of32 0 0) true) w,
    vectorEnd LAvx512 true 1 5 (mkGP 255 (of32 0 0) 0 0 [] (of32 1 0) (of32 0 0) true) w)) [1; 19; 20; 37; 100] = [(2, 2); (2, 2); (18, 18); (35, 34); (98, 98)].
Proof. reflexivity. Qed.

Theorem C93_sums_partial : forall l vnni vi a d t0 src w h dst, fmt_valid (vi_fmt vi) -> genericCreate (OpConv CSquare) vi a = Ok d -> divisorOk (ga_divisor a) -> zlength (ga_matrix a) <> 9 ->
  let k := f_bytes (vi_fmt vi) in let p := gd_params d in let n := sideOf p in
  1 <= w < 2 ^ 30 -> 1 <= h < 2 ^ 30 -> wfPlane k src w h -> wfPlane k dst w h -> byteBuf src ->
  (forall x y, 0 <= x < w -> 0 <= y < h -> tame k n p (square n (g_matrix p) (imageOf k src w h) x y)) ->
  exists mv ms, squareKernel l vnni k p src w h dst = Ok mv /\ kernelOf (OpConv CSquare) k p t0 src w h dst = Ok ms /\ b_size mv = b_size (p_buf dst) /\ b_size ms = b_size (p_buf dst) /\
    same (imageOf k (mkPl (p_stride dst) mv) w h) (imageOf k (mkPl (p_stride dst) ms) w h).
Proof. exact kernels_tame. Qed.
Print Assumptions C93_sums_partial.

(** No bias and a divisor not below one: samples up to [M] with n * n * 1023 * M at most
    1676083200, that is all 8, 10 and 12 bit clips, and 16 bit clips with 5x5 taps. *)
Theorem C93_no_bias_partial : forall l vnni vi a d t0 src w h dst M, fmt_valid (vi_fmt vi) -> genericCreate (OpConv CSquare) vi a = Ok d -> divisorOk (ga_divisor a) -> zlength (ga_matrix a) <> 9 ->
  ga_bias a = None -> let k := f_bytes (vi_fmt vi) in let p := gd_params d in let n := sideOf p in
  canon (g_div p) -> magLe (2 ^ 23) (-23) (g_div p) -> n * n * (1023 * M) <= 1676083200 ->
  1 <= w < 2 ^ 30 -> 1 <= h < 2 ^ 30 -> wfPlane k src w h -> wfPlane k dst w h -> byteBuf src -> within k M src w h ->
  exists mv ms, squareKernel l vnni k p src w h dst = Ok mv /\ kernelOf (OpConv CSquare) k p t0 src w h dst = Ok ms /\ b_size mv = b_size (p_buf dst) /\ b_size ms = b_size (p_buf dst) /\
    same (imageOf k (mkPl (p_stride dst) mv) w h) (imageOf k (mkPl (p_stride dst) ms) w h).
Proof. exact kernels_small. Qed.
Print Assumptions C93_no_bias_partial.
Example C93_no_bias_ex : both LAvx512 true gray8 (conv (map (fun i => i mod 7 - 2) (zseq 25)) None None) 24 5 [(0, 1); (2, 1); (9, 2); (17, 2); (19, 3)] =
  Ok ([31; 32; 63; 71; 95], [31; 32; 63; 71; 95]).
Proof. vm_compute. reflexivity. Qed.

(** A bias of at most 2^29 is harmless when the divisor is a power of two and the sums stay
    below 2^24. *)
Theorem C93_power_of_two_partial : forall l vnni vi a d t0 src w h dst M j, fmt_valid (vi_fmt vi) -> genericCreate (OpConv CSquare) vi a = Ok d -> divisorOk (ga_divisor a) -> zlength (ga_matrix a) <> 9 ->
  let k := f_bytes (vi_fmt vi) in let p := gd_params d in let n := sideOf p in
  -60 <= j <= 60 -> g_div p = of32 1 j \/ g_div p = SFopp (of32 1 j) -> canon (g_div p) -> magLe (2 ^ 23) (-23) (g_div p) -> canon (g_bias p) -> magLe (2 ^ 23) 6 (g_bias p) ->
  n * n * (1023 * M) < 2 ^ 24 ->
  1 <= w < 2 ^ 30 -> 1 <= h < 2 ^ 30 -> wfPlane k src w h -> wfPlane k dst w h -> byteBuf src -> within k M src w h ->
  exists mv ms, squareKernel l vnni k p src w h dst = Ok mv /\ kernelOf (OpConv CSquare) k p t0 src w h dst = Ok ms /\ b_size mv = b_size (p_buf dst) /\ b_size ms = b_size (p_buf dst) /\
    same (imageOf k (mkPl (p_stride dst) mv) w h) (imageOf k (mkPl (p_stride dst) ms) w h).
Proof. exact kernels_pow2. Qed.
Print Assumptions C93_power_of_two_partial.
Example C93_power_of_two_ex : both LAvx2 false gray8 (conv (map (fun i => i mod 7 - 2) (zseq 25)) (Some (num 10)) (Some (num 4))) 24 5 [(2, 1); (9, 2); (19, 3)] =
  both LAvx512 false gray8 (conv (map (fun i => i mod 7 - 2) (zseq 25)) (Some (num 10)) (Some (num 4))) 24 5 [(2, 1); (9, 2); (19, 3)].
Proof. vm_compute. reflexivity. Qed.

Theorem C93_sum_wraps_refuted : forall l, seam l gray16 255 box7 0 65535.
Proof. exact box7_differs. Qed.
Print Assumptions C93_sum_wraps_refuted.

Theorem C93_conversion_refuted : forall l, seam l gray16 255 sum9 0 65535.
Proof. exact sum9_differs. Qed.
Print Assumptions C93_conversion_refuted.

Theorem C93_fused_refuted : forall l, seam l gray8 3 half5 1 0.
Proof. exact half5_differs. Qed.
Print Assumptions C93_fused_refuted.
