(** Property C87: the x86 vector kernels of the 3x3 filters and the scalar ones. *)
From Coq Require Import ZArith List Lia Bool.
From Coq Require Import SpecFloat.
From Verif Require Import Common FormatSpec Format Frame FrameFacts ImageSpec PlaneMem Spatial SpatialLemmas PixelSpec Pixel Lut LutFacts Soft SoftNum SoftLe GenericSpec Generic GenericOps GenericPlanes Simd
  GenericSimd GenericSimdLanes GenericSimdOps GenericSimdEdges GenericSimdRows GenericSimdPlanes GenericSimdFacts.
Import ListNotations.
Open Scope Z_scope.

Theorem C87_order_filters : forall B op vi a d t0 src w h dst, known B -> fmt_valid (vi_fmt vi) -> f_bits (vi_fmt vi) = 8 * f_bytes (vi_fmt vi) ->
  genericCreate op vi a = Ok d -> isOrder op = true ->
  let k := f_bytes (vi_fmt vi) in let p := gd_params d in 1 <= w < 2 ^ 31 -> 1 <= h < 2 ^ 31 ->
  wfPlane k src w h -> wfPlane k dst w h -> aligned B src -> aligned B dst -> byteBuf src ->
  exists mv ms, kernelV B op k p src w h dst = Ok mv /\ kernelOf op k p t0 src w h dst = Ok ms /\ b_size mv = b_size (p_buf dst) /\ b_size ms = b_size (p_buf dst) /\
    same (imageOf k (mkPl (p_stride dst) mv) w h) (imageOf k (mkPl (p_stride dst) ms) w h).
Proof. exact order_agree. Qed.
Print Assumptions C87_order_filters.
Example C87_order_filters_ex :
  map (sampleIn 1 5 16 (obind (genericCreate OpMaximum (clipOf gray8) plain) (fun d =>
     kernelV sse2 OpMaximum 1 (gd_params d) (rowPlane 16 (fun a => 10 * a)) 5 1 (rowPlane 16 (fun _ => 0))))) [0; 1; 3; 4] = [Ok 10; Ok 20; Ok 40; Ok 40].
Proof. vm_compute. reflexivity. Qed.

Theorem C87_vector_kernels_partial : forall B op vi a d t0 src w h dst, known B -> fmt_valid (vi_fmt vi) -> genericCreate op vi a = Ok d ->
  let k := f_bytes (vi_fmt vi) in let p := gd_params d in
  opV B op k p <> None -> 1 <= w < 2 ^ 31 -> 1 <= h < 2 ^ 31 ->
  wfPlane k src w h -> wfPlane k dst w h -> aligned B src -> aligned B dst -> within k (2 ^ f_bits (vi_fmt vi) - 1) src w h -> mild op p ->
  exists mv ms, kernelV B op k p src w h dst = Ok mv /\ kernelOf op k p t0 src w h dst = Ok ms /\ b_size mv = b_size (p_buf dst) /\ b_size ms = b_size (p_buf dst) /\
    same (imageOf k (mkPl (p_stride dst) mv) w h) (imageOf k (mkPl (p_stride dst) ms) w h).
Proof. exact kernels_mild. Qed.
Print Assumptions C87_vector_kernels_partial.
Example C87_vector_kernels_ex :
  map (sampleIn 2 20 64 (obind (genericCreate OpSobel (clipOf gray10) (scaled 1)) (fun d =>
     kernelV avx2 OpSobel 2 (gd_params d) (rowPlane 64 (fun a => if Z.even a then a else 0)) 20 1 (rowPlane 64 (fun _ => 0))))) [0; 1; 15; 16; 19] =
    [Ok 8; Ok 16; Ok 16; Ok 16; Ok 8].
Proof. vm_compute. reflexivity. Qed.

(** Whatever the parameters, the pictures agree when every gradient or sum stays in range. *)
Theorem C87_quiet_pictures_partial : forall B op vi a d t0 src w h dst, known B -> fmt_valid (vi_fmt vi) -> genericCreate op vi a = Ok d ->
  let k := f_bytes (vi_fmt vi) in let p := gd_params d in
  opV B op k p <> None -> 1 <= w < 2 ^ 31 -> 1 <= h < 2 ^ 31 ->
  wfPlane k src w h -> wfPlane k dst w h -> aligned B src -> aligned B dst -> within k (2 ^ f_bits (vi_fmt vi) - 1) src w h ->
  (forall x y, 0 <= x < w -> 0 <= y < h -> quiet op p (around (imageOf k src w h) x y)) ->
  exists mv ms, kernelV B op k p src w h dst = Ok mv /\ kernelOf op k p t0 src w h dst = Ok ms /\ b_size mv = b_size (p_buf dst) /\ b_size ms = b_size (p_buf dst) /\
    same (imageOf k (mkPl (p_stride dst) mv) w h) (imageOf k (mkPl (p_stride dst) ms) w h).
Proof. exact kernels_agree. Qed.
Print Assumptions C87_quiet_pictures_partial.

(** The driver alone: every sample is the lane operation applied to its neighbourhood. *)
Theorem C87_driver : forall B k src w h, known B -> smallk k -> 1 <= w < 2 ^ 31 -> 1 <= h < 2 ^ 31 -> wfPlane k src w h -> p_stride src mod (lanes B k * k) = 0 ->
  forall op L dst, laneWise (nlanes B k) op L -> wfPlane k dst w h -> p_stride dst mod (lanes B k * k) = 0 ->
  (forall x y, 0 <= x < w -> 0 <= y < h -> 0 <= L (around (imageOf k src w h) x y) < 256 ^ k) ->
  exists m, filterV B k op src w h dst = Ok m /\ b_size m = b_size (p_buf dst) /\
    same (imageOf k (mkPl (p_stride dst) m) w h) (local L (imageOf k src w h)).
Proof. exact filterV_spec. Qed.
Print Assumptions C87_driver.

Theorem C87_scale_refuted : forall B, known B -> differ B OpSobel gray8 (scaled 4000000) (stepRow 1 64) 0 255.
Proof. exact sobel_byte_differs. Qed.
Print Assumptions C87_scale_refuted.

Theorem C87_word_scale_refuted : forall B, B = avx2 \/ B = avx512 -> differ B OpSobel gray16 (scaled 10000) (stepRow 2 64) 0 65535.
Proof. exact sobel_word_differs. Qed.
Print Assumptions C87_word_scale_refuted.
Example C87_word_scale_sse2 : differ sse2 OpSobel gray16 (scaled 10000) (stepRow 2 64) 65535 65535.
Proof. exact sobel_word_sse2. Qed.

Theorem C87_divisor_refuted : forall B, known B -> differ B (OpConv CSquare) gray8 tiny (stepRow 1 64) 0 255.
Proof. exact conv_byte_differs. Qed.
Print Assumptions C87_divisor_refuted.

Theorem C87_samples_refuted : differ sse2 OpMedian gray10 plain highRow 2000 1023.
Proof. exact high_differs. Qed.
Print Assumptions C87_samples_refuted.
