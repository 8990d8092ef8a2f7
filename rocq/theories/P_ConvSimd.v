(** Property C94: the x86 vector kernels of the horizontal, vertical and separable convolutions and
    the scalar ones. *)
From Coq Require Import ZArith List Lia Bool.
From Coq Require Import SpecFloat.
From Verif Require Import Common FormatSpec Format Frame FrameFacts ImageSpec PlaneMem Spatial SpatialLemmas PixelSpec Pixel Lut LutFrames LutFacts Soft SoftNum SoftLe GenericSpec Generic GenericOps GenericPlanes GenericFrames Simd
  GenericSimd GenericSimdLanes GenericSimdFloat GenericSimdOps GenericSimdPlanes SquareSimd SquareSimdFacts ConvSimd ConvSimdLanes ConvSimdScan ConvSimdPlanes ConvSimdFacts.
Import Soft ListNotations.
Open Scope Z_scope.

(** Every column of every row is the vector code's reading of its sum, and neither the planes nor
    the padded rows nor the accumulators are read or written outside. *)
Theorem C94_pictures : forall B t k g sc src w h dst, known B -> t <> CSquare -> ready1 k g -> checkPlaneDims (OpConv t) (g_size g) w h = true -> roomy B t g w -> goodScratch sc ->
  1 <= w < 2 ^ 31 -> 1 <= h < 2 ^ 31 -> wfPlane k src w h -> wfPlane k dst w h -> aligned B src -> aligned B dst -> byteBuf src ->
  exists m, convKernel B t k g sc src w h dst = Ok m /\ b_size m = b_size (p_buf dst) /\
    same (imageOf k (mkPl (p_stride dst) m) w h) (convImage t (vfin B k g) (g_matrix g) (imageOf k src w h)).
Proof. exact kernel_pictures. Qed.
Print Assumptions C94_pictures.
Example C94_pictures_ex : ran sse2 CHorizontal gray16 (conv (map (fun i => i mod 5 - 1) (zseq 15)) None None) 33 4 80 [(0, 0); (5, 2); (32, 3)] = (Ok [775; 942; 815], Ok [775; 942; 815]).
Proof. vm_compute. reflexivity. Qed.

(** The separable kernel runs exactly when the vectors that cover a row and its taps end inside
    the row buffer. *)
Theorem C94_room : forall B vi a d sc src w h dst, known B -> fmt_valid (vi_fmt vi) -> genericCreate (OpConv CSeparable) vi a = Ok d -> divisorOk (ga_divisor a) ->
  let k := f_bytes (vi_fmt vi) in let p := gd_params d in
  checkPlaneDims (OpConv CSeparable) (g_size p) w h = true -> goodScratch sc ->
  1 <= w < 2 ^ 31 -> 1 <= h < 2 ^ 31 -> wfPlane k src w h -> wfPlane k dst w h -> aligned B src -> aligned B dst -> byteBuf src ->
  (exists m, convKernel B CSeparable k p sc src w h dst = Ok m) <-> roomy B CSeparable p w.
Proof. exact separable_room. Qed.
Print Assumptions C94_room.

Theorem C94_always_room : forall B t k g w, B = sse2 \/ B = avx2 \/ B = avx512 /\ (w mod 32 = 0 \/ 12 <= w mod 32) -> ready1 k g -> 1 <= w -> roomy B t g w.
Proof. exact room_narrow. Qed.
Print Assumptions C94_always_room.

Theorem C94_past_the_row_refuted : forall vi a d sc src w h dst, fmt_valid (vi_fmt vi) -> genericCreate (OpConv CSeparable) vi a = Ok d -> divisorOk (ga_divisor a) ->
  let k := f_bytes (vi_fmt vi) in let p := gd_params d in
  checkPlaneDims (OpConv CSeparable) (g_size p) w h = true -> goodScratch sc ->
  1 <= w < 2 ^ 31 -> 1 <= h < 2 ^ 31 -> wfPlane k src w h -> wfPlane k dst w h -> aligned avx512 src -> aligned avx512 dst -> byteBuf src ->
  w mod 32 = 1 -> forall m, convKernel avx512 CSeparable k p sc src w h dst <> Ok m.
Proof. exact no_room. Qed.
Print Assumptions C94_past_the_row_refuted.
Example C94_past_the_row_ex : ran avx512 CSeparable gray8 (conv [1; 2; 1] None None) 33 4 64 [(0, 0); (5, 2); (32, 3)] = (UB, Ok [16; 133; 208]) /\
  ran avx512 CSeparable gray8 (conv [1; 2; 1] None None) 34 4 64 [(0, 0); (5, 2); (32, 3)] = (Ok [16; 133; 208], Ok [16; 133; 208]).
Proof. split; vm_compute; reflexivity. Qed.

Theorem C94_sums_partial : forall B t vi a d sc t0 src w h dst, known B -> t <> CSquare -> fmt_valid (vi_fmt vi) -> genericCreate (OpConv t) vi a = Ok d -> divisorOk (ga_divisor a) ->
  let k := f_bytes (vi_fmt vi) in let p := gd_params d in
  checkPlaneDims (OpConv t) (g_size p) w h = true -> roomy B t p w -> goodScratch sc ->
  1 <= w < 2 ^ 31 -> 1 <= h < 2 ^ 31 -> wfPlane k src w h -> wfPlane k dst w h -> aligned B src -> aligned B dst -> byteBuf src ->
  (forall F, finishes k p F -> allSums t (fun v => Z.min (F v) (g_maxval p)) (g_matrix p) (imageOf k src w h) (quiet B p)) ->
  equalPictures B t k p sc t0 src w h dst.
Proof. exact kernels_quiet. Qed.
Print Assumptions C94_sums_partial.

(** No bias and a divisor not below one: all formats, all matrices. *)
Theorem C94_no_bias_partial : forall B t vi a d sc t0 src w h dst, known B -> t <> CSquare -> fmt_valid (vi_fmt vi) -> genericCreate (OpConv t) vi a = Ok d -> divisorOk (ga_divisor a) -> ga_bias a = None ->
  let k := f_bytes (vi_fmt vi) in let p := gd_params d in
  canon (g_div p) -> magLe (2 ^ 23) (-23) (g_div p) ->
  checkPlaneDims (OpConv t) (g_size p) w h = true -> roomy B t p w -> goodScratch sc ->
  1 <= w < 2 ^ 31 -> 1 <= h < 2 ^ 31 -> wfPlane k src w h -> wfPlane k dst w h -> aligned B src -> aligned B dst -> byteBuf src -> within k (g_maxval p) src w h ->
  equalPictures B t k p sc t0 src w h dst.
Proof. exact kernels_no_bias. Qed.
Print Assumptions C94_no_bias_partial.
Example C94_no_bias_ex : ran avx512 CVertical gray16 (conv (map (fun i => i mod 5 - 1) (zseq 5)) None None) 33 4 128 [(0, 0); (5, 2); (32, 3)] = (Ok [797; 912; 889], Ok [797; 912; 889]).
Proof. vm_compute. reflexivity. Qed.

(** SSE2 rounds as the scalar code does: a bias of at most 2^28 changes nothing. *)
Theorem C94_sse2_partial : forall t vi a d sc t0 src w h dst, t <> CSquare -> fmt_valid (vi_fmt vi) -> genericCreate (OpConv t) vi a = Ok d -> divisorOk (ga_divisor a) ->
  let k := f_bytes (vi_fmt vi) in let p := gd_params d in
  canon (g_div p) -> magLe (2 ^ 23) (-23) (g_div p) -> canon (g_bias p) -> magLe (2 ^ 23) 5 (g_bias p) ->
  checkPlaneDims (OpConv t) (g_size p) w h = true -> goodScratch sc ->
  1 <= w < 2 ^ 31 -> 1 <= h < 2 ^ 31 -> wfPlane k src w h -> wfPlane k dst w h -> aligned sse2 src -> aligned sse2 dst -> byteBuf src -> within k (g_maxval p) src w h ->
  equalPictures sse2 t k p sc t0 src w h dst.
Proof. exact kernels_sse2. Qed.
Print Assumptions C94_sse2_partial.
Example C94_sse2_ex : ran sse2 CHorizontal gray8 half3 20 4 32 [(3, 0); (7, 0); (19, 3)] = (Ok [0; 172; 255], Ok [0; 172; 255]).
Proof. vm_compute. reflexivity. Qed.

(** A bias of at most 2^29, a divisor that is a power of two, sums below 2^24. *)
Theorem C94_power_of_two_partial : forall B t vi a d sc t0 src w h dst j, known B -> t <> CSquare -> fmt_valid (vi_fmt vi) -> genericCreate (OpConv t) vi a = Ok d -> divisorOk (ga_divisor a) ->
  let k := f_bytes (vi_fmt vi) in let p := gd_params d in
  -60 <= j <= 60 -> g_div p = of32 1 j \/ g_div p = SFopp (of32 1 j) -> canon (g_div p) -> magLe (2 ^ 23) (-23) (g_div p) -> canon (g_bias p) -> magLe (2 ^ 23) 6 (g_bias p) ->
  g_size p * (1023 * g_maxval p) < 2 ^ 24 ->
  checkPlaneDims (OpConv t) (g_size p) w h = true -> roomy B t p w -> goodScratch sc ->
  1 <= w < 2 ^ 31 -> 1 <= h < 2 ^ 31 -> wfPlane k src w h -> wfPlane k dst w h -> aligned B src -> aligned B dst -> byteBuf src -> within k (g_maxval p) src w h ->
  equalPictures B t k p sc t0 src w h dst.
Proof. exact kernels_pow2_1d. Qed.
Print Assumptions C94_power_of_two_partial.
Example C94_power_of_two_ex : ran avx2 CSeparable gray8 (conv [1; 2; 1] (Some (num 10)) (Some (num 4))) 20 4 32 [(3, 0); (7, 2); (19, 3)] = (Ok [31; 91; 127], Ok [31; 91; 127]).
Proof. vm_compute. reflexivity. Qed.

Theorem C94_fused_refuted : forall B t, B = avx2 \/ B = avx512 -> t = CHorizontal \/ t = CVertical -> parts B t gray8 3 half3 1 0.
Proof. exact half3_differs. Qed.
Print Assumptions C94_fused_refuted.

Theorem C94_conversion_refuted : forall B t, known B -> t = CHorizontal \/ t = CVertical -> parts B t gray8 255 loud3 0 255.
Proof. exact loud3_differs. Qed.
Print Assumptions C94_conversion_refuted.
