(** Properties C38 to C41, C75 and C76: single sample and neighbourhood filters. *)
From Coq Require Import ZArith List Lia Bool.
From Coq Require Import SpecFloat.
From Verif Require Import Common FormatSpec Format Frame FrameSpec FrameGeom ImageSpec PlaneMem Spatial SpatialLemmas SpatialStack SpatialFacts FrameFacts.
From Verif Require Import PixelSpec Pixel PixelLemmas Lut LutLemmas LutFrames LutFacts.
From Verif Require Import Soft SoftLemmas SoftBounds GenericCast SoftNum GenericSpec Generic GenericLemmas GenericMedian GenericOps GenericPlanes GenericFloat GenericFrames
  GenericSingle GenericLevels GenericFacts.
Import ListNotations.
Open Scope Z_scope.

(** ** C38 *)

Theorem C38_invert_frame : forall al g planes process src, alignment al -> wfFrame al src -> byteFrame src ->
  Forall (fun o => in_int o) planes -> templateInit (vf_fmt src) planes = Ok process ->
  exists r, invertGetFrame al g process src = Ok r /\ wfFrame al r /\ vf_fmt r = vf_fmt src /\ vf_w r = vf_w src /\ vf_h r = vf_h src /\
    vf_props r = vf_props src /\
    planesMap (fun i a => if chosen planes i then mapped (inverted (f_bits (vf_fmt src))) a else a) src r.
Proof. exact invert_frame. Qed.
Print Assumptions C38_invert_frame.
Definition row8 : vframe := drawn 32 gray8 4 2 (fun _ x y => 60 * x + y).
Example C38_invert_frame_ex : sampleOf (obind (templateInit gray8 []) (fun p => invertGetFrame 32 (fun _ _ => 9) p row8)) 0 3 1 = Ok 74 /\
  sampleOf (obind (templateInit gray10 []) (fun p => invertGetFrame 32 (fun _ _ => 9) p (drawn 32 gray10 4 2 (fun _ x _ => x)))) 0 3 1 = Ok 1020.
Proof. split; vm_compute; reflexivity. Qed.

Theorem C38_invert_involution : forall bits v, 0 <= bits -> 0 <= v <= top bits -> inverted bits (inverted bits v) = v.
Proof. exact inverted_involutive. Qed.
Print Assumptions C38_invert_involution.
Example C38_invert_involution_ex : inverted 10 (inverted 10 1000) = 1000 /\ inverted 10 (inverted 10 2000) <> 2000.
Proof. vm_compute. split; [reflexivity | discriminate]. Qed.

Theorem C38_invert_range : forall bits v, 0 <= v -> 0 <= inverted bits v <= top bits \/ top bits < 0.
Proof. exact inverted_range. Qed.
Print Assumptions C38_invert_range.

Theorem C38_invert_chroma_floats : forall v, invertF (invertF v) = v.
Proof. exact invertF_involutive. Qed.
Print Assumptions C38_invert_chroma_floats.

Theorem C38_invert_chroma_halves : forall v, 0 <= v < 65536 -> invertH (invertH v) = v /\ 0 <= invertH v < 65536.
Proof. exact invertH_involutive. Qed.
Print Assumptions C38_invert_chroma_halves.
Example C38_invert_chroma_halves_ex : invertH 15360 = 48128.
Proof. reflexivity. Qed.

Theorem C38_limiter_frame : forall al g planes mins maxs d src, alignment al -> wfFrame al src -> byteFrame src ->
  Forall (fun o => in_int o) planes -> limitCreate (vf_fmt src) planes mins maxs = Ok d ->
  exists LO HI r, (forall i, 0 <= i < 3 -> 0 <= LO i <= HI i /\ HI i <= top (f_bits (vf_fmt src)) /\
      argIs (f_bits (vf_fmt src)) RangeLower mins i (LO i) /\ argIs (f_bits (vf_fmt src)) RangeUpper maxs i (HI i)) /\
    limitGetFrame al g d src = Ok r /\ wfFrame al r /\ vf_fmt r = vf_fmt src /\ vf_w r = vf_w src /\ vf_h r = vf_h src /\
    vf_props r = vf_props src /\ planesMap (fun i a => if chosen planes i then mapped (limited (LO i) (HI i)) a else a) src r.
Proof. exact limit_frame. Qed.
Print Assumptions C38_limiter_frame.
Example C38_limiter_frame_ex :
  sampleOf (obind (limitCreate gray8 [] [num 16] [num 100]) (fun d => limitGetFrame 32 (fun _ _ => 9) d row8)) 0 3 1 = Ok 100 /\
  sampleOf (obind (limitCreate gray8 [] [num 16] [num 100]) (fun d => limitGetFrame 32 (fun _ _ => 9) d row8)) 0 0 1 = Ok 16.
Proof. split; vm_compute; reflexivity. Qed.

Theorem C38_limiter_accepts_integers : forall f planes process mins maxs, fmt_valid f -> templateInit f planes = Ok process ->
  Forall (fun o => in_int o) planes -> zlength mins <= f_np f -> zlength maxs <= f_np f ->
  Forall (fun x => 0 <= x < 2 ^ f_bits f) mins -> Forall (fun x => 0 <= x < 2 ^ f_bits f) maxs ->
  let lo := spread 0 mins in let hi := spread (top (f_bits f)) maxs in
  (forall i, 0 <= i < 3 -> lo i <= hi i) ->
  limitCreate f planes (map num mins) (map num maxs) = Ok (mkLim process (map lo [0; 1; 2]) (map hi [0; 1; 2])).
Proof. exact limit_accepts. Qed.
Print Assumptions C38_limiter_accepts_integers.
Example C38_limiter_accepts_integers_ex : map (spread 0 [16; 20]) [0; 1; 2] = [16; 20; 20] /\ limitCreate gray8 [] [num 100] [num 16] = Err.
Proof. split; vm_compute; reflexivity. Qed.

Theorem C38_limiter_idempotent : forall lo hi v, lo <= hi -> limited lo hi (limited lo hi v) = limited lo hi v.
Proof. exact limited_idempotent. Qed.
Print Assumptions C38_limiter_idempotent.
Theorem C38_limiter_range : forall lo hi v, lo <= hi -> lo <= limited lo hi v <= hi.
Proof. exact limited_range. Qed.
Print Assumptions C38_limiter_range.
Theorem C38_limiter_inside : forall lo hi v, lo <= v <= hi -> limited lo hi v = v.
Proof. exact limited_inside. Qed.
Print Assumptions C38_limiter_inside.

Theorem C38_limiter_floats : forall lo hi v, SFltb hi lo = false -> SFltb hi (limitF lo hi v) = false /\ SFltb (limitF lo hi v) lo = false.
Proof. exact limitF_range. Qed.
Print Assumptions C38_limiter_floats.
Theorem C38_limiter_floats_idempotent : forall lo hi v, SFltb hi lo = false -> limitF lo hi (limitF lo hi v) = limitF lo hi v.
Proof. exact limitF_idempotent. Qed.
Print Assumptions C38_limiter_floats_idempotent.
Example C38_limiter_floats_ex : limitF (of32 0 0) (of32 1 0) (of32 5 (-1)) = of32 1 0 /\ limitF (of32 0 0) (of32 1 0) S754_nan = of32 0 0.
Proof. split; vm_compute; reflexivity. Qed.

Theorem C38_binarize_frame : forall al g planes v0 v1 thr d src, alignment al -> wfFrame al src -> byteFrame src ->
  Forall (fun o => in_int o) planes -> binarizeCreate (vf_fmt src) planes v0 v1 thr = Ok d ->
  exists A B T r, (forall i, 0 <= i < 3 -> 0 <= A i <= top (f_bits (vf_fmt src)) /\ 0 <= B i <= top (f_bits (vf_fmt src)) /\
      argIs (f_bits (vf_fmt src)) RangeLower v0 i (A i) /\ argIs (f_bits (vf_fmt src)) RangeUpper v1 i (B i) /\
      argIs (f_bits (vf_fmt src)) RangeMiddle thr i (T i)) /\
    binarizeGetFrame al g d src = Ok r /\ wfFrame al r /\ vf_fmt r = vf_fmt src /\ vf_w r = vf_w src /\ vf_h r = vf_h src /\
    vf_props r = vf_props src /\ planesMap (fun i a => if chosen planes i then mapped (binarized (T i) (A i) (B i)) a else a) src r.
Proof. exact binarize_frame. Qed.
Print Assumptions C38_binarize_frame.
Example C38_binarize_frame_ex :
  sampleOf (obind (binarizeCreate gray8 [] [num 7] [] [num 120]) (fun d => binarizeGetFrame 32 (fun _ _ => 9) d row8)) 0 1 1 = Ok 7 /\
  sampleOf (obind (binarizeCreate gray8 [] [num 7] [] [num 120]) (fun d => binarizeGetFrame 32 (fun _ _ => 9) d row8)) 0 2 0 = Ok 255.
Proof. split; vm_compute; reflexivity. Qed.

Theorem C38_binarize_accepts_integers : forall f planes process v0 v1 thr, fmt_valid f -> templateInit f planes = Ok process ->
  Forall (fun o => in_int o) planes -> zlength v0 <= f_np f -> zlength v1 <= f_np f -> zlength thr <= f_np f ->
  Forall (fun x => 0 <= x < 2 ^ f_bits f) v0 -> Forall (fun x => 0 <= x < 2 ^ f_bits f) v1 -> Forall (fun x => 0 <= x < 2 ^ f_bits f) thr ->
  binarizeCreate f planes (map num v0) (map num v1) (map num thr) =
  Ok (mkBin process (map (spread 0 v0) [0; 1; 2]) (map (spread (top (f_bits f)) v1) [0; 1; 2]) (map (spread (2 ^ f_bits f / 2) thr) [0; 1; 2])).
Proof. exact binarize_accepts. Qed.
Print Assumptions C38_binarize_accepts_integers.

Theorem C38_binarize_two_values : forall thr v0 v1 v, binarized thr v0 v1 v = v0 \/ binarized thr v0 v1 v = v1.
Proof. exact binarized_two. Qed.
Print Assumptions C38_binarize_two_values.
Theorem C38_binarize_two_floats : forall v0 v1 thr v, binarizeF v0 v1 thr v = v0 \/ binarizeF v0 v1 thr v = v1.
Proof. exact binarizeF_two. Qed.
Print Assumptions C38_binarize_two_floats.

Theorem C38_out_of_range_accepted_refuted : rangeArgs gray8 RangeLower [of64 (-5) (-2)] = Ok [0; 0; 0].
Proof. exact range_below_accepted. Qed.
Print Assumptions C38_out_of_range_accepted_refuted.
Theorem C38_nan_argument_refuted : limitCreate gray8 [] [S754_nan] [] = UB.
Proof. exact range_nan. Qed.
Print Assumptions C38_nan_argument_refuted.
Theorem C38_huge_argument_refuted : limitCreate gray8 [] [of64 1 63] [] = UB.
Proof. exact range_huge. Qed.
Print Assumptions C38_huge_argument_refuted.

(** ** C39 *)

Theorem C39_median_order : forall T (lt : T -> T -> bool), (forall x, lt x x = false) ->
  (forall x y z, lt x y = false -> lt y z = false -> lt x z = false) -> (forall x y, lt x y = true -> lt y x = false) ->
  forall a1 a2 a3 a4 a5 a6 a7 a8 a9,
  let l := [a1; a2; a3; a4; a5; a6; a7; a8; a9] in let m := median9 lt a1 a2 a3 a4 a5 a6 a7 a8 a9 in
  In m l /\ count (fun x => lt x m) l <= 4 /\ count (fun x => lt m x) l <= 4.
Proof. exact median_order. Qed.
Print Assumptions C39_median_order.
Example C39_median_order_ex : median9 Z.ltb 9 1 8 2 7 3 6 4 5 = 5.
Proof. reflexivity. Qed.

Theorem C39_median_fifth : forall l, zlength l = 9 -> medianOp l = Ok (fifth l).
Proof. exact medianOp_spec. Qed.
Print Assumptions C39_median_fifth.
Example C39_median_fifth_ex : fifth [9; 1; 8; 2; 7; 3; 6; 4; 5] = 5 /\ fifth [1; 1; 1; 1; 2; 2; 2; 2; 2] = 2.
Proof. split; reflexivity. Qed.

Theorem C39_median_frame : forall vi a d al g t0 src, Forall (fun o => in_int o) (ga_planes a) -> goodSource al vi src ->
  genericCreate OpMedian vi a = Ok d -> fitting OpMedian a d src ->
  exists r, genericGetFrame al g t0 d src = Ok r /\
    filtered al (ga_planes a) (local (fun l => legal (f_bits (vi_fmt vi)) (fifth l))) src r.
Proof. exact median_frame. Qed.
Print Assumptions C39_median_frame.
Definition spots : vframe := drawn 32 gray8 5 4 (fun _ x y => (37 * x + 91 * y * y + x * y * 53) mod 256).
Definition run (op : gop) (a : gargs) (src : vframe) (x y : Z) : outcome Z :=
  sampleOf (obind (genericCreate op (viOf (vf_fmt src) (vf_w src) (vf_h src)) a) (fun d => genericGetFrame 32 (fun _ _ => 9) (fun _ => 77) d src)) 0 x y.
Example C39_median_frame_ex : run OpMedian noArgs spots 2 2 = Ok 138 /\ run OpMedian noArgs spots 0 0 = Ok 37 /\ run OpMedian noArgs spots 4 3 = Ok 67.
Proof. split; [|split]; vm_compute; reflexivity. Qed.

(** ** C40 *)

Theorem C40_extremum_frame : forall (mx : bool) vi a d al g t0 src, Forall (fun o => in_int o) (ga_planes a) -> goodSource al vi src ->
  let op := if mx then OpMaximum else OpMinimum in
  genericCreate op vi a = Ok d -> fitting op a d src ->
  exists th r, thresholdOf (f_bits (vi_fmt vi)) (ga_threshold a) = Ok th /\ 0 <= th <= top (f_bits (vi_fmt vi)) /\
    genericGetFrame al g t0 d src = Ok r /\
    filtered al (ga_planes a) (local (fun l => legal (f_bits (vi_fmt vi)) ((if mx then maximumOf else minimumOf) (maskGiven a) th l))) src r.
Proof. exact extremum_frame. Qed.
Print Assumptions C40_extremum_frame.
Definition across : gargs := mkGA [] (Some (num 30)) (Some [0; 0; 0; 1; 1; 0; 0; 0]) None [] None None None None.
Example C40_extremum_frame_ex : run OpMaximum noArgs spots 2 2 = Ok 251 /\ run OpMinimum noArgs spots 2 2 = Ok 15 /\ run OpMaximum across spots 2 1 = Ok 45.
Proof. split; [|split]; vm_compute; reflexivity. Qed.

Theorem C40_maximum_value : forall mask th l, 0 <= th -> let m := maximumOf mask th l in
  centre l <= m <= centre l + th /\
  (m = centre l + th \/ m = centre l \/ In m (picked mask (neighbours l))) /\
  (forall v, In v (picked mask (neighbours l)) -> v <= m \/ m = centre l + th).
Proof. exact maximum_value. Qed.
Print Assumptions C40_maximum_value.
Example C40_maximum_value_ex : maximumOf (repeat true 8) 10 [1; 2; 3; 4; 5; 6; 7; 8; 9] = 9 /\ maximumOf (repeat true 8) 2 [1; 2; 3; 4; 5; 6; 7; 8; 9] = 7.
Proof. split; reflexivity. Qed.
Theorem C40_minimum_value : forall mask th l, 0 <= th -> let m := minimumOf mask th l in
  centre l - th <= m <= centre l /\
  (m = centre l - th \/ m = centre l \/ In m (picked mask (neighbours l))) /\
  (forall v, In v (picked mask (neighbours l)) -> m <= v \/ m = centre l - th).
Proof. exact minimum_value. Qed.
Print Assumptions C40_minimum_value.

Theorem C40_minimum_dual : forall mask th t l, zlength l = 9 ->
  minimumOf mask th (map (fun v => t - v) l) = t - maximumOf mask th l.
Proof. exact minimum_dual. Qed.
Print Assumptions C40_minimum_dual.
Example C40_minimum_dual_ex : minimumOf (repeat true 8) 255 (map (fun v => 255 - v) [1; 2; 3; 4; 5; 6; 7; 8; 9]) = 246.
Proof. reflexivity. Qed.

Theorem C40_flate_frame : forall (inflate : bool) vi a d al g t0 src, Forall (fun o => in_int o) (ga_planes a) -> goodSource al vi src ->
  let op := if inflate then OpInflate else OpDeflate in
  genericCreate op vi a = Ok d -> fitting op a d src ->
  exists th r, thresholdOf (f_bits (vi_fmt vi)) (ga_threshold a) = Ok th /\ 0 <= th <= top (f_bits (vi_fmt vi)) /\
    genericGetFrame al g t0 d src = Ok r /\
    filtered al (ga_planes a) (local (fun l => legal (f_bits (vi_fmt vi)) ((if inflate then inflateOf else deflateOf) th l))) src r.
Proof. exact flate_frame. Qed.
Print Assumptions C40_flate_frame.
Example C40_flate_frame_ex : run OpInflate noArgs spots 2 1 = Ok 115 /\ run OpDeflate noArgs spots 2 2 = Ok 138.
Proof. split; vm_compute; reflexivity. Qed.

Theorem C40_flate_value : forall th l, 0 <= th ->
  centre l <= inflateOf th l <= centre l + th /\ centre l - th <= deflateOf th l <= centre l /\
  (centre l <= mean8 l <= centre l + th -> inflateOf th l = mean8 l) /\ (mean8 l <= centre l -> inflateOf th l = centre l) /\
  (centre l - th <= mean8 l <= centre l -> deflateOf th l = mean8 l) /\ (centre l <= mean8 l -> deflateOf th l = centre l).
Proof. exact flate_value. Qed.
Print Assumptions C40_flate_value.
Example C40_flate_value_ex : mean8 [1; 2; 3; 4; 0; 6; 7; 8; 9] = 5 /\ inflateOf 3 [1; 2; 3; 4; 0; 6; 7; 8; 9] = 3.
Proof. split; reflexivity. Qed.

Theorem C40_results_legal : forall bits th l, zlength l = 9 -> Forall (fun v => 0 <= v <= top bits) l -> 0 <= th ->
  (forall mask, 0 <= minimumOf mask th l <= top bits /\ 0 <= maximumOf mask th l <= top bits) /\
  0 <= inflateOf th l <= top bits /\ 0 <= deflateOf th l <= top bits /\ 0 <= fifth l <= top bits.
Proof. exact local_legal. Qed.
Print Assumptions C40_results_legal.

Theorem C40_threshold_exact : forall bits v, 8 <= bits <= 16 -> 0 <= v < 2 ^ bits -> thresholdOf bits (Some (num v)) = Ok v.
Proof. exact threshold_num. Qed.
Print Assumptions C40_threshold_exact.
Example C40_threshold_exact_ex : thresholdOf 8 (Some (num 256)) = Err /\ thresholdOf 8 (Some (num (-1))) = Err /\ thresholdOf 8 None = Ok 255.
Proof. vm_compute. auto. Qed.

Theorem C40_small_planes_refused : forall op vi a d al g t0 src, fmt_valid (vi_fmt vi) -> Forall (fun o => in_int o) (ga_planes a) ->
  genericCreate op vi a = Ok d -> wfFrame al src -> belongs src vi ->
  fitsDims op (g_size (gd_params d)) (chosen (ga_planes a)) (vf_fmt src) (vf_w src) (vf_h src) \/ genericGetFrame al g t0 d src = Err.
Proof. exact generic_small. Qed.
Print Assumptions C40_small_planes_refused.
Example C40_small_planes_refused_ex : genericCreate OpMaximum (viOf gray8 3 9) noArgs = Err.
Proof. vm_compute. reflexivity. Qed.

(** ** C41 *)

Theorem C41_convolution_frame : forall t vi a d al g t0 src, Forall (fun o => in_int o) (ga_planes a) -> goodSource al vi src ->
  genericCreate (OpConv t) vi a = Ok d -> fitting (OpConv t) a d src -> divisorOk (ga_divisor a) ->
  let p := gd_params d in
  exists m F r, coefsOf (ga_matrix a) = Ok m /\ finishes (f_bytes (vi_fmt vi)) p F /\
    genericGetFrame al g t0 d src = Ok r /\
    filtered al (ga_planes a)
      (let fin := fun s => legal (f_bits (vi_fmt vi)) (F s) in
       match t with
       | CSquare => weighed fin (square (Z.sqrt (zlength m)) m)
       | CHorizontal => weighed fin (horizontal m)
       | CVertical => weighed fin (vertical m)
       | CSeparable => fun x => weighed fin (horizontal m) (weighed fin (vertical m) x)
       end) src r.
Proof. exact convolution_frame. Qed.
Print Assumptions C41_convolution_frame.
Example C41_convolution_frame_ex :
  run (OpConv CSquare) (conv3 [1; 2; 1; 2; 4; 2; 1; 2; 1] None) spots 2 2 = Ok 136 /\
  run (OpConv CHorizontal) (conv3 [1; 2; 3; 4; 5; 6; 7] None) spots 1 2 = Ok 136 /\
  run (OpConv CVertical) (conv3 [1; 0; -1] (Some (num 1))) spots 1 2 = Ok 0 /\
  run (OpConv CSeparable) (conv3 [1; 2; 1] None) spots 2 2 = Ok 136.
Proof. split; [|split; [|split]]; vm_compute; reflexivity. Qed.

Theorem C41_exact_without_division : forall k g F s, smallk k -> finishes k g F -> g_div g = of32 1 0 -> g_bias g = of32 0 0 -> Z.abs s < 2 ^ 24 ->
  F s = Z.min (256 ^ k - 1) (Z.max 0 (if g_sat g then s else Z.abs s)).
Proof. exact convolution_exact. Qed.
Print Assumptions C41_exact_without_division.
Example C41_exact_without_division_ex : finish 1 (mkGP 255 (of32 0 0) 0 0 [] (of32 1 0) (of32 0 0) false) (-77) = Ok 77.
Proof. vm_compute. reflexivity. Qed.

Theorem C41_square_columns_once : forall k n g src w h i, 1 <= n -> 0 <= w -> columns (segsSquare k n g src w h i) = zseq w.
Proof. exact segsSquare_columns. Qed.
Print Assumptions C41_square_columns_once.
Theorem C41_horizontal_columns_once : forall k g w row, 0 <= w -> columns (segsH k g w row) = zseq w.
Proof. exact segsH_columns. Qed.
Print Assumptions C41_horizontal_columns_once.
Theorem C41_vertical_columns_once : forall k g src w h y, columns (segsV k g src w h y) = zseq w.
Proof. exact segsV_columns. Qed.
Print Assumptions C41_vertical_columns_once.
Theorem C41_3x3_columns_once : forall k maxval op src w h i, 1 <= w < 2 ^ 32 -> columns (segs3x3 k maxval op src w h i) = zseq w.
Proof. exact segs3x3_columns. Qed.
Print Assumptions C41_3x3_columns_once.
Example C41_columns_once_ex : columns (segsSquare 1 9 (mkGP 255 (of32 0 0) 0 0 [] (of32 1 0) (of32 0 0) false) (mkPl 32 (mkB 0 (fun _ => 0))) 40 5 0) = zseq 40.
Proof. reflexivity. Qed.

Theorem C41_accumulation_exact : forall (wide : bool) M k l, 0 <= M -> smallk k -> M < 256 ^ k -> cells M l -> zlength l <= 121 ->
  (if wide then True else k = 1 \/ zlength l <= 25) ->
  dot wide l = Ok (sumL (map (fun cv : Z * Z => fst cv * snd cv) l)) /\ Z.abs (sumL (map (fun cv : Z * Z => fst cv * snd cv) l)) < 2 ^ 40.
Proof. exact dot_cells. Qed.
Print Assumptions C41_accumulation_exact.
Example C41_accumulation_exact_ex : dot false (repeat (1023, 65535) 25) = Ok 1676057625 /\ dot false (repeat (1023, 65535) 33) = UB.
Proof. split; vm_compute; reflexivity. Qed.

Theorem C41_taps_mirrored : forall support n lim j t, 0 <= support < n -> n < 2 ^ 31 -> 0 <= j < n -> 0 <= t <= 2 * support ->
  support + j - (n - 1) <= lim -> tapIndex support n lim j t = mirrored n (j + t - support).
Proof. exact tapIndex_spec. Qed.
Print Assumptions C41_taps_mirrored.
Theorem C41_square_taps_mirrored : forall pos len, 1 <= len < 2 ^ 30 -> - 2 ^ 30 <= pos < 2 ^ 31 -> mirrorIndex pos len = Ok (mirrored len pos).
Proof. exact mirrorIndex_spec. Qed.
Print Assumptions C41_square_taps_mirrored.
Theorem C41_mirrored_inside : forall n i, 0 < n -> 0 <= mirrored n i < n.
Proof. exact mirrored_in. Qed.
Print Assumptions C41_mirrored_inside.
Example C41_mirrored_ex : map (mirrored 4) [-2; -1; 0; 3; 4; 5; 11] = [1; 0; 0; 3; 3; 2; 0].
Proof. reflexivity. Qed.

Theorem C41_tiny_divisor_refuted : exists d, genericCreate (OpConv CSquare) (viOf gray8 4 4) tinyDivisor = Ok d /\
  genericGetFrame 32 (fun _ _ => 0) (fun _ => 0) d (drawn 32 gray8 4 4 (fun _ _ _ => 0)) = UB.
Proof. exact tiny_divisor. Qed.
Print Assumptions C41_tiny_divisor_refuted.
Theorem C41_wide_plane_refuted : mirrorIndex (2 ^ 30) (2 ^ 30) = UB.
Proof. exact mirror_overflow. Qed.
Print Assumptions C41_wide_plane_refuted.

(** ** C75 *)

Theorem C75_levels_frame : forall powf al g planes arg d src, alignment al -> wfFrame al src -> byteFrame src ->
  Forall (fun o => in_int o) planes -> levelsCreate powf (vf_fmt src) planes arg = Ok d ->
  (forall i, 0 <= i < 3 -> short 24 (lv_min_out (arg i))) ->
  exists T r, (forall i v, 0 <= i < f_np (vf_fmt src) -> chosen planes i = true -> 0 <= v <= top (f_bits (vf_fmt src)) ->
      0 <= T i v <= top (f_bits (vf_fmt src)) /\
      levelsEntry powf (f_bytes (vf_fmt src)) (of32 (top (f_bits (vf_fmt src))) 0) (recipGamma (arg i)) v = Ok (T i v)) /\
    levelsGetFrame al g d src = Ok r /\ wfFrame al r /\ vf_fmt r = vf_fmt src /\ vf_w r = vf_w src /\ vf_h r = vf_h src /\
    vf_props r = vf_props src /\ planesMap (fun i a => if chosen planes i then looked (f_bits (vf_fmt src)) (T i) a else a) src r.
Proof. exact levels_frame. Qed.
Print Assumptions C75_levels_frame.
Definition stretch : levels := mkLv (of32 16 0) (of32 235 0) (of32 0 0) (of32 255 0) (of32 1 0).
Definition negative : levels := mkLv (of32 0 0) (of32 255 0) (of32 255 0) (of32 0 0) (of32 1 0).
Example C75_levels_frame_ex :
  sampleOf (obind (levelsCreate anyPow gray8 [] (fun _ => stretch)) (fun d => levelsGetFrame 32 (fun _ _ => 9) d spots)) 0 2 2 = Ok 142 /\
  sampleOf (obind (levelsCreate anyPow gray8 [] (fun _ => negative)) (fun d => levelsGetFrame 32 (fun _ _ => 9) d spots)) 0 2 2 = Ok 117.
Proof. split; vm_compute; reflexivity. Qed.

Theorem C75_levels_defined : forall powf f planes arg, fmt_valid f -> Forall (fun o => in_int o) planes ->
  (forall i, 0 <= i < f_np f -> chosen planes i = true -> short 24 (lv_min_out (arg i)) /\
     isFin (sub32 (roundF (lv_max_out (arg i))) (roundF (lv_min_out (arg i)))) = true /\
     forall v, 0 <= v <= top (f_bits f) -> isFin (powf (levelsAt (arg i) v) (div32 (of32 1 0) (lv_gamma (arg i)))) = true) ->
  levelsCreate powf f planes arg <> UB.
Proof. exact levels_defined. Qed.
Print Assumptions C75_levels_defined.
Theorem C75_wide_output_refuted : levelsCheck wideLevels = true /\ levelsCreate anyPow gray8 [] (fun _ => wideLevels) = UB.
Proof. exact wide_levels. Qed.
Print Assumptions C75_wide_output_refuted.

(** ** C76 *)

Theorem C76_gradient_frame : forall (sobel : bool) vi a d al g t0 src, Forall (fun o => in_int o) (ga_planes a) -> goodSource al vi src ->
  let op := if sobel then OpSobel else OpPrewitt in let c := if sobel then 2 else 1 in
  genericCreate op vi a = Ok d -> fitting op a d src ->
  exists G r, gradients (f_bytes (vi_fmt vi)) (gd_params d) G /\ G 0 0 = 0 /\
    (forall gx gy, G gx gy = G gy gx /\ G (- gx) gy = G gx gy /\ G gx (- gy) = G gx gy /\ 0 <= G gx gy) /\
    genericGetFrame al g t0 d src = Ok r /\
    filtered al (ga_planes a) (local (fun l => legal (f_bits (vi_fmt vi)) (G (gradV c l) (gradH c l)))) src r.
Proof. exact gradient_frame. Qed.
Print Assumptions C76_gradient_frame.
Definition stair : vframe := drawn 32 gray8 5 4 (fun _ x _ => 10 * x).
Example C76_gradient_frame_ex : run OpSobel noArgs stair 2 2 = Ok 80 /\ run OpPrewitt noArgs stair 2 2 = Ok 60 /\ run OpPrewitt noArgs stair 0 0 = Ok 30 /\
  run OpSobel noArgs (drawn 32 gray8 5 4 (fun _ _ _ => 200)) 0 0 = Ok 0.
Proof. split; [|split; [|split]]; vm_compute; reflexivity. Qed.

Theorem C76_gradient_symmetric : forall c fin G a, symmetric G -> 0 < i_w a -> 0 < i_h a ->
  same (gradientOf c fin G (flipH a)) (flipH (gradientOf c fin G a)) /\
  same (gradientOf c fin G (flipV a)) (flipV (gradientOf c fin G a)) /\
  same (gradientOf c fin G (transposed a)) (transposed (gradientOf c fin G a)).
Proof. exact gradient_symmetric. Qed.
Print Assumptions C76_gradient_symmetric.
Theorem C76_flat_is_zero : forall c l v, l = repeat v 9 -> gradV c l = 0 /\ gradH c l = 0.
Proof. exact gradient_flat. Qed.
Print Assumptions C76_flat_is_zero.
Theorem C76_edge_response : forall c l (f : Z -> Z), l = map (fun d => f (fst d)) offsets -> gradV c l = 0 /\ gradH c l = (2 + c) * (f 1 - f (-1)).
Proof. exact gradient_edge. Qed.
Print Assumptions C76_edge_response.
