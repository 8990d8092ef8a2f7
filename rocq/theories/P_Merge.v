(** Properties C34, C35, C36 and C66-C69: merging filters. *)
From Coq Require Import ZArith List Lia Bool.
From Verif Require Import Common Simd MergeSpec Merge MergeLemmas MergeLemmas2 MergeSimd MergeSimdLemmas2
  MergeFacts.
Import ListNotations.
Open Scope Z_scope.

Theorem C34_merge_rounds : forall d w v1 v2,
  8 <= d <= 16 -> 0 <= w <= 32768 -> sample d v1 -> sample d v2 ->
  nearest ((32768 - w) * v1 + w * v2) 32768 (mergeKernel d w v1 v2)
  /\ between v1 v2 (mergeKernel d w v1 v2) /\ sample d (mergeKernel d w v1 v2).
Proof. exact merge_rounds. Qed.
Print Assumptions C34_merge_rounds.
Example C34_merge_rounds_ex : mergeKernel 16 32767 0 65535 = 65533 /\ mergeKernel 8 16384 10 21 = 16.
Proof. vm_compute; auto. Qed.

Theorem C34_merge_monotone : forall d w a b a' b',
  8 <= d <= 16 -> 0 <= w <= 32768 -> sample d a -> sample d b -> sample d a' -> sample d b' ->
  a <= a' -> b <= b' -> mergeKernel d w a b <= mergeKernel d w a' b'.
Proof. exact merge_monotone. Qed.
Print Assumptions C34_merge_monotone.

(** From the weight given to the filter to the sample: at most half a step of
    rounding plus what one part in 32768 of the weight is worth. *)
Theorem C34_weight_to_sample : forall d f v1 v2,
  8 <= d <= 16 -> 0 < snd f -> inUnit f = true -> sample d v1 -> sample d v2 ->
  let out := mergeSample d (planeCfg f) v1 v2 in
  between v1 v2 out /\
  Z.abs (65536 * (snd f * out - ((snd f - fst f) * v1 + fst f * v2)))
    <= 32768 * snd f + 2 * (Z.abs (v2 - v1) * snd f).
Proof. exact mergeSample_close. Qed.
Print Assumptions C34_weight_to_sample.

Theorem C34_end_weights : forall d f v1 v2, 0 < snd f -> inUnit f = true ->
  (fst f = 0 -> mergeSample d (planeCfg f) v1 v2 = v1) /\
  (fst f = snd f -> mergeSample d (planeCfg f) v1 v2 = v2).
Proof. exact mergeSample_ends. Qed.
Print Assumptions C34_end_weights.
Example C34_end_weights_ex : mergeSample 16 (planeCfg (1, 1)) 0 65535 = 65535
  /\ mergeSample 16 (planeCfg (32767, 32768)) 0 65535 = 65533.
Proof. vm_compute; auto. Qed.

Theorem C35_mask_rounds : forall d v1 v2 m, 8 <= d <= 16 ->
  sample d v1 -> sample d v2 -> sample d m ->
  nearest ((maxOf d - m) * v1 + m * v2) (maxOf d) (maskMergeKernel d v1 v2 m)
  /\ between v1 v2 (maskMergeKernel d v1 v2 m) /\ sample d (maskMergeKernel d v1 v2 m).
Proof. exact mask_rounds. Qed.
Print Assumptions C35_mask_rounds.

(** The divisor 2^d - 1 is odd, so "nearest" names a single value. *)
Theorem C35_mask_exact : forall d v1 v2 m q, 8 <= d <= 16 ->
  sample d v1 -> sample d v2 -> sample d m ->
  nearest ((maxOf d - m) * v1 + m * v2) (maxOf d) q -> maskMergeKernel d v1 v2 m = q.
Proof. exact mask_unique. Qed.
Print Assumptions C35_mask_exact.

Theorem C35_mask_ends : forall d v1 v2, 8 <= d <= 16 -> sample d v1 -> sample d v2 ->
  maskMergeKernel d v1 v2 0 = v1 /\ maskMergeKernel d v1 v2 (maxOf d) = v2.
Proof. exact mask_ends. Qed.
Print Assumptions C35_mask_ends.
Example C35_mask_ex : maskMergeKernel 10 100 900 512 = 500 /\ maskMergeKernel 16 65535 65535 30000 = 65535.
Proof. vm_compute; auto. Qed.

Theorem C36_full_difference_roundtrip : forall d a b, 8 <= d <= 16 -> sample d a -> sample d b ->
  mergefulldiffKernel d b (makefulldiffKernel d a b) = a.
Proof. exact fulldiff_roundtrip. Qed.
Print Assumptions C36_full_difference_roundtrip.

Theorem C36_full_difference_value : forall d a b, 8 <= d <= 16 -> sample d a -> sample d b ->
  makefulldiffKernel d a b = a - b + 2 ^ d /\ sample (d + 1) (makefulldiffKernel d a b).
Proof. exact fulldiff_value. Qed.
Print Assumptions C36_full_difference_value.

Theorem C36_difference_roundtrip : forall d a b, 8 <= d <= 16 -> sample d a -> sample d b ->
  - 2 ^ (d - 1) <= a - b < 2 ^ (d - 1) ->
  sample d (makediffKernel d a b) /\ mergediffKernel d b (makediffKernel d a b) = a.
Proof. exact diff_roundtrip. Qed.
Print Assumptions C36_difference_roundtrip.

Theorem C36_difference_saturates : forall d a b, 8 <= d <= 16 -> sample d a -> sample d b ->
  sample d (makediffKernel d a b) /\
  mergediffKernel d b (makediffKernel d a b)
  = b + Z.max (- 2 ^ (d - 1)) (Z.min (2 ^ (d - 1) - 1) (a - b)) /\
  between a b (mergediffKernel d b (makediffKernel d a b)).
Proof. exact diff_saturates. Qed.
Print Assumptions C36_difference_saturates.
Example C36_ex : makefulldiffKernel 16 0 65535 = 1 /\ mergediffKernel 8 0 (makediffKernel 8 255 0) = 127.
Proof. vm_compute; auto. Qed.

Theorem C66_merge_rows : forall i depth w n a b d, 8 <= depth <= 16 -> 1 <= w <= 32767 ->
  let i' := noAvx512 i in
  rowOk (chunk i' depth) n a -> length b = length a -> length d = length a ->
  Forall (sample depth) (firstn n a) -> Forall (sample depth) (firstn n b) ->
  agrees n (simdRow (chunk i' depth) (k2 (simd_merge i' depth w)) n [a; b] d)
           (cRow (f2 (mergeKernel depth w)) n [a; b] d) d.
Proof. exact merge_rows. Qed.
Print Assumptions C66_merge_rows.

Theorem C66_maskmerge_rows : forall i depth n a b m d, 8 <= depth <= 16 ->
  rowOk (chunk i depth) n a -> length b = length a -> length m = length a -> length d = length a ->
  Forall (sample depth) (firstn n a) -> Forall (sample depth) (firstn n b) ->
  Forall (sample depth) (firstn n m) ->
  agrees n (simdRow (chunk i depth) (k3 (simd_maskmerge i depth)) n [a; b; m] d)
           (cRow (f3 (maskMergeKernel depth)) n [a; b; m] d) d.
Proof. exact maskmerge_rows. Qed.
Print Assumptions C66_maskmerge_rows.

Theorem C66_premultiplied_rows : forall i depth o n a b m d, 8 <= depth <= 16 -> sample depth o ->
  rowOk (chunk i depth) n a -> length b = length a -> length m = length a -> length d = length a ->
  Forall (sample depth) (firstn n a) -> Forall (sample depth) (firstn n b) ->
  Forall (sample depth) (firstn n m) ->
  agrees n (simdRow (chunk i depth) (k3 (simd_premul i depth o)) n [a; b; m] d)
           (cRow (f3 (maskMergePremulKernel depth o)) n [a; b; m] d) d.
Proof. exact premul_rows. Qed.
Print Assumptions C66_premultiplied_rows.

Theorem C66_difference_rows : forall i depth n a b d, 8 <= depth <= 16 ->
  let i' := noAvx512 i in
  rowOk (chunk i' depth) n a -> length b = length a -> length d = length a ->
  Forall (sample depth) (firstn n a) -> Forall (sample depth) (firstn n b) ->
  agrees n (simdRow (chunk i' depth) (k2 (simd_makediff i' depth)) n [a; b] d)
           (cRow (f2 (makediffKernel depth)) n [a; b] d) d /\
  agrees n (simdRow (chunk i' depth) (k2 (simd_mergediff i' depth)) n [a; b] d)
           (cRow (f2 (mergediffKernel depth)) n [a; b] d) d.
Proof. exact diff_rows. Qed.
Print Assumptions C66_difference_rows.

Theorem C66_aligned_rows_fit : forall i depth n stride a, 8 <= depth <= 16 ->
  Nat.modulo stride (align i) = O ->
  (length a * (if Z.leb depth 8 then 1 else 2) = stride)%nat -> (n <= length a)%nat ->
  rowOk (chunk i depth) n a /\ rowOk (chunk (noAvx512 i) depth) n a.
Proof. exact stride_rowOk. Qed.
Print Assumptions C66_aligned_rows_fit.

Example C66_rows_ex :
  simdRow 8 (k2 (simd_merge SSE2 10 16384)) 3 [[10; 20; 30; 0; 0; 0; 0; 0]; [20; 30; 41; 7; 7; 7; 7; 7]]
    (repeat 0 8) = Ok [15; 25; 36; 4; 4; 4; 4; 4]
  /\ simdRow 8 (k2 (simd_merge SSE2 10 16384)) 3 [[10; 20; 30]; [20; 30; 41]] [0; 0; 0] = UB.
Proof. vm_compute; auto. Qed.

Theorem C67_premultiply_rounds : forall d o x a, 8 <= d <= 16 ->
  sample d x -> sample d a -> sample d o ->
  nearest ((x - o) * a + o * maxOf d) (maxOf d) (premultiplyKernel d o x a)
  /\ between o x (premultiplyKernel d o x a) /\ sample d (premultiplyKernel d o x a).
Proof. exact premultiply_rounds. Qed.
Print Assumptions C67_premultiply_rounds.

Theorem C67_premultiply_ends : forall d o x, 8 <= d <= 16 -> sample d x -> sample d o ->
  premultiplyKernel d o x 0 = o /\ premultiplyKernel d o x (maxOf d) = x.
Proof. exact premultiply_ends. Qed.
Print Assumptions C67_premultiply_ends.

Theorem C67_premultiplied_mask_rounds : forall d o v1 v2 m, 8 <= d <= 16 ->
  sample d v1 -> sample d v2 -> sample d m -> sample d o ->
  exists q, nearest ((v1 - o) * (maxOf d - m)) (maxOf d) q /\
    maskMergePremulKernel d o v1 v2 m = clampTo d (v2 + q).
Proof. exact maskPremul_rounds. Qed.
Print Assumptions C67_premultiplied_mask_rounds.

Theorem C67_premultiply_then_merge : forall d o v1 v2 m, 8 <= d <= 16 ->
  sample d v1 -> sample d v2 -> sample d m -> sample d o ->
  Z.abs (maskMergePremulKernel d o v1 (premultiplyKernel d o v2 m) m
         - maskMergeKernel d v1 v2 m) <= 1.
Proof. exact premul_then_merge. Qed.
Print Assumptions C67_premultiply_then_merge.
Example C67_ex : maskMergePremulKernel 8 16 200 (premultiplyKernel 8 16 100 77) 77 = 169
  /\ maskMergeKernel 8 200 100 77 = 170.
Proof. vm_compute; auto. Qed.

Theorem C67_offset_in_range : forall range gy yuv d p, 8 <= d <= 16 ->
  sample d (planeOffset range gy yuv d p).
Proof. exact planeOffset_sample. Qed.
Print Assumptions C67_offset_in_range.

Theorem C68_accepted_weights_partial : forall np ok ws, (length ws <= 3)%nat ->
  (forall f, In f ws -> 0 < snd f) ->
  mergeCreate np ok ws <> UB /\
  (forall cs, mergeCreate np ok ws = Ok cs ->
     zlength ws <= np /\ ok = true /\ (forall f, In f ws -> inUnit f = true) /\
     cs = [planeCfg (nth 0 ws half);
           planeCfg (nth 1 ws (nth 0 ws half));
           planeCfg (nth 2 ws (nth 1 ws (nth 0 ws half)))]).
Proof. exact mergeCreate_ok. Qed.
Print Assumptions C68_accepted_weights_partial.

Theorem C68_weight_list_refuted : exists np ok ws,
  1 <= np <= 3 /\ (forall f, In f ws -> 0 < snd f /\ inUnit f = true) /\ np < zlength ws /\
  mergeCreate np ok ws = UB.
Proof. exact mergeCreate_refuted. Qed.
Print Assumptions C68_weight_list_refuted.

Theorem C69_mask_depth_partial : forall clip mask dims first, maskAccepted clip mask dims first = true ->
  dims = true /\ mf_bits mask = mf_bits clip /\
  (first = true \/ mf_planes mask = 1 \/ mf_gray mask = true \/
   (mf_float mask = mf_float clip /\ mf_planes mask = mf_planes clip)).
Proof. exact maskAccepted_depth. Qed.
Print Assumptions C69_mask_depth_partial.

Theorem C69_mask_type_refuted : exists clip mask,
  mf_float clip = false /\ mf_float mask = true /\ mf_bits mask = 16 /\
  maskAccepted clip mask true false = true.
Proof. exact maskAccepted_refuted. Qed.
Print Assumptions C69_mask_type_refuted.
