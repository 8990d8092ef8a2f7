(** Property C45: statistics of a plane. *)
From Coq Require Import String.
From Coq Require Import ZArith List Lia Bool SpecFloat.
From Verif Require Import Common FormatSpec Format Frame FrameSpec FrameGeom FrameFacts ImageSpec PlaneMem Spatial SpatialLemmas SpatialStack SpatialFacts Pixel PixelLemmas Soft.
From Verif Require Import LutFacts PlaneStatsSpec PlaneStats PlaneStatsLemmas PlaneStatsVec PlaneStatsWord PlaneStatsFrames.
Import ListNotations.
Open Scope Z_scope.

(** Minimum, maximum, sum and L1 distance, by the C, SSE2 and AVX2 kernels for bytes and words.  In words the 32 bit lanes of
    the vector kernels never wrap. *)
Theorem C45_kernels : forall al lv k w h p o, alignment al -> 1 <= k <= 2 -> 0 < w -> 0 < h -> w * h <= 2 ^ 46 ->
  wfPlane k p w h -> (al | p_stride p) -> (forall a, 0 <= b_data (p_buf p) a < 256) ->
  match o with Some q => wfPlane k q w h /\ (al | p_stride q) /\ forall a, 0 <= b_data (p_buf q) a < 256 | None => True end ->
  exists s, planeStats lv k w h p o = Ok s /\
    statsOf w h (i_at (imageOf k p w h)) (option_map (fun q => i_at (imageOf k q w h)) o) s.
Proof. exact planeStats_spec. Qed.
Print Assumptions C45_kernels.
Example C45_kernels_ex : let pl c := mkPl 64 (mkB 128 (fun a => (c * a + 7) mod 251)) in
  map (fun lv => (planeStats lv 1 21 2 (pl 13) (Some (pl 17)), planeStats lv 2 21 2 (pl 13) (Some (pl 17)))) [levelC; levelSSE2; levelAVX2] =
  let b := mkSt 3 242 4903 2720 in let w := mkSt 1009 61153 1255652 989936 in [(Ok b, Ok w); (Ok b, Ok w); (Ok b, Ok w)].
Proof. vm_compute. reflexivity. Qed.

(** The average and the difference: nothing overflows up to 2^46 samples. *)
Theorem C45_quotients : forall w h bits acc, 0 < w -> 0 < h -> w * h <= 2 ^ 46 -> 1 <= bits <= 16 -> 0 <= acc <= w * h * (2 ^ bits - 1) ->
  exists x, statsQuotient w h bits acc = Ok x /\ quotient64 acc (w * h * (2 ^ bits - 1)) x.
Proof. exact statsQuotient_spec. Qed.
Print Assumptions C45_quotients.
Example C45_quotients_ex : (statsQuotient 4 4 8 0, statsQuotient 4 4 8 4080, statsQuotient 4 4 8 2040, statsQuotient INT_MAX INT_MAX 16 1) =
  (Ok (S754_zero false), Ok (of64 1 0), Ok (of64 1 (-1)), UB).
Proof. vm_compute. reflexivity. Qed.

Theorem C45_arguments : forall vi plane vi2 prop d, statsCreate vi plane vi2 prop = Ok d ->
  0 <= ps_plane d < f_np (vi_fmt vi) /\ f_st (vi_fmt vi) = stInteger /\ f_bits (vi_fmt vi) <= 16 /\ (ps_two d = true <-> vi2 <> None) /\
  (forall v, vi2 = Some v -> Average.sameInfo vi v = true) /\ ps_plane d = match plane with Some v => sat32 v | None => 0 end /\
  ps_prop d = match prop with Some s => s | None => "PlaneStats"%string end.
Proof. exact create_stats. Qed.
Print Assumptions C45_arguments.
Example C45_arguments_ex : (statsCreate (viOf gray8 4 4) None None None, statsCreate (viOf gray8 4 4) (Some 1) None None, statsCreate (viOf gray8 4 4) (Some 0) (Some (viOf gray8 4 5)) None,
  statsCreate (viOf gray8 4 4) (Some 0) (Some (viOf gray8 4 4)) (Some "X"%string)) = (Ok (mkPS 0 "PlaneStats" false), Err, Err, Ok (mkPS 0 "X" true)).
Proof. vm_compute. reflexivity. Qed.

(** Whole frames: the picture is untouched, the properties hold the statistics of the chosen plane. *)
Theorem C45_frame : forall al lv d src src2 vi i, alignment al -> i = ps_plane d -> 0 <= i < f_np (vi_fmt vi) -> f_bits (vi_fmt vi) <= 16 ->
  wfFrame al src -> matches src vi -> byteFrame src -> given2 al vi d src2 ->
  (forall x y a, planeImg src i = Some a -> i_at a x y < 2 ^ f_bits (vi_fmt vi)) ->
  (forall s x y a, src2 = Some s -> planeImg s i = Some a -> i_at a x y < 2 ^ f_bits (vi_fmt vi)) ->
  1 <= planeW (vi_fmt vi) (vi_w vi) i -> 1 <= planeH (vi_fmt vi) (vi_h vi) i -> planeW (vi_fmt vi) (vi_w vi) i * planeH (vi_fmt vi) (vi_h vi) i <= 2 ^ 46 ->
  exists a r mi ma, planeImg src i = Some a /\ statsGetFrame lv d src src2 = Ok r /\
    least (samplesOf a) mi /\ greatest (samplesOf a) ma /\
    sf_frame r = mkVF (vf_fmt src) (vf_w src) (vf_h src) (vf_planes src) (setProp (ps_prop d ++ "Max") ma (setProp (ps_prop d ++ "Min") mi (vf_props src))) /\
    quotient64 (sumOf (samplesOf a)) (i_w a * i_h a * (2 ^ f_bits (vi_fmt vi) - 1)) (sf_avg r) /\
    match src2 with
    | Some s => exists b x, planeImg s i = Some b /\ sf_diff r = Some x /\ quotient64 (distance a b) (i_w a * i_h a * (2 ^ f_bits (vi_fmt vi) - 1)) x
    | None => sf_diff r = None
    end.
Proof. exact stats_frame. Qed.
Print Assumptions C45_frame.
Example C45_frame_ex : let s := drawn 32 yuv420p8 10 4 (fun i x y => 10 * i + 3 * x + y) in let t := drawn 32 yuv420p8 10 4 (fun i x y => 255 - 10 * i - x) in
  map (fun lv => match statsGetFrame lv (mkPS 1 "P" true) s (Some t) with Ok r => (vf_props (sf_frame r) "PMin"%string, vf_props (sf_frame r) "PMax"%string, sf_avg r, sf_diff r) | _ => (None, None, of64 0 0, None) end) [levelC; levelSSE2; levelAVX2] =
  let r := (Some 10, Some 23, div64 (of64 165 0) (of64 2550 0), Some (div64 (of64 2265 0) (of64 2550 0))) in [r; r; r].
Proof. vm_compute. reflexivity. Qed.
