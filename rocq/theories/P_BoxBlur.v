(** Properties C42, C43 and C77: the box blur. *)
From Coq Require Import ZArith List Lia Bool.
From Verif Require Import Common FormatSpec Format Frame FrameSpec FrameGeom FrameFacts ImageSpec PlaneMem Spatial SpatialLemmas SpatialStack SpatialFacts.
From Verif Require Import PixelSpec Pixel PixelLemmas Lut LutFrames LutFacts GenericSpec BoxBlurSpec BoxBlur BoxBlurDiv BoxBlurRows BoxBlurPlanes BoxBlurFrames.
Import ListNotations.
Open Scope Z_scope.

(** ** C42 *)
Theorem C42_fast_division_exact : forall d n, 1 <= d < 2 ^ 32 -> 0 <= n < 2 ^ 32 -> fastDivU32 n (makeFastDiv d) = n / d.
Proof. exact fastDiv_exact. Qed.
Print Assumptions C42_fast_division_exact.
Example C42_fast_division_exact_ex : map (fun d => fastDivU32 4294967295 (makeFastDiv d)) [7; 8; 1; 641; 60001; 4294967295] = [613566756; 536870911; 4294967295; 6700416; 71581; 1].
Proof. vm_compute. reflexivity. Qed.

(** ** C43 *)

(** One row, from a separate source. *)
Theorem C43_row_mean : forall k w r round f, 1 <= k <= 2 -> 1 <= w -> 1 <= r <= 30000 -> w + r <= INT_MAX -> 0 <= round <= 2 * r ->
  (forall u, 0 <= u < w -> 0 <= f u < 256 ^ k) -> forall s so d m0, (forall i, 0 <= i < w -> loadS k s (so + i * k) = Ok (f i)) ->
  0 <= d -> d + w * k <= b_size m0 ->
  exists m, blurH k w r (makeFastDiv (2 * r + 1)) round s so d m0 = Ok m /\ wrote k d (rowMean r round w f) m0 w m.
Proof. exact blurH_spec. Qed.
Print Assumptions C43_row_mean.
Example C43_row_mean_ex : obind (blurH 1 3 5 (makeFastDiv 11) 10 (mkB 3 (fun a => 10 * a)) 0 0 (mkB 3 (fun _ => 77))) (fun m => Ok (map (b_data m) [0; 1; 2])) = Ok [9; 10; 12].
Proof. vm_compute. reflexivity. Qed.

(** One row in place, with the ring of overwritten samples. *)
Theorem C43_in_place_row_mean : forall k w r round f, 1 <= k <= 2 -> 1 <= w -> 1 <= r <= 30000 -> w + r <= INT_MAX -> 0 <= round <= 2 * r ->
  (forall u, 0 <= u < w -> 0 <= f u < 256 ^ k) -> forall d m0 ring0, 0 <= d -> d + w * k <= b_size m0 ->
  (forall i, 0 <= i < w -> leval (Z.to_nat k) (b_data m0) (d + i * k) = f i) -> b_size ring0 = k * Z.min (r + 1) w ->
  exists m ring, blurRing k w r (makeFastDiv (2 * r + 1)) round d (m0, ring0) = Ok (m, ring) /\ wrote k d (rowMean r round w f) m0 w m /\ b_size ring = b_size ring0.
Proof. exact blurRing_spec. Qed.
Print Assumptions C43_in_place_row_mean.
Example C43_in_place_row_mean_ex : obind (blurRing 1 3 5 (makeFastDiv 11) 10 0 (mkB 3 (fun a => 10 * a), mkB 3 (fun _ => 9))) (fun p => Ok (map (b_data (fst p)) [0; 1; 2])) = Ok [9; 10; 12].
Proof. vm_compute. reflexivity. Qed.

(** The loop for radius 1, on a separate source or in place: it suffices that the samples not yet written are still there. *)
Theorem C43_radius_one_row_mean : forall k w round f, 1 <= k <= 2 -> 3 <= w -> 0 <= round <= 2 -> (forall u, 0 <= u < w -> 0 <= f u < 256 ^ k) ->
  forall inPlace s so d m0, 0 <= d -> d + w * k <= b_size m0 ->
  (forall x m i, 0 <= x -> x <= i < w -> wrote k d (rowMean 1 round w f) m0 x m -> loadS k (if inPlace : bool then m else s) (so + i * k) = Ok (f i)) ->
  exists m, blurR1 k w round inPlace s so d m0 = Ok m /\ wrote k d (rowMean 1 round w f) m0 w m.
Proof. exact blurR1_spec. Qed.
Print Assumptions C43_radius_one_row_mean.
Example C43_radius_one_row_mean_ex :
  map (fun w => obind (blurR1 1 w 2 true (mkB 0 (fun _ => 0)) 0 0 (mkB 6 (fun a => a * a * 8))) (fun m => Ok (map (b_data m) [0; 1; 2; 3; 4; 5]))) [3; 4; 5; 6] =
  [Ok [3; 14; 24; 72; 128; 200]; Ok [3; 14; 38; 59; 128; 200]; Ok [3; 14; 38; 78; 110; 200]; Ok [3; 14; 38; 78; 134; 176]].
Proof. vm_compute. reflexivity. Qed.

(** The arguments accepted. *)
Theorem C43_arguments : forall vi planes hr hp vr vp a process, boxCreate vi planes hr hp vr vp = Ok (a, process) <->
  a = mkBA (argOr1 hr) (argOr1 hp) (argOr1 vr) (argOr1 vp) /\ getPlanesArg planes = Some process /\ boxArgsOk vi (argOr1 hr) (argOr1 hp) (argOr1 vr) (argOr1 vp).
Proof. exact create_iff. Qed.
Print Assumptions C43_arguments.
Example C43_arguments_ex : map (fun hr => match boxCreate (viOf gray8 4 4) [] hr (Some 1) (Some 0) None with Ok c => Ok (ba_hr (fst c)) | Err => Err | UB => UB end)
  [None; Some 30000; Some 30001; Some 0; Some (-1)] = [Ok 1; Ok 30000; Err; Err; Err].
Proof. vm_compute. reflexivity. Qed.

(** Whole frames of three planes. *)
Theorem C43_frame : forall e vi planes hr hp vr vp a process src, boxCreate vi planes hr hp vr vp = Ok (a, process) ->
  alignment (am_al e) -> fmt_valid (vi_fmt vi) -> f_np (vi_fmt vi) = 3 -> Forall in_int planes ->
  (2 ^ f_ssw (vi_fmt vi) | vi_w vi) -> (2 ^ f_ssh (vi_fmt vi) | vi_h vi) -> vi_w vi < 2 ^ 30 -> vi_h vi < 2 ^ 30 ->
  wfFrame (am_al e) src -> byteFrame src -> matches src vi ->
  exists r, boxFrame e a process vi src = Ok r /\
    boxed e src r (fun i x => if chosen planes i then boxBlur (argOr1 hr) (argOr1 hp) (argOr1 vr) (argOr1 vp) x else x).
Proof. exact boxed_chosen. Qed.
Print Assumptions C43_frame.
Example C43_frame_ex : let src := drawn 32 yuv420p8 8 4 (fun i x y => 20 * x + 7 * y + i) in
  map (fun p => sampleOf (boxRun (viOf yuv420p8 8 4) [0; 2] (Some 2) (Some 2) (Some 1) (Some 1) src) (fst p) (snd p) 1)
    [(0, 0); (0, 5); (0, 7); (1, 0); (1, 3); (2, 0); (2, 3)] = [Ok 27; Ok 103; Ok 127; Ok 8; Ok 68; Ok 26; Ok 47].
Proof. vm_compute. reflexivity. Qed.

(** Frames of a single plane are blurred whatever the list of planes. *)
Theorem C43_gray_frame : forall e vi planes hr hp vr vp a process src, boxCreate vi planes hr hp vr vp = Ok (a, process) ->
  alignment (am_al e) -> fmt_valid (vi_fmt vi) -> f_np (vi_fmt vi) = 1 -> vi_w vi < 2 ^ 30 -> vi_h vi < 2 ^ 30 ->
  wfFrame (am_al e) src -> byteFrame src -> matches src vi ->
  exists r, boxFrame e a process vi src = Ok r /\ boxed e src r (fun _ x => boxBlur (argOr1 hr) (argOr1 hp) (argOr1 vr) (argOr1 vp) x).
Proof. exact boxed_gray. Qed.
Print Assumptions C43_gray_frame.
Example C43_gray_frame_ex : let src := drawn 32 gray8 4 4 (fun _ x y => 9 * x) in
  map (fun x => sampleOf (boxRun (viOf gray8 4 4) [] None None (Some 0) None src) 0 x 3) [0; 1; 2; 3] = [Ok 3; Ok 9; Ok 18; Ok 24].
Proof. vm_compute. reflexivity. Qed.

(** ** C77 *)
Theorem C77_three_planes_partial : forall e vi planes hr hp vr vp a process src, boxCreate vi planes hr hp vr vp = Ok (a, process) ->
  alignment (am_al e) -> fmt_valid (vi_fmt vi) -> f_np (vi_fmt vi) = 3 -> Forall in_int planes ->
  (2 ^ f_ssw (vi_fmt vi) | vi_w vi) -> (2 ^ f_ssh (vi_fmt vi) | vi_h vi) -> vi_w vi < 2 ^ 30 -> vi_h vi < 2 ^ 30 ->
  wfFrame (am_al e) src -> byteFrame src -> matches src vi ->
  exists r, boxFrame e a process vi src = Ok r /\ forall i x, 0 <= i < 3 -> chosen planes i = false -> planeImg src i = Some x ->
    exists y, planeImg r i = Some y /\ same y x.
Proof. exact unchosen_kept. Qed.
Print Assumptions C77_three_planes_partial.
Example C77_three_planes_partial_ex : let src := drawn 32 yuv420p8 8 4 (fun i x y => 20 * x + 7 * y + i) in
  map (fun p => sampleOf (boxRun (viOf yuv420p8 8 4) [1] None None None None src) (fst p) (snd p) 1)
    [(0, 0); (0, 5); (0, 7); (1, 0); (1, 3); (2, 0); (2, 3)] = [Ok 7; Ok 107; Ok 147; Ok 13; Ok 60; Ok 9; Ok 69].
Proof. vm_compute. reflexivity. Qed.

Theorem C77_single_plane_refuted : exists a process r p q, boxCreate (viOf gray8 4 4) [1] None None None None = Ok (a, process) /\
  boxFrame plainAm a process (viOf gray8 4 4) (drawn 32 gray8 4 4 (fun _ x y => 9 * x)) = Ok r /\
  chosen [1] 0 = false /\
  planeImg (drawn 32 gray8 4 4 (fun _ x y => 9 * x)) 0 = Some p /\ planeImg r 0 = Some q /\ i_at p 0 0 = 0 /\ i_at q 0 0 = 3.
Proof. exact gray_planes_ignored. Qed.
Print Assumptions C77_single_plane_refuted.
