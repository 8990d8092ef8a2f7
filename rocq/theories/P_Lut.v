(** Property C37: lookup tables. *)
From Coq Require Import String.
From Coq Require Import ZArith List Lia Bool.
From Verif Require Import Common FormatSpec Format FrameSpec Frame FrameGeom FrameFacts ImageSpec PlaneMem Spatial
  SpatialLemmas SpatialStack SpatialFacts Pixel PixelLemmas PixelSpec Lut LutLemmas LutFrames Lut2Frames LutFacts.
Import ListNotations.
Open Scope Z_scope.

Theorem C37_lut_table_applied : forall D (tofloat : D -> Z) al g vbmi vi a d src, alignment al -> (vbmi = true -> al = 64) ->
  (forall x, 0 <= tofloat x < 2 ^ 32) -> Forall (fun o => in_int o) (la_planes a) ->
  noEmptyError D a (2 ^ f_bits (vi_fmt vi)) -> lutCreate tofloat vbmi vi a = Ok d ->
  wfFrame al src -> byteFrame src -> matches src vi ->
  (forall i, 0 <= i < f_np (vi_fmt vi) -> chosen (la_planes a) i = false -> f_bytes (vi_fmt (ld_out d)) = f_bytes (vi_fmt vi)) ->
  exists T r, (forall i, 0 <= i < 2 ^ f_bits (vi_fmt vi) ->
                 given D tofloat a (bitsOut (la_bits a) (la_float a) (f_bits (vi_fmt vi))) i (T i)) /\
    lutGetFrame al g d src = Ok r /\ wfFrame al r /\ matches r (ld_out d) /\ vf_props r = vf_props src /\
    planesMap (fun i p => if chosen (la_planes a) i then looked (f_bits (vi_fmt vi)) T p else p) src r.
Proof. exact lut_frame. Qed.
Print Assumptions C37_lut_table_applied.
Definition negate : lutArgs Z := mkLA [] None None (Some (fun i => RVal (Some (255 - i)) None)) None false.
Definition negate10 : lutArgs Z := mkLA [] None None (Some (fun i => RVal (Some ((1023 - i) / 4)) None)) (Some 8) false.
Example C37_lut_table_applied_ex :
  (forall vbmi, sampleOf (obind (lutCreate noFloat vbmi (viOf gray8 70 2) negate) (fun d =>
     lutGetFrame 64 (fun _ _ => 3) d (drawn 64 gray8 70 2 (fun _ x y => 100 * y + x)))) 0 69 1 = Ok 86) /\
  sampleOf (obind (lutCreate noFloat true (viOf gray10 5 2) negate10) (fun d =>
     lutGetFrame 64 (fun _ _ => 3) d (drawn 64 gray10 5 2 (fun _ x y => 60000 + x)))) 0 4 1 = Ok 0.
Proof. split; [intros []|]; vm_compute; reflexivity. Qed.

Theorem C37_lut_values_checked : forall D (tofloat : D -> Z) vbmi vi a d, fmt_valid (vi_fmt vi) ->
  noEmptyError D a (2 ^ f_bits (vi_fmt vi)) -> lutCreate tofloat vbmi vi a = Ok d ->
  exists T, (forall i, 0 <= i < 2 ^ f_bits (vi_fmt vi) ->
               given D tofloat a (bitsOut (la_bits a) (la_float a) (f_bits (vi_fmt vi))) i (T i)) /\
    forall v, 0 <= v < 2 ^ (8 * f_bytes (vi_fmt vi)) -> ld_tbl d v = Some (T (legal (f_bits (vi_fmt vi)) v)).
Proof. exact lut_accepts. Qed.
Print Assumptions C37_lut_values_checked.
Example C37_lut_values_checked_ex :
  lutCreate noFloat false (viOf gray8 4 4) (mkLA [] None None (Some (fun i => RVal (Some (i + 1)) None)) None false) = Err.
Proof. vm_compute. reflexivity. Qed.

Theorem C37_lut_good_tables_accepted : forall D (tofloat : D -> Z) vbmi vi a pr, fmt_valid (vi_fmt vi) -> constantFormat vi = true ->
  f_st (vi_fmt vi) = stInteger -> f_bits (vi_fmt vi) <= 16 -> getPlanesArg (la_planes a) = Some pr ->
  oneSource D a (2 ^ f_bits (vi_fmt vi)) ->
  (let bo := bitsOut (la_bits a) (la_float a) (f_bits (vi_fmt vi)) in
   (if la_float a then bo = 32 else 8 <= bo <= 16) /\
   forall i, 0 <= i < 2 ^ f_bits (vi_fmt vi) -> exists v, given D tofloat a bo i v) ->
  exists d, lutCreate tofloat vbmi vi a = Ok d.
Proof. exact lut_complete. Qed.
Print Assumptions C37_lut_good_tables_accepted.
Example C37_lut_good_tables_accepted_ex :
  match lutCreate noFloat false (viOf gray8 4 4) (mkLA [0] None (Some (zseq 256)) None None true) with
  | Ok d => (f_bits (vi_fmt (ld_out d)), f_bytes (vi_fmt (ld_out d)), ld_tbl d 9) = (32, 4, Some 9) | _ => False end.
Proof. vm_compute. reflexivity. Qed.

Theorem C37_lut2_table_applied : forall D (tofloat : D -> Z) al g avx vx vy a d over sx sy, alignment al ->
  (forall x, 0 <= tofloat x < 2 ^ 32) -> Forall (fun o => in_int o) (l2_planes a) ->
  lut2Create tofloat avx vx vy a = Ok d ->
  wfFrame al sx -> byteFrame sx -> matches sx vx -> wfFrame al sy -> byteFrame sy -> matches sy vy ->
  f_np (vi_fmt vx) <= f_np (vi_fmt vy) ->
  (forall i, 0 <= i < f_np (vi_fmt vx) -> chosen (l2_planes a) i = false -> f_bytes (vi_fmt (l2_out d)) = f_bytes (vi_fmt vx)) ->
  exists T r, (forall x y, 0 <= x < 2 ^ f_bits (vi_fmt vx) -> 0 <= y < 2 ^ f_bits (vi_fmt vy) ->
                 given2 D tofloat a (f_bits (vi_fmt vx)) (bitsOut (l2_bits a) (l2_float a) (f_bits (vi_fmt vx))) x y (T x y)) /\
    lut2GetFrame al g d over sx sy = Ok r /\ wfFrame al r /\ matches r (l2_out d) /\ vf_props r = vf_props sx /\
    forall i, 0 <= i < f_np (vi_fmt vx) -> exists p p' q, planeImg sx i = Some p /\ planeImg sy i = Some p' /\ planeImg r i = Some q /\
      same q (if chosen (l2_planes a) i then looked2 (f_bits (vi_fmt vx)) (f_bits (vi_fmt vy)) T p p' else p).
Proof. exact lut2_frame. Qed.
Print Assumptions C37_lut2_table_applied.
Example C37_lut2_table_applied_ex :
  sampleOf (obind (lut2Create noFloat false (viOf gray8 3 2) (viOf gray8 3 2) product) (fun d =>
    lut2GetFrame 32 (fun _ _ => 3) d (fun _ => 1) (drawn 32 gray8 3 2 (fun _ x y => 100 + x)) (drawn 32 gray8 3 2 (fun _ x y => 51 * y)))) 0 2 1 = Ok 20.
Proof. vm_compute. reflexivity. Qed.

(** A function that fails with an empty message is taken for one that succeeded. *)
Theorem C37_silent_error_refuted : exists d, lutCreate noFloat false (viOf gray8 2 2) silent = Ok d /\
  lutGetFrame 32 (fun _ _ => 0) d (drawn 32 gray8 2 2 (fun _ x y => x)) = UB.
Proof. exact silent_error. Qed.
Print Assumptions C37_silent_error_refuted.

(** Planes that are not processed keep the sample size of the source. *)
Theorem C37_unprocessed_planes_refuted : exists d r p, lutCreate noFloat false (viOf yuv420p8 64 64) widen = Ok d /\
  lutGetFrame 32 (fun _ _ => 0) d (drawn 32 yuv420p8 64 64 (fun _ x y => 5)) = Ok r /\
  f_bytes (vf_fmt r) = 2 /\ nthz (vf_planes r) 1 = Some p /\
  p_stride p < planeW (vf_fmt r) (vf_w r) 1 * f_bytes (vf_fmt r).
Proof. exact shared_plane_too_small. Qed.
Print Assumptions C37_unprocessed_planes_refuted.

(** The second clip of Lut2 may lack planes of the first. *)
Theorem C37_lut2_missing_plane_refuted : exists d,
  lut2Create noFloat false (viOf yuv444p8 2 2) (viOf gray8 2 2) product = Ok d /\
  lut2GetFrame 32 (fun _ _ => 0) d (fun _ => 0) (drawn 32 yuv444p8 2 2 (fun _ x y => x)) (drawn 32 gray8 2 2 (fun _ x y => x)) = UB.
Proof. exact missing_plane. Qed.
Print Assumptions C37_lut2_missing_plane_refuted.
