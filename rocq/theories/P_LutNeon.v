(** Property C37 on ARM64: the NEON kernel of Lut. *)
From Coq Require Import String.
From Coq Require Import ZArith List Lia Bool.
From Verif Require Import Common FormatSpec Format FrameSpec Frame FrameGeom FrameFacts ImageSpec PlaneMem Spatial
  SpatialLemmas SpatialStack SpatialFacts Pixel PixelLemmas PixelSpec Lut LutLemmas LutFrames Lut2Frames LutFacts LutNeon LutNeonFacts.
Import ListNotations.
Open Scope Z_scope.

(** The table is applied to every sample; at most seven bytes behind the row are written. *)
Theorem C37_neon_plane : forall t T w h src dst, full 256 t T -> (forall v, 0 <= T v < 256) -> wfPlane 1 src w h -> wfPlane 1 dst w h ->
  (8 | p_stride src) -> (8 | p_stride dst) -> (forall a, 0 <= b_data (p_buf src) a < 256) ->
  exists m, neonPlane t w h src dst = Ok m /\ b_size m = b_size (p_buf dst) /\
    same (imageOf 1 (mkPl (p_stride dst) m) w h) (mapped T (imageOf 1 src w h)) /\
    forall y x, 0 <= y < h -> 8 * groups w 8 <= x < p_stride dst -> b_data m (y * p_stride dst + x) = b_data (p_buf dst) (y * p_stride dst + x).
Proof. exact neon_plane. Qed.
Print Assumptions C37_neon_plane.
Example C37_neon_plane_ex :
  match neonPlane (fun i => Some (255 - i)) 19 2 (mkPl 32 (mkB 64 (fun a => 4 * a mod 256))) (mkPl 32 (mkB 64 (fun _ => 7))) with
  | Ok m => map (b_data m) [0; 15; 16; 18; 23; 24; 31; 32; 50; 56] = [255; 195; 191; 183; 163; 7; 7; 127; 55; 7]
  | _ => False end.
Proof. vm_compute. reflexivity. Qed.

(** Frames made on ARM64, with or without NEON, are those of the other processors. *)
Theorem C37_neon_frame : forall D (tofloat : D -> Z) al g neon vi a d src, alignment al ->
  (forall x, 0 <= tofloat x < 2 ^ 32) -> Forall (fun o => in_int o) (la_planes a) ->
  noEmptyError D a (2 ^ f_bits (vi_fmt vi)) -> lutCreate tofloat false vi a = Ok d ->
  wfFrame al src -> byteFrame src -> matches src vi ->
  (forall i, 0 <= i < f_np (vi_fmt vi) -> chosen (la_planes a) i = false -> f_bytes (vi_fmt (ld_out d)) = f_bytes (vi_fmt vi)) ->
  exists T r, (forall i, 0 <= i < 2 ^ f_bits (vi_fmt vi) ->
                 given D tofloat a (bitsOut (la_bits a) (la_float a) (f_bits (vi_fmt vi))) i (T i)) /\
    lutGetFrameArm al g neon d src = Ok r /\ wfFrame al r /\ matches r (ld_out d) /\ vf_props r = vf_props src /\
    planesMap (fun i p => if chosen (la_planes a) i then looked (f_bits (vi_fmt vi)) T p else p) src r.
Proof. exact arm_frame. Qed.
Print Assumptions C37_neon_frame.
Example C37_neon_frame_ex : forall neon, sampleOf (obind (lutCreate noFloat false (viOf gray8 70 2)
     (mkLA [] None None (Some (fun i => RVal (Some (255 - i)) None)) None false)) (fun d =>
     lutGetFrameArm 64 (fun _ _ => 3) neon d (drawn 64 gray8 70 2 (fun _ x y => 100 * y + x)))) 0 69 1 = Ok 86.
Proof. intros []; vm_compute; reflexivity. Qed.
