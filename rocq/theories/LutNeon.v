(** Model of src/core/kernel/arm/lut_neon.cpp: the kernel of Lut for 8 bit clips on ARM64, and
    of its use in lutfilters.cpp.  The scalar kernel is the one of Lut.v (little endian). *)
From Coq Require Import ZArith List Bool.
From Verif Require Import Common FormatSpec Format Frame ImageSpec PlaneMem Spatial Pixel Lut.
Import ListNotations.
Open Scope Z_scope.

(** vqtbl4q_u8 on the 64 entries from [base]: zero for an index out of range. *)
Definition qtbl4 (t : table) (base x : Z) : outcome Z := if x <? 64 then lookup 256 t (base + x) else Ok 0.

(** One lane of lookup16, lut_neon.cpp:40-48; vsubq_u8 wraps. *)
Definition neonLane (t : table) (x : Z) : outcome Z :=
  obind (qtbl4 t 0 x) (fun r0 =>
  let x1 := (x - 64) mod 256 in
  obind (qtbl4 t 64 x1) (fun r1 =>
  let x2 := (x1 - 64) mod 256 in
  obind (qtbl4 t 128 x2) (fun r2 =>
  let x3 := (x2 - 64) mod 256 in
  obind (qtbl4 t 192 x3) (fun r3 => Ok (Z.lor (Z.lor (Z.lor r0 r1) r2) r3))))).

Section Row.
Variables (t : table) (src : plane) (stride w y : Z).

(** lut_neon.cpp:51-52; the result is the position reached.  Running out of fuel is UB, which
    the theorems exclude. *)
Fixpoint loop16 (fuel : nat) (x : Z) (m : pbuf) : outcome (Z * pbuf) :=
  if x + 16 <=? w then
    match fuel with
    | O => UB
    | S k => obind (loadLanes 1 (p_buf src) (y * p_stride src + x) 16) (fun l =>
             obind (mapO (neonLane t) l) (fun v =>
             obind (storeLanes 1 m (y * stride + x) v) (fun m' => loop16 k (x + 16) m')))
    end
  else Ok (x, m).

(** lut_neon.cpp:54-58: the eight indices are looked up twice, the lower half is stored. *)
Fixpoint loop8 (fuel : nat) (x : Z) (m : pbuf) : outcome pbuf :=
  if x <? w then
    match fuel with
    | O => UB
    | S k => obind (loadLanes 1 (p_buf src) (y * p_stride src + x) 8) (fun l =>
             obind (mapO (neonLane t) (l ++ l)) (fun v =>
             obind (storeLanes 1 m (y * stride + x) (firstn 8 v)) (fun m' => loop8 k (x + 8) m')))
    end
  else Ok m.

Definition neonRow (m : pbuf) : outcome pbuf :=
  obind (loop16 (Z.to_nat w) 0 m) (fun xm => loop8 (Z.to_nat w) (fst xm) (snd xm)).
End Row.

(** lutfilters.cpp:103-111. *)
Definition neonPlane (t : table) (w h : Z) (src dst : plane) : outcome pbuf :=
  forZ h (fun y m => neonRow t src (p_stride dst) w y m) (p_buf dst).

(** lutGetframe, lutfilters.cpp:64-156, as compiled for ARM64: [neon] is d->use_neon, and
    ld_vbmi is not there. *)
Definition lutPlaneArm (al : Z) (neon : bool) (d : lutData) (w h : Z) (src dst : plane) : outcome pbuf :=
  if (ld_bytesIn d =? 1) && (f_bytes (vi_fmt (ld_out d)) =? 1) && neon then neonPlane (ld_tbl d) w h src dst
  else lutPlane al d w h src dst.
Definition lutGetFrameArm (al : Z) (g : Z -> Z -> Z) (neon : bool) (d : lutData) (src : vframe) : outcome vframe :=
  let f := vi_fmt (ld_out d) in
  filterFrame al g f (vf_w src) (vf_h src) (ld_process d) src (fun i q =>
    match nthz (vf_planes src) i with
    | Some p => lutPlaneArm al neon d (getWidth (vf_fmt src) (vf_w src) i) (getHeight (vf_fmt src) (vf_h src) i) p q
    | None => UB
    end).
