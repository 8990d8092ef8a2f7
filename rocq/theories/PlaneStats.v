(** PlaneStats on integer clips.  src/core/kernel/planestats.cpp, src/core/kernel/x86/planestats_sse2.cpp,
    src/core/simplefilters.cpp:1888-2047 *)
From Coq Require Import String.
From Coq Require Import ZArith List Lia Bool SpecFloat.
From Verif Require Import Common FormatSpec Format Frame PlaneMem Spatial Pixel Soft Generic Average.
Import ListNotations.
Open Scope Z_scope.

(** union vs_plane_stats, integer part *)
Record stats := mkSt { st_min : Z; st_max : Z; st_acc : Z; st_diff : Z }.

(** ** C kernels, planestats.cpp:25-69 and 119-170.  The kernels for one source are the same without [other]; their diffacc
    stays as initialised, 0. *)
Definition diffC (k v t : Z) : Z := if k =? 1 then (if t <? v then wrapu8 (v - t) else wrapu8 (t - v)) else Z.abs (v - t).
Definition statStep (k v : Z) (t : option Z) (s : stats) : stats :=
  mkSt (Z.min (st_min s) v) (Z.max (st_max s) v) (wrapu64 (st_acc s + v))
       (match t with Some t => wrapu64 (st_diff s + diffC k v t) | None => st_diff s end).
Definition loadOther (k : Z) (other : option plane) (x y : Z) : outcome (option Z) :=
  match other with
  | Some q => obind (loadS k (p_buf q) (y * p_stride q + x * k)) (fun t => Ok (Some t))
  | None => Ok None
  end.
Definition statsC (k w h : Z) (p : plane) (other : option plane) : outcome stats :=
  forZ h (fun y s => forZ w (fun x s' =>
    obind (loadS k (p_buf p) (y * p_stride p + x * k)) (fun v =>
    obind (loadOther k other x y) (fun t => Ok (statStep k v t s')))) s)
    (mkSt (if k =? 1 then 255 else 4294967295) 0 0 0).

(** ** SSE2 kernels, planestats_sse2.cpp *)
Fixpoint map2 {A B C} (f : A -> B -> C) (a : list A) (b : list B) : list C :=
  match a, b with x :: a', y :: b' => f x y :: map2 f a' b' | _, _ => [] end.
(** Lane [i] of the mask: i < width % n. *)
Definition maskOf (n w : Z) : list bool := map (fun i => i <? w mod n) (zseq n).
Definition keep (m : list bool) (v : list Z) : list Z := map2 (fun b x => if b : bool then x else 0) m v.
Definition orOnes (ones : Z) (m : list bool) (v : list Z) : list Z := map2 (fun b x => if b : bool then x else Z.lor x ones) m v.
(** _mm_srli_si128 by n lanes, lane 0 of a horizontal reduction by halves. *)
Definition srli (n : nat) (v : list Z) : list Z := skipn n v ++ repeat 0 n.
Definition hred (f : Z -> Z -> Z) (v : list Z) (steps : list nat) : Z :=
  hd 0 (fold_left (fun v n => map2 f v (srli n v)) steps v).

(** _mm_sad_epu8: the two sums of eight absolute differences. *)
Definition sad (a b : list Z) : list Z :=
  let d := map2 (fun x y => Z.abs (x - y)) a b in
  [fold_right Z.add 0 (firstn 8 d); fold_right Z.add 0 (skipn 8 d)].
Definition add64v : list Z -> list Z -> list Z := map2 (fun a b => wrapu64 (a + b)).
Record byteState := mkBS { bs_min : list Z; bs_max : list Z; bs_acc : list Z; bs_diff : list Z }.
Definition byteStep (vmin v : list Z) (t : option (list Z)) (s : byteState) : byteState :=
  mkBS (map2 Z.min (bs_min s) vmin) (map2 Z.max (bs_max s) v) (add64v (bs_acc s) (sad v (repeat 0 16)))
       (match t with Some t => add64v (bs_diff s) (sad v t) | None => bs_diff s end).
Definition loadV (k : Z) (n : nat) (p : plane) (x y : Z) : outcome (list Z) := loadLanes k (p_buf p) (y * p_stride p + x * k) n.
Definition loadOtherV (k : Z) (n : nat) (other : option plane) (x y : Z) : outcome (option (list Z)) :=
  match other with Some q => obind (loadV k n q x y) (fun t => Ok (Some t)) | None => Ok None end.
Definition byteSSE2 (w h : Z) (p : plane) (other : option plane) : outcome stats :=
  let mask := maskOf 16 w in
  obind (forZ h (fun y s =>
    obind (forZ (w / 16) (fun j s' =>
      obind (loadV 1 16 p (16 * j) y) (fun v => obind (loadOtherV 1 16 other (16 * j) y) (fun t => Ok (byteStep v v t s')))) s) (fun s =>
    if w mod 16 =? 0 then Ok s
    else obind (loadV 1 16 p (16 * (w / 16)) y) (fun v => obind (loadOtherV 1 16 other (16 * (w / 16)) y) (fun t =>
         let v := keep mask v in Ok (byteStep (orOnes 255 mask v) v (option_map (keep mask) t) s)))))
    (mkBS (repeat 255 16) (repeat 0 16) [0; 0] [0; 0])) (fun s =>
  let total l := wrapu64 (hd 0 l + hd 0 (srli 1 l)) in
  Ok (mkSt (Z.land (hred Z.min (bs_min s) [8; 4; 2; 1]%nat) 255) (Z.land (hred Z.max (bs_max s) [8; 4; 2; 1]%nat) 255)
           (total (bs_acc s)) (total (bs_diff s)))).

(** Lanes of 16 bits as signed numbers. *)
Definition s16 (x : Z) : Z := (x + 32768) mod 65536 - 32768.
Definition biased (v : list Z) : list Z := map (fun x => s16 (x + -32768)) v.
(** _mm_madd_epi16 with ones: sums of pairs. *)
Fixpoint madd1 (v : list Z) : list Z := match v with a :: b :: r => wrap32 (a * 1 + b * 1) :: madd1 r | _ => [] end.
Definition add32v : list Z -> list Z -> list Z := map2 (fun a b => wrap32 (a + b)).
(** Sign extension of the four lanes of [r], added in pairs to the two 64 bit lanes of [m]. *)
Definition spill (r m : list Z) : list Z :=
  map2 (fun a b => wrap64 (a + b)) m (map2 (fun a b => wrap64 (a + b)) (firstn 2 r) (skipn 2 r)).
Definition absdiff (a b : list Z) : list Z := map2 (fun x y => Z.lor (Z.max (x - y) 0) (Z.max (y - x) 0)) a b.
Record wordState := mkWS { ws_min : list Z; ws_max : list Z; ws_acc : list Z; ws_diff : list Z; ws_racc : list Z; ws_rdiff : list Z; ws_pending : Z }.
Definition spillState (s : wordState) : wordState :=
  mkWS (ws_min s) (ws_max s) (spill (ws_racc s) (ws_acc s)) (spill (ws_rdiff s) (ws_diff s)) (repeat 0 4) (repeat 0 4) 0.
(** [vmin]: lanes for the minimum, [km]: what the masked sums keep. *)
Definition wordStep (vmin v : list Z) (t : option (list Z)) (km : list Z -> list Z) (s : wordState) : wordState :=
  mkWS (map2 Z.min (ws_min s) (biased vmin)) (map2 Z.max (ws_max s) (biased v)) (ws_acc s) (ws_diff s)
       (add32v (ws_racc s) (madd1 (km (biased v))))
       (match t with Some t => add32v (ws_rdiff s) (madd1 (km (biased (absdiff v t)))) | None => ws_rdiff s end)
       (ws_pending s + 1).
Definition spillWhen (s : wordState) : wordState := if ws_pending s =? 32768 then spillState s else s.
Definition zeros4 (s : wordState) : wordState := mkWS (ws_min s) (ws_max s) (ws_acc s) (ws_diff s) (repeat 0 4) (repeat 0 4) 0.
Definition wordSSE2 (w h : Z) (p : plane) (other : option plane) : outcome stats :=
  let mask := maskOf 8 w in
  obind (forZ h (fun y s =>
    obind (forZ (w / 8) (fun j s' =>
      obind (loadV 2 8 p (8 * j) y) (fun v => obind (loadOtherV 2 8 other (8 * j) y) (fun t => Ok (spillWhen (wordStep v v t (fun l => l) s'))))) (zeros4 s)) (fun s =>
    if w mod 8 =? 0 then Ok (spillState s)
    else obind (loadV 2 8 p (8 * (w / 8)) y) (fun v => obind (loadOtherV 2 8 other (8 * (w / 8)) y) (fun t =>
         let v := keep mask v in Ok (spillState (wordStep (orOnes 65535 mask v) v (option_map (keep mask) t) (keep mask) s))))))
    (mkWS (repeat 32767 8) (repeat (-32768) 8) [0; 0] [0; 0] (repeat 0 4) (repeat 0 4) 0)) (fun s =>
  let bias := wrapu64 (Z.shiftl (wrapu64 (w * h)) 15) in
  let total l := obind (chk64 (wrap64 (hd 0 l + hd 0 (srli 1 l)) + wrap64 bias)) (fun v => Ok (wrapu64 v)) in
  obind (total (ws_acc s)) (fun a =>
  obind (match other with Some _ => total (ws_diff s) | None => Ok 0 end) (fun e =>
  Ok (mkSt (hred Z.min (ws_min s) [4; 2; 1]%nat - -32768) (hred Z.max (ws_max s) [4; 2; 1]%nat - -32768) a e)))).

(** ** AVX2 kernels, kernel/x86/planestats_avx2.cpp *)
(** The two halves of a register combined, then the steps within 128 bits: hmax_epu8 and the like, lines 29-67. *)
Definition hredHalves (f : Z -> Z -> Z) (v : list Z) (n : nat) (steps : list nat) : Z := hred f (map2 f (firstn n v) (skipn n v)) steps.
(** _mm256_sad_epu8: four sums of eight. *)
Definition sad4 (a b : list Z) : list Z := sad (firstn 16 a) (firstn 16 b) ++ sad (skipn 16 a) (skipn 16 b).
(** hadd_epi64, lines 85-90. *)
Definition hadd64 (l : list Z) : Z := let t := add64v (firstn 2 l) (skipn 2 l) in wrapu64 (hd 0 t + hd 0 (srli 1 t)).
Definition byteStep4 (vmin v : list Z) (t : option (list Z)) (s : byteState) : byteState :=
  mkBS (map2 Z.min (bs_min s) vmin) (map2 Z.max (bs_max s) v) (add64v (bs_acc s) (sad4 v (repeat 0 32)))
       (match t with Some t => add64v (bs_diff s) (sad4 v t) | None => bs_diff s end).
(** vs_plane_stats_1_byte_avx2 and vs_plane_stats_2_byte_avx2, lines 106-136, 261-300. *)
Definition byteAVX2 (w h : Z) (p : plane) (other : option plane) : outcome stats :=
  let mask := maskOf 32 w in
  obind (forZ h (fun y s =>
    obind (forZ (w / 32) (fun j s' =>
      obind (loadV 1 32 p (32 * j) y) (fun v => obind (loadOtherV 1 32 other (32 * j) y) (fun t => Ok (byteStep4 v v t s')))) s) (fun s =>
    if w mod 32 =? 0 then Ok s
    else obind (loadV 1 32 p (32 * (w / 32)) y) (fun v => obind (loadOtherV 1 32 other (32 * (w / 32)) y) (fun t =>
         let v := keep mask v in Ok (byteStep4 (orOnes 255 mask v) v (option_map (keep mask) t) s)))))
    (mkBS (repeat 255 32) (repeat 0 32) (repeat 0 4) (repeat 0 4))) (fun s =>
  Ok (mkSt (Z.land (hredHalves Z.min (bs_min s) 16 [8; 4; 2; 1]%nat) 255) (Z.land (hredHalves Z.max (bs_max s) 16 [8; 4; 2; 1]%nat) 255)
           (hadd64 (bs_acc s)) (hadd64 (bs_diff s)))).

(** Sign extension of the two halves of [r], added to the four 64 bit lanes of [m]. *)
Definition spill4 (r m : list Z) : list Z :=
  map2 (fun a b => wrap64 (a + b)) m (map2 (fun a b => wrap64 (a + b)) (firstn 4 r) (skipn 4 r)).
Definition spillState4 (s : wordState) : wordState :=
  mkWS (ws_min s) (ws_max s) (spill4 (ws_racc s) (ws_acc s)) (spill4 (ws_rdiff s) (ws_diff s)) (repeat 0 8) (repeat 0 8) 0.
(** Minimum and maximum are those of unsigned lanes; only the sums are biased. *)
Definition wordStep4 (vmin v : list Z) (t : option (list Z)) (km : list Z -> list Z) (s : wordState) : wordState :=
  mkWS (map2 Z.min (ws_min s) vmin) (map2 Z.max (ws_max s) v) (ws_acc s) (ws_diff s)
       (add32v (ws_racc s) (madd1 (km (biased v))))
       (match t with Some t => add32v (ws_rdiff s) (madd1 (km (biased (absdiff v t)))) | None => ws_rdiff s end)
       (ws_pending s + 1).
Definition spillWhen4 (s : wordState) : wordState := if ws_pending s =? 32768 then spillState4 s else s.
Definition zeros8 (s : wordState) : wordState := mkWS (ws_min s) (ws_max s) (ws_acc s) (ws_diff s) (repeat 0 8) (repeat 0 8) 0.
(** The four lanes added as 64 bit numbers. *)
Definition total4 (l : list Z) : Z := let t := map2 (fun a b => wrap64 (a + b)) (firstn 2 l) (skipn 2 l) in wrap64 (hd 0 t + hd 0 (srli 1 t)).
(** vs_plane_stats_1_word_avx2 and vs_plane_stats_2_word_avx2, lines 138-191, 302-374. *)
Definition wordAVX2 (w h : Z) (p : plane) (other : option plane) : outcome stats :=
  let mask := maskOf 16 w in
  obind (forZ h (fun y s =>
    obind (forZ (w / 16) (fun j s' =>
      obind (loadV 2 16 p (16 * j) y) (fun v => obind (loadOtherV 2 16 other (16 * j) y) (fun t => Ok (spillWhen4 (wordStep4 v v t (fun l => l) s'))))) (zeros8 s)) (fun s =>
    if w mod 16 =? 0 then Ok (spillState4 s)
    else obind (loadV 2 16 p (16 * (w / 16)) y) (fun v => obind (loadOtherV 2 16 other (16 * (w / 16)) y) (fun t =>
         let v := keep mask v in Ok (spillState4 (wordStep4 (orOnes 65535 mask v) v (option_map (keep mask) t) (keep mask) s))))))
    (mkWS (repeat 65535 16) (repeat 0 16) (repeat 0 4) (repeat 0 4) (repeat 0 8) (repeat 0 8) 0)) (fun s =>
  let bias := wrapu64 (Z.shiftl (wrapu64 (w * h)) 15) in
  let total l := obind (chk64 (total4 l + wrap64 bias)) (fun v => Ok (wrapu64 v)) in
  obind (total (ws_acc s)) (fun a =>
  obind (match other with Some _ => total (ws_diff s) | None => Ok 0 end) (fun e =>
  Ok (mkSt (hredHalves Z.min (ws_min s) 8 [4; 2; 1]%nat) (hredHalves Z.max (ws_max s) 8 [4; 2; 1]%nat) a e)))).

(** ** planeStatsGetFrame, simplefilters.cpp:1902-2013, integer formats.  The frame properties that are floating point
    numbers are returned separately. *)
Record statsData := mkPS { ps_plane : Z; ps_prop : string; ps_two : bool }.
Record statsFrame := mkSF { sf_frame : vframe; sf_avg : fl; sf_diff : option fl }.
Inductive statsLevel := levelC | levelSSE2 | levelAVX2.
Definition planeStats (lv : statsLevel) (k w h : Z) (p : plane) (other : option plane) : outcome stats :=
  match lv with
  | levelC => statsC k w h p other
  | levelSSE2 => if k =? 1 then byteSSE2 w h p other else wordSSE2 w h p other
  | levelAVX2 => if k =? 1 then byteAVX2 w h p other else wordAVX2 w h p other
  end.
(** stats.i.acc / (double)((int64_t)width * height * (((int64_t)1 << fi->bitsPerSample) - 1)) *)
Definition statsQuotient (w h bits acc : Z) : outcome fl :=
  obind (chk64 (w * h)) (fun n => obind (chk64 (n * (2 ^ bits - 1))) (fun d => Ok (div64 (of64 acc 0) (of64 d 0)))).
Definition statsGetFrame (lv : statsLevel) (d : statsData) (src : vframe) (src2 : option vframe) : outcome statsFrame :=
  let f := vf_fmt src in
  let w := getWidth f (vf_w src) (ps_plane d) in let h := getHeight f (vf_h src) (ps_plane d) in
  match nthz (vf_planes src) (ps_plane d), option_map (fun s => nthz (vf_planes s) (ps_plane d)) src2 with
  | None, _ | _, Some None => UB
  | Some p, other =>
      obind (planeStats lv (f_bytes f) w h p (match other with Some o => o | None => None end)) (fun s =>
      obind (statsQuotient w h (f_bits f) (st_acc s)) (fun avg =>
      obind (if ps_two d then obind (statsQuotient w h (f_bits f) (st_diff s)) (fun x => Ok (Some x)) else Ok None) (fun diff =>
      Ok (mkSF (mkVF f (vf_w src) (vf_h src) (vf_planes src)
                  (setProp (ps_prop d ++ "Max") (st_max s) (setProp (ps_prop d ++ "Min") (st_min s) (vf_props src)))) avg diff))))
  end.

(** planeStatsCreate, simplefilters.cpp:2015-2047 *)
Definition statsCreate (vi : vinfo) (plane : option Z) (vi2 : option vinfo) (prop : option string) : outcome statsData :=
  let f := vi_fmt vi in
  let pl := match plane with Some v => sat32 v | None => 0 end in
  if (f_cf f =? cfUndefined) || ((f_st f =? stInteger) && (16 <? f_bits f)) || negb (f_st f =? stInteger) then Err
  else if (pl <? 0) || (f_np f <=? pl) then Err
  else if match vi2 with Some v2 => negb (sameInfo vi v2) || negb (constantFormat v2) | None => false end then Err
  else Ok (mkPS pl (match prop with Some s => s | None => "PlaneStats" end) (match vi2 with Some _ => true | None => false end)).
