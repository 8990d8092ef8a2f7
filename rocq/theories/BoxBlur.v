(** Model of src/core/boxblurfilter.cpp for integer samples of [k] bytes. *)
From Coq Require Import ZArith List Lia Bool.
From Verif Require Import Common FormatSpec Format Frame ImageSpec PlaneMem Spatial Pixel Transpose Generic.
Import ListNotations.
Open Scope Z_scope.

(** ** Division by a constant, boxblurfilter.cpp:50-97 *)

Record fastDiv := mkFD { fd_magic : Z; fd_shift : Z; fd_add : bool }.

(** while ((d >> l) > 1) ++l; at most 32 turns for a uint32_t. *)
Fixpoint log2Loop (fuel : nat) (d l : Z) : Z :=
  match fuel with
  | O => l
  | S f => if 1 <? Z.shiftr d l then log2Loop f d (l + 1) else l
  end.

Definition makeFastDiv (d : Z) : fastDiv :=
  let l := log2Loop 32 d 0 in
  if Z.land d (wrapu32 (d - 1)) =? 0 then mkFD 0 l false
  else
    let two_l := wrapu64 (Z.shiftl 1 (32 + l)) in
    let m := wrapu32 (two_l / d) in
    let rem := wrapu32 (two_l - m * d) in
    if wrapu32 (d - rem) <? Z.shiftl 1 l then mkFD (wrapu32 (m + 1)) l false
    else
      let twice := wrapu32 (rem + rem) in
      let m := wrapu32 (m + m) in
      let m := if (d <=? twice) || (twice <? rem) then wrapu32 (m + 1) else m in
      mkFD (wrapu32 (m + 1)) l true.

Definition fastDivU32 (n : Z) (fd : fastDiv) : Z :=
  if fd_magic fd =? 0 then Z.shiftr n (fd_shift fd)
  else
    let q := wrapu32 (Z.shiftr (wrapu64 (fd_magic fd * n)) 32) in
    if fd_add fd then Z.shiftr (wrapu32 (Z.shiftr (wrapu32 (n - q)) 1 + q)) (fd_shift fd)
    else Z.shiftr q (fd_shift fd).

(** ** Rows; [so] and [d] are the offsets of the row in the source and destination buffers *)

Section Rows.
Variables (k w r : Z) (fd : fastDiv) (round : Z).
(** dst[x] = static_cast<T>(fastDivU32(acc + round, fd)) *)
Definition outAt (d x acc : Z) (m : pbuf) : outcome pbuf :=
  storeS k m (d + x * k) (fastDivU32 (wrapu32 (acc + round)) fd mod 256 ^ k).

(** acc = radius * src[0]; for (x = 0; x < radius; x++) acc += src[min(x, width - 1)]; *)
Definition firstAcc (ld : Z -> outcome Z) : outcome Z :=
  obind (ld 0) (fun v0 => obind (chk32 (r * v0)) (fun a =>
  forZ r (fun x acc => obind (ld (Z.min x (w - 1))) (fun v => Ok (wrapu32 (acc + v)))) (wrapu32 a))).

(** std::min(x + radius, width - 1) *)
Definition ahead (x : Z) : outcome Z := obind (chk32 (x + r)) (fun i => Ok (Z.min i (w - 1))).

(** boxblurfilter.cpp:99-124, blurH. *)
Definition blurStep (s : pbuf) (so d : Z) (plus : Z -> outcome Z) (minus : Z -> Z) (x : Z) (st : Z * pbuf) : outcome (Z * pbuf) :=
  let ld i := loadS k s (so + i * k) in
  obind (plus x) (fun i => obind (ld i) (fun v =>
  let acc := wrapu32 (fst st + v) in
  obind (outAt d x acc (snd st)) (fun m =>
  obind (ld (minus x)) (fun o => Ok (wrapu32 (acc - o), m))))).
Definition blurH (s : pbuf) (so d : Z) (m : pbuf) : outcome pbuf :=
  obind (firstAcc (fun i => loadS k s (so + i * k))) (fun acc =>
  obind (forFrom 0 (Z.min r w) (blurStep s so d ahead (fun x => Z.max (x - r) 0)) (acc, m)) (fun st =>
  if r <? w then
    obind (forFrom r (w - r) (blurStep s so d (fun x => chk32 (x + r)) (fun x => x - r)) st) (fun st =>
    obind (forFrom (Z.max (w - r) r) w (blurStep s so d ahead (fun x => Z.max (x - r) 0)) st) (fun st => Ok (snd st)))
  else Ok (snd st))).

(** boxblurfilter.cpp:126-165, blurH_inplace: the row at [d] is source and destination; the
    samples it has overwritten are kept in a ring of min(radius + 1, width). *)
Record rstate := mkR { r_acc : Z; r_mem : pbuf; r_ring : pbuf; r_wr : Z }.
Definition ringStep (d R : Z) (plus : Z -> outcome Z) (minus : rstate -> outcome Z) (x : Z) (st : rstate) : outcome rstate :=
  obind (loadS k (r_mem st) (d + x * k)) (fun v0 =>
  obind (storeS k (r_ring st) (r_wr st * k) v0) (fun ring =>
  let wr := if r_wr st + 1 =? R then 0 else r_wr st + 1 in
  obind (plus x) (fun i => obind (loadS k (r_mem st) (d + i * k)) (fun v =>
  let acc := wrapu32 (r_acc st + v) in
  obind (outAt d x acc (r_mem st)) (fun m =>
  obind (minus (mkR acc m ring wr)) (fun o => Ok (mkR (wrapu32 (acc - o)) m ring wr))))))).
Definition oldest (st : rstate) : outcome Z := loadS k (r_ring st) (r_wr st * k).
Definition blurRing (d : Z) (mr : pbuf * pbuf) : outcome (pbuf * pbuf) :=
  let R := Z.min (r + 1) w in
  let out st := Ok (r_mem st, r_ring st) in
  obind (loadS k (fst mr) d) (fun first =>
  obind (firstAcc (fun i => loadS k (fst mr) (d + i * k))) (fun acc =>
  obind (forFrom 0 (Z.min r w) (ringStep d R ahead (fun _ => Ok first)) (mkR acc (fst mr) (snd mr) 0)) (fun st =>
  if r <? w then
    obind (forFrom r (w - r) (ringStep d R (fun x => chk32 (x + r)) oldest) st) (fun st =>
    obind (forFrom (Z.max (w - r) r) w (ringStep d R ahead oldest) st) out)
  else out st))).
End Rows.
Arguments mkR : clear implicits.

(** boxblurfilter.cpp:167-178, processPlane; [ring] as allocated. *)
Definition processPlane (k w h passes r : Z) (src : plane) (ring : pbuf) (dst : plane) : outcome pbuf :=
  let div := wrapu32 (r * 2 + 1) in
  let round := wrapu32 (div - 1) in
  let fd := makeFastDiv div in
  let str := p_stride src in
  obind (forZ h (fun y mr =>
    obind (blurH k w r fd round (p_buf src) (y * str) (y * str) (fst mr)) (fun m =>
    forFrom 1 passes (fun p mr' => blurRing k w r fd (if Z.odd p then 0 else round) (y * str) mr') (m, snd mr)))
    (p_buf dst, ring)) (fun mr => Ok (fst mr)).

(** boxblurfilter.cpp:331-371, blurHR1, on a source that may be the destination. *)
Definition blurR1 (k w round : Z) (same : bool) (s : pbuf) (so d : Z) (m : pbuf) : outcome pbuf :=
  let ld (m : pbuf) i := loadS k (if same then m else s) (so + i * k) in
  let put (m : pbuf) x acc := storeS k m (d + x * k) ((wrapu32 (acc + round) / 3) mod 256 ^ k) in
  obind (ld m 0) (fun t0 => obind (ld m 1) (fun t1 =>
  let acc := wrapu32 (t0 * 2 + t1) in
  obind (put m 0 acc) (fun m =>
  let acc := wrapu32 (acc - t0) in
  obind (ld m 2) (fun v =>
  let acc := wrapu32 (acc + v) in
  obind (put m 1 acc) (fun m =>
  let acc := wrapu32 (acc - t0) in
  obind (forStep 2 (w - 2) 2 (fun x st => let '(acc, t0, t1, m) := st in
      obind (ld m (x + 1)) (fun v =>
      let acc := wrapu32 (acc + v) in
      obind (put m x acc) (fun m =>
      let acc := wrapu32 (acc - t1) in
      let t1 := v in
      obind (ld m (x + 2)) (fun v =>
      let acc := wrapu32 (acc + v) in
      obind (put m (x + 1) acc) (fun m => Ok (wrapu32 (acc - t0), v, t1, m)))))) (acc, v, t1, m)) (fun st =>
  let '(acc, t0, t1, m) := st in
  if Z.odd w then put m (w - 1) (wrapu32 (acc + t0))
  else obind (ld m (w - 1)) (fun v =>
       let acc := wrapu32 (acc + v) in
       obind (put m (w - 2) acc) (fun m => put m (w - 1) (wrapu32 (wrapu32 (acc - t1) + v)))))))))).

(** boxblurfilter.cpp:373-382, processPlaneR1. *)
Definition processR1 (k w h passes : Z) (src dst : plane) : outcome pbuf :=
  let str := p_stride src in
  forZ h (fun y m =>
    obind (blurR1 k w 2 false (p_buf src) (y * str) (y * str) m) (fun m =>
    forFrom 1 passes (fun p m' => blurR1 k w (if Z.odd p then 0 else 2) true (p_buf src) (y * str) (y * str) m') m)) (p_buf dst).

(** ** boxBlurGetframe, boxblurfilter.cpp:515-566: plane 0 only.  [ring0] is what new[] returned;
    a null ring is one of size 0. *)
Definition boxGetFrame (al : Z) (g : Z -> Z -> Z) (ring0 : Z -> Z) (radius passes : Z) (src : vframe) : outcome vframe :=
  let f := vf_fmt src in
  let k := f_bytes f in
  if negb (f_st f =? stInteger) || (16 <? f_bits f) then Err
  else obind (newFrame al g f (vf_w src) (vf_h src) (vf_props src)) (fun dst =>
    onPlanes src dst 1 (fun i p q =>
      let w := getWidth f (vf_w src) i in let h := getHeight f (vf_h src) i in
      let useR1 := (radius =? 1) && (3 <=? w) in
      let ring := mkB (if negb useR1 && (1 <? passes) then k * Z.min (radius + 1) w else 0) ring0 in
      if useR1 then processR1 k w h passes p q else processPlane k w h passes radius p ring q)).

(** ** applyBoxBlurPlaneFiltering, boxblurfilter.cpp:574-603: what the chain of nodes computes. *)
Record boxArgs := mkBA { ba_hr : Z; ba_hp : Z; ba_vr : Z; ba_vp : Z }.
Definition on2 (r p : Z) : bool := (0 <? r) && (0 <? p).
Record ambient := mkAm { am_al : Z; am_g : Z -> Z -> Z; am_ring : Z -> Z; am_sse2 : bool }.
Definition boxChain (e : ambient) (a : boxArgs) (vi : vinfo) (src : vframe) : outcome vframe :=
  obind (if on2 (ba_hr a) (ba_hp a) then boxGetFrame (am_al e) (am_g e) (am_ring e) (ba_hr a) (ba_hp a) src else Ok src) (fun b =>
  if on2 (ba_vr a) (ba_vp a) then
    obind (transposeCreate vi) (fun vt => obind (transposeCreate vt) (fun vo =>
    obind (transposeGetFrame (am_al e) (am_g e) (am_sse2 e) Transpose.Transpose vt b) (fun t =>
    obind (boxGetFrame (am_al e) (am_g e) (am_ring e) (ba_vr a) (ba_vp a) t) (fun u =>
    transposeGetFrame (am_al e) (am_g e) (am_sse2 e) Transpose.Transpose vo u))))
  else Ok b).

(** boxBlurCreate, boxblurfilter.cpp:605-690: argument checks. *)
Definition argOr1 (o : option Z) : Z := match o with Some v => sat32 v | None => 1 end.
Definition boxCreate (vi : vinfo) (planes : list Z) (hr hp vr vp : option Z) : outcome (boxArgs * (Z -> bool)) :=
  let f := vi_fmt vi in
  if (f_cf f =? cfUndefined) || negb (f_st f =? stInteger) || (16 <? f_bits f) then Err
  else match getPlanesArg planes with
  | None => Err
  | Some process =>
      let a := mkBA (argOr1 hr) (argOr1 hp) (argOr1 vr) (argOr1 vp) in
      if (ba_hp a <? 0) || (ba_vp a <? 0) then Err
      else if (ba_hr a <? 0) || (ba_vr a <? 0) then Err
      else if (30000 <? ba_hr a) || (30000 <? ba_vr a) then Err
      else if negb (on2 (ba_hr a) (ba_hp a)) && negb (on2 (ba_vr a) (ba_vp a)) then Err
      else if (vi_w vi <? 4) || (vi_h vi <? 4) then Err
      else Ok (a, process)
  end.

(** The frame the returned node delivers for the source frame [src]: single plane clips go
    through the chain, the planes of others are extracted, filtered and joined again. *)
Definition boxPart (e : ambient) (a : boxArgs) (process : Z -> bool) (vi : vinfo) (src : vframe) (i : Z) : outcome (vinfo * vframe) :=
  if process i then
    obind (shuffleCreate [vi] [i] cfGray) (fun d =>
    obind (shuffleGetFrame d [src] src) (fun fr =>
    obind (boxChain e a (sd_vi d) fr) (fun r => Ok (sd_vi d, r))))
  else Ok (vi, src).
Definition boxFrame (e : ambient) (a : boxArgs) (process : Z -> bool) (vi : vinfo) (src : vframe) : outcome vframe :=
  if f_np (vi_fmt vi) =? 1 then boxChain e a vi src
  else
    obind (boxPart e a process vi src 0) (fun p0 => obind (boxPart e a process vi src 1) (fun p1 => obind (boxPart e a process vi src 2) (fun p2 =>
    obind (shuffleCreate [fst p0; fst p1; fst p2] [0; if process 1 then 0 else 1; if process 2 then 0 else 2] (f_cf (vi_fmt vi))) (fun d =>
    shuffleGetFrame d [snd p0; snd p1; snd p2] (snd p0))))).
