(** Model of src/core/kernel/generic.cpp (the scalar kernels) and of the filters of
    src/core/genericfilters.cpp, for integer samples.

    A sample type is its size [k] in bytes; T(x) is x mod 256^k.  Kernels of float and half
    formats differ in the operation applied to a neighbourhood only. *)
From Coq Require Import ZArith List Lia Bool.
From Coq Require Import SpecFloat.
From Verif Require Import Common FormatSpec Format Frame ImageSpec PlaneMem Spatial Pixel Lut Soft GenericCast.
Import ListNotations.
Open Scope Z_scope.

Definition chk32 (v : Z) : outcome Z := if in_intb v then Ok v else UB.
Definition chk64 (v : Z) : outcome Z := if in_int64b v then Ok v else UB.

(** kernel/generic.h:27-48, struct vs_generic_params. *)
Record gparams := mkGP {
  g_maxval : Z; g_scale : fl; g_th : Z; g_stencil : Z;
  g_matrix : list Z; g_div : fl; g_bias : fl; g_sat : bool }.
Definition g_size (g : gparams) : Z := zlength (g_matrix g).

(** kernel/generic.cpp:46-49, 57-61. *)
Definition limitS (k maxval x : Z) : Z := Z.min (x mod 65536) maxval mod 256 ^ k.
Definition xrint (k : Z) (x : fl) : outcome Z :=
  obind (lrint (fmin (fmax x (of32 0 0)) (of32 (256 ^ k - 1) 0))) (fun v => Ok (v mod 256 ^ k)).

(** ** Operations on a neighbourhood *)

(** kernel/generic.cpp:76-101, PrewittSobelOp: gx and gy in int32_t. *)
Definition gradientOp (sobel : bool) (k : Z) (g : gparams) (l : list Z) : outcome Z :=
  match l with
  | [a00; a01; a02; a10; a11; a12; a20; a21; a22] =>
      let two := if sobel then 2 else 1 in
      obind (chk32 (a20 + two * a21 + a22 - a00 - two * a01 - a02)) (fun gx =>
      obind (chk32 (a02 + two * a12 + a22 - a00 - two * a10 - a20)) (fun gy =>
      let fx := of32 gx 0 in let fy := of32 gy 0 in
      xrint k (mul32 (SFsqrt 24 128 (add32 (mul32 fx fx) (mul32 fy fy))) (g_scale g))))
  | _ => UB
  end.

(** kernel/generic.cpp:103-143, MinMaxOp. *)
Definition minMaxOp (mx : bool) (k : Z) (g : gparams) (l : list Z) : outcome Z :=
  match l with
  | [a00; a01; a02; a10; a11; a12; a20; a21; a22] =>
      let threshold := g_th g mod 256 ^ k in
      let red lhs rhs := if mx then Z.max lhs rhs else Z.min lhs rhs in
      let st i := Z.testbit (g_stencil g) i in
      let val := a11 in
      let val := red val (if st 0 then a00 else val) in
      let val := red val (if st 1 then a01 else val) in
      let val := red val (if st 2 then a02 else val) in
      let val := red val (if st 3 then a10 else val) in
      let val := red val (if st 4 then a12 else val) in
      let val := red val (if st 5 then a20 else val) in
      let val := red val (if st 6 then a21 else val) in
      let val := red val (if st 7 then a22 else val) in
      obind (chk32 (if mx then a11 + threshold else a11 - threshold)) (fun s =>
      let limit := if mx then s else Z.max s 0 in
      Ok ((if mx then Z.min val limit else Z.max val limit) mod 256 ^ k))
  | _ => UB
  end.

(** kernel/generic.cpp:145-190, MedianOp, over any sample type with a comparison: std::min
    and std::max as the library defines them. *)
Section Median.
Variable T : Type.
Variable lt : T -> T -> bool.
Definition tmin (x y : T) : T := if lt y x then y else x.
Definition tmax (x y : T) : T := if lt x y then y else x.
Definition cex (lhs rhs : T) : T * T := (tmin lhs rhs, tmax lhs rhs).

Definition median9 (a00 a01 a02 a10 a11 a12 a20 a21 a22 : T) : T :=
  let '(a00, a01) := cex a00 a01 in
  let '(a02, a10) := cex a02 a10 in
  let '(a12, a20) := cex a12 a20 in
  let '(a21, a22) := cex a21 a22 in
  let '(a00, a02) := cex a00 a02 in
  let '(a01, a10) := cex a01 a10 in
  let '(a12, a21) := cex a12 a21 in
  let '(a20, a22) := cex a20 a22 in
  let '(a01, a02) := cex a01 a02 in
  let '(a20, a21) := cex a20 a21 in
  let '(a00, a12) := cex a00 a12 in
  let '(a01, a20) := cex a01 a20 in
  let '(a02, a21) := cex a02 a21 in
  let '(a10, a22) := cex a10 a22 in
  let '(a02, a12) := cex a02 a12 in
  let '(a10, a20) := cex a10 a20 in
  let '(a10, a12) := cex a10 a12 in
  let '(a10, a11) := cex a10 a11 in
  let '(a11, a12) := cex a11 a12 in
  a11.
End Median.
Arguments median9 {T}. Arguments cex {T}. Arguments tmin {T}. Arguments tmax {T}.

Definition medianOp (l : list Z) : outcome Z :=
  match l with
  | [a00; a01; a02; a10; a11; a12; a20; a21; a22] => Ok (median9 Z.ltb a00 a01 a02 a10 a11 a12 a20 a21 a22)
  | _ => UB
  end.

(** kernel/generic.cpp:192-218, DeflateInflateOp: the sum in uint32_t. *)
Definition flateOp (inflate : bool) (k : Z) (g : gparams) (l : list Z) : outcome Z :=
  match l with
  | [a00; a01; a02; a10; a11; a12; a20; a21; a22] =>
      let threshold := g_th g mod 256 ^ k in
      let accum := wrapu32 (a00 + a01 + a02 + a10 + a12 + a20 + a21 + a22 + 4) in
      let val := wrap32 (accum / 8) in
      let val := if inflate then Z.max val a11 else Z.min val a11 in
      obind (chk32 (if inflate then a11 + threshold else a11 - threshold)) (fun s =>
      let limit := if inflate then s else Z.max s 0 in
      Ok ((if inflate then Z.min val limit else Z.max val limit) mod 256 ^ k))
  | _ => UB
  end.

(** accum += coeff * sample, in int32_t or int64_t. *)
Definition dot (wide : bool) (l : list (Z * Z)) : outcome Z :=
  let chk := if wide then chk64 else chk32 in
  fold_left (fun acc cv => obind acc (fun s => obind (chk (fst cv * snd cv)) (fun p => chk (s + p)))) l (Ok 0).

(** float tmp = accum * div + bias; tmp = saturate ? tmp : fabs(tmp); xrint<T>(tmp). *)
Definition finish (k : Z) (g : gparams) (accum : Z) : outcome Z :=
  let tmp := add32 (mul32 (of32 accum 0) (g_div g)) (g_bias g) in
  xrint k (if g_sat g then tmp else SFabs tmp).

(** kernel/generic.cpp:220-265, ConvolutionOp. *)
Definition convOp (k : Z) (g : gparams) (l : list Z) : outcome Z :=
  obind (dot false (combine (firstn 9 (g_matrix g)) l)) (finish k g).

(** ** Rows *)

(** Consecutive loops "for (x = lo; x < hi; ++x) row[x] = val(x)" over one row that starts at
    offset [base]. *)
Definition seg := (Z * Z * (Z -> outcome Z))%type.
Definition paintSeg (k base : Z) (s : seg) (m : pbuf) : outcome pbuf :=
  let '(lo, hi, val) := s in
  forFrom lo hi (fun x m' => obind (val x) (fun v => storeS k m' (base + x * k) v)) m.
Fixpoint paintRow (k base : Z) (segs : list seg) (m : pbuf) : outcome pbuf :=
  match segs with
  | [] => Ok m
  | s :: r => obind (paintSeg k base s m) (paintRow k base r)
  end.

Definition paintRows (k h : Z) (segs : Z -> list seg) (dst : plane) : outcome pbuf :=
  forZ h (fun y m => paintRow k (y * p_stride dst) (segs y) m) (p_buf dst).

Definition sampleAt (k : Z) (p : plane) (x y : Z) : outcome Z := loadS k (p_buf p) (y * p_stride p + x * k).

(** kernel/generic.cpp:289-338, filter_plane_3x3; unsigned arithmetic. *)
Definition nine (k : Z) (p : plane) (r0 r1 r2 a b c : Z) : outcome (list Z) :=
  mapO (fun q => sampleAt k p (fst q) (snd q))
    [(a, r0); (b, r0); (c, r0); (a, r1); (b, r1); (c, r1); (a, r2); (b, r2); (c, r2)].

Definition segs3x3 (k maxval : Z) (op : list Z -> outcome Z) (src : plane) (w h i : Z) : list seg :=
  let above := if i =? 0 then 0 else i - 1 in
  let below := if i =? wrapu32 (h - 1) then wrapu32 (h - 1) else i + 1 in
  let at_ a b c := obind (nine k src above i below a b c) (fun l => obind (op l) (fun x => Ok (limitS k maxval x))) in
  [ (0, 1, fun _ => at_ 0 0 (if 1 <? w then 1 else 0));
    (1, wrapu32 (w - 1), fun x => at_ (x - 1) x (x + 1)) ] ++
  (if 1 <? w then [ (wrapu32 (w - 1), w, fun _ => at_ (w - 2) (w - 1) (w - 1)) ] else []).

Definition filter3x3 (k maxval : Z) (op : list Z -> outcome Z) (src : plane) (w h : Z) (dst : plane) : outcome pbuf :=
  paintRows k h (segs3x3 k maxval op src w h) dst.

(** kernel/generic.cpp:340-354, mirror_index, in int. *)
Definition mirrorIndex (pos len : Z) : outcome Z :=
  obind (if pos <? 0 then chk32 (- pos - 1)
         else if len <=? pos then obind (chk32 (2 * len)) (fun d => obind (chk32 (d - 1)) (fun e => chk32 (e - pos)))
         else Ok pos) (fun p =>
  Ok (if p <? 0 then 0 else if len <=? p then len - 1 else p)).

(** kernel/generic.cpp:370-458, conv_plane_square<T, N>; columns of taps outer, rows inner.
    The interior of the kernels wider than 7 is split into blocks of 16 columns and a rest. *)
Definition tapsOf (n : Z) : list (Z * Z) := flat_map (fun c => map (fun r => (c, r)) (zseq n)) (zseq n).

Definition segsSquare (k : Z) (n : Z) (g : gparams) (src : plane) (w h i : Z) : list seg :=
  let s := n / 2 in
  let wide := (1 <? k) && (5 <? n) in
  let edge_ := Z.min w s in
  let pixel (col : Z -> outcome Z) : outcome Z :=
    obind (mapO (fun t => let '(c, r) := t in
             obind (mirrorIndex (i + r - s) h) (fun row =>
             obind (col c) (fun cl =>
             obind (sampleAt k src cl row) (fun v =>
             match nthz (g_matrix g) (r * n + c) with Some q => Ok (q, v) | None => UB end)))) (tapsOf n)) (fun l =>
    obind (dot wide l) (fun a => obind (finish k g a) (fun x => Ok (limitS k (g_maxval g) x)))) in
  let edgePixel j := pixel (fun c => mirrorIndex (j + c - s) w) in
  let innerPixel j := pixel (fun c => Ok (j - s + c)) in
  [ (0, edge_, edgePixel) ] ++
  (if n <=? 7 then [ (s, w - s, innerPixel) ]
   else if 2 * s <? w then
     let stop := w - s in
     let blocked := s + 16 * ((stop - s) / 16) in
     [ (s, blocked, innerPixel); (blocked, stop, innerPixel) ]
   else []) ++
  [ (Z.max s (w - edge_), w, edgePixel) ].

Definition convSquare (k n : Z) (g : gparams) (src : plane) (w h : Z) (dst : plane) : outcome pbuf :=
  paintRows k h (segsSquare k n g src w h) dst.

(** The index of tap [t] at position [j] of [n], kernel/generic.cpp:481-488, 544-551: unsigned
    arithmetic; the last operand of std::min differs between columns and rows. *)
Definition tapIndex (support n lim j t : Z) : Z :=
  let dist := wrapu32 (n - 1 - j) in
  if t <? support then
    if j <? wrapu32 (support - t) then Z.min (wrapu32 (support - t - j - 1)) (wrapu32 (n - 1)) else wrapu32 (j - support + t)
  else
    if dist <? wrapu32 (t - support) then wrapu32 (n - Z.min (wrapu32 (t - support - dist)) lim) else wrapu32 (j - support + t).

Definition pixel1d (k : Z) (g : gparams) (sample : Z -> outcome Z) : outcome Z :=
  obind (mapO (fun t => obind (sample t) (fun v =>
           match nthz (g_matrix g) t with Some q => Ok (q, v) | None => UB end)) (zseq (g_size g))) (fun l =>
  obind (dot false l) (fun a => obind (finish k g a) (fun x => Ok (limitS k (g_maxval g) x)))).

(** kernel/generic.cpp:460-520, conv_scanline_h; [row] reads the scanline. *)
Definition segsH (k : Z) (g : gparams) (w : Z) (row : Z -> outcome Z) : list seg :=
  let support := g_size g / 2 in
  let e := Z.min w support in
  let edgePixel j := pixel1d k g (fun t => row (tapIndex support w w j t)) in
  [ (0, e, edgePixel);
    (support, w - e, fun j => pixel1d k g (fun t => row (j - support + t)));
    (Z.max support (w - e), w, edgePixel) ].

Definition convH (k : Z) (g : gparams) (src : plane) (w h : Z) (dst : plane) : outcome pbuf :=
  paintRows k h (fun y => segsH k g w (fun x => sampleAt k src x y)) dst.

(** kernel/generic.cpp:522-546, conv_scanline_v on the rows chosen by conv_plane_v (561-583);
    here the limit is the row number. *)
Definition segsV (k : Z) (g : gparams) (src : plane) (w h y : Z) : list seg :=
  let support := g_size g / 2 in
  [ (0, w, fun x => pixel1d k g (fun t => sampleAt k src x (tapIndex support h y y t))) ].

Definition convV (k : Z) (g : gparams) (src : plane) (w h : Z) (dst : plane) : outcome pbuf :=
  paintRows k h (segsV k g src w h) dst.

(** kernel/generic.cpp:585-614, conv_plane_x: the vertical pass into a scanline, which the
    horizontal pass reads.  [t0] is what malloc returned. *)
Definition convX (k : Z) (g : gparams) (t0 : Z -> Z) (src : plane) (w h : Z) (dst : plane) : outcome pbuf :=
  obind (forZ h (fun y mt => obind (paintRow k 0 (segsV k g src w h y) (snd mt)) (fun t =>
           obind (paintRow k (y * p_stride dst) (segsH k g w (fun x => loadS k t (x * k))) (fst mt)) (fun m => Ok (m, t))))
         (p_buf dst, mkB (w * k) t0))
    (fun mt => Ok (fst mt)).

(** ** The neighbourhood filters *)

Inductive convType := CSquare | CHorizontal | CVertical | CSeparable.
Inductive gop := OpPrewitt | OpSobel | OpMinimum | OpMaximum | OpMedian | OpDeflate | OpInflate | OpConv (t : convType).

(** genericfilters.cpp:802-815, checkPlaneDims: [true] = accepted. *)
Definition checkPlaneDims (op : gop) (elements w h : Z) : bool :=
  if (w <? 4) || (h <? 4) then false
  else match op with
       | OpConv t =>
           let radius := elements / 2 in
           let horiz := match t with CHorizontal | CSeparable => true | _ => false end in
           let vert := match t with CVertical | CSeparable => true | _ => false end in
           if horiz && (w <=? radius) then false else if vert && (h <=? radius) then false else true
       | _ => true
       end.

(** genericSelectC, genericfilters.cpp:654-800, for integer samples of [k] bytes. *)
Definition kernelOf (op : gop) (k : Z) (g : gparams) (t0 : Z -> Z) (src : plane) (w h : Z) (dst : plane) : outcome pbuf :=
  match op with
  | OpPrewitt => filter3x3 k (g_maxval g) (gradientOp false k g) src w h dst
  | OpSobel => filter3x3 k (g_maxval g) (gradientOp true k g) src w h dst
  | OpMinimum => filter3x3 k (g_maxval g) (minMaxOp false k g) src w h dst
  | OpMaximum => filter3x3 k (g_maxval g) (minMaxOp true k g) src w h dst
  | OpMedian => filter3x3 k (g_maxval g) medianOp src w h dst
  | OpDeflate => filter3x3 k (g_maxval g) (flateOp false k g) src w h dst
  | OpInflate => filter3x3 k (g_maxval g) (flateOp true k g) src w h dst
  | OpConv CSquare =>
      if g_size g =? 9 then filter3x3 k (g_maxval g) (convOp k g) src w h dst
      else if g_size g =? 25 then convSquare k 5 g src w h dst
      else if g_size g =? 49 then convSquare k 7 g src w h dst
      else if g_size g =? 81 then convSquare k 9 g src w h dst
      else convSquare k 11 g src w h dst
  | OpConv CHorizontal => convH k g src w h dst
  | OpConv CVertical => convV k g src w h dst
  | OpConv CSeparable => convX k g t0 src w h dst
  end.

Record genericData := mkGD { gd_op : gop; gd_vi : vinfo; gd_process : Z -> bool; gd_params : gparams }.

(** genericGetframe, genericfilters.cpp:817-873. *)
Definition genericGetFrame (al : Z) (g : Z -> Z -> Z) (t0 : Z -> Z) (d : genericData) (src : vframe) : outcome vframe :=
  let f := vf_fmt src in
  let good i := negb (gd_process d i) || checkPlaneDims (gd_op d) (g_size (gd_params d)) (getWidth f (vf_w src) i) (getHeight f (vf_h src) i) in
  if ((vi_w (gd_vi d) =? 0) || (vi_h (gd_vi d) =? 0)) && negb (forallb good (zseq (f_np f))) then Err
  else filterFrame al g f (vf_w src) (vf_h src) (gd_process d) src (fun i q =>
         match nthz (vf_planes src) i with
         | Some p => kernelOf (gd_op d) (f_bytes f) (gd_params d) t0 p (getWidth f (vf_w src) i) (getHeight f (vf_h src) i) q
         | None => UB
         end).

(** The arguments; numbers given as doubles. *)
Record gargs := mkGA {
  ga_planes : list Z;
  ga_threshold : option fl; ga_coordinates : option (list Z); ga_scale : option fl;
  ga_matrix : list fl; ga_mode : option convType; ga_bias : option fl; ga_divisor : option fl; ga_saturate : option Z }.

(** std::round of a finite double, halves away from zero. *)
Definition roundZ (x : fl) : Z := match x with S754_finite s m e => signed s (mag_away m e) | _ => 0 end.

Fixpoint enableBits (i : Z) (l : list Z) : Z :=
  match l with [] => 0 | v :: r => Z.lor (if v =? 0 then 0 else 2 ^ i) (enableBits (i + 1) r) end.

(** The threshold, genericfilters.cpp:898-916. *)
Definition thresholdOf (bits : Z) (t : option fl) : outcome Z :=
  match t with
  | None => Ok (2 ^ bits - 1)
  | Some x =>
      let thf := to32 x in
      if negb (isFin thf) then Err
      else obind (floatToInt64S thf) (fun ith => if (ith <? 0) || (2 ^ bits - 1 <? ith) then Err else Ok ith)
  end.

(** The coefficients, genericfilters.cpp:978-1006: rounded, at most 1023 in magnitude. *)
Fixpoint coefsOf (l : list fl) : outcome (list Z) :=
  match l with
  | [] => Ok []
  | c :: r =>
      if negb (isFin c) then Err
      else let v := roundZ c in if (v <? -1023) || (1023 <? v) then Err
           else obind (coefsOf r) (fun s => Ok (v :: s))
  end.

Definition eps32 : fl := of32 1 (-23).

(** The reciprocal of the divisor, genericfilters.cpp:1007-1017. *)
Definition rdivOf (m : list Z) (divisor : option fl) : outcome fl :=
  let sum := fold_left (fun s c => add32 s (of32 c 0)) m (of32 0 0) in
  let sum := if SFltb (SFabs sum) eps32 then of32 1 0 else sum in
  let d := match divisor with Some x => to32 x | None => of32 0 0 end in
  if negb (isFin d) then Err
  else let d := match d with S754_zero _ => sum | _ => d end in
       Ok (div32 (of32 1 0) d).

Definition matrixOk (t : convType) (n : Z) : bool :=
  match t with
  | CSquare => (n =? 9) || (n =? 25) || (n =? 49) || (n =? 81) || (n =? 121)
  | _ => (3 <=? n) && (n <=? 25) && Z.odd n
  end.

Definition isThresholded (op : gop) : bool := match op with OpMinimum | OpMaximum | OpDeflate | OpInflate => true | _ => false end.
Definition isMinMax (op : gop) : bool := match op with OpMinimum | OpMaximum => true | _ => false end.
Definition isGradient (op : gop) : bool := match op with OpPrewitt | OpSobel => true | _ => false end.

(** genericCreate, genericfilters.cpp:884-1056, for a constant integer format.  [op] of a
    convolution is chosen from the mode by the caller. *)
Definition genericCreate (op : gop) (vi : vinfo) (a : gargs) : outcome genericData :=
  let f := vi_fmt vi in
  if (f_cf f =? cfUndefined) || negb (f_st f =? stInteger) || (16 <? f_bits f) then Err
  else match getPlanesArg (ga_planes a) with
  | None => Err
  | Some process =>
      obind (if isThresholded op then thresholdOf (f_bits f) (ga_threshold a) else Ok 0) (fun th =>
      obind (if isMinMax op then match ga_coordinates a with
                                 | None => Ok 255
                                 | Some l => if zlength l =? 8 then Ok (enableBits 0 l) else Err
                                 end else Ok 0) (fun enable =>
      obind (if isGradient op then match ga_scale a with
                                   | None => Ok (of32 1 0)
                                   | Some x => let s := to32 x in
                                               if negb (isFin s) || SFltb s (of32 0 0) then Err else Ok s
                                   end else Ok (of32 0 0)) (fun scale =>
      obind (match op with
             | OpConv t =>
                 let bias := match ga_bias a with Some x => to32 x | None => of32 0 0 end in
                 if negb (isFin bias) then Err
                 else if negb (matrixOk t (zlength (ga_matrix a))) then Err
                 else obind (coefsOf (ga_matrix a)) (fun m =>
                      obind (rdivOf m (ga_divisor a)) (fun d => Ok (m, d, bias)))
             | _ => Ok ([], of32 0 0, of32 0 0)
             end) (fun mdb => let '(m, d, bias) := mdb in
      let p := mkGP (2 ^ f_bits f - 1) scale th enable m d bias
                    (match ga_saturate a with Some v => negb (v =? 0) | None => true end) in
      if negb (vi_w vi =? 0) && negb (vi_h vi =? 0)
         && negb (forallb (fun i => negb (process i) ||
              checkPlaneDims op (zlength m) (getWidth f (vi_w vi) i) (getHeight f (vi_h vi) i)) (zseq (f_np f)))
      then Err else Ok (mkGD op vi process p)))))
  end.

(** ** Single sample filters *)

(** genericfilters.cpp:164-217, singlePixelGetFrame: the destination is addressed with the
    stride of the source.  [opts i] reads the parameters of plane [i]. *)
Definition singlePixel (al : Z) (g : Z -> Z -> Z) (process : Z -> bool) (op : vfmt -> Z -> Z -> outcome Z)
    (src : vframe) : outcome vframe :=
  let f := vf_fmt src in
  if negb (f_st f =? stInteger) || (16 <? f_bits f) then Err
  else filterFrame al g f (vf_w src) (vf_h src) process src (fun i q =>
         match nthz (vf_planes src) i with
         | Some p =>
             drawPlane (f_bytes f) (getWidth f (vf_w src) i) (getHeight f (vf_h src) i)
               (fun x y => obind (sampleAt (f_bytes f) p x y) (op f i)) (mkPl (p_stride p) (p_buf q))
         | None => UB
         end).

(** InvertOp, genericfilters.cpp:1071-1085. *)
Definition invertOp (f : vfmt) (i : Z) (v : Z) : outcome Z :=
  let k := f_bytes f in
  let max := (2 ^ f_bits f - 1) mod 65536 in
  Ok ((max mod 256 ^ k - Z.min v (max mod 256 ^ k)) mod 256 ^ k).

Definition invertGetFrame (al : Z) (g : Z -> Z -> Z) (process : Z -> bool) (src : vframe) : outcome vframe :=
  singlePixel al g process invertOp src.

(** getPlanePixelRangeArgs, genericfilters.cpp:56-92, for an integer format. *)
Inductive rangeMode := RangeLower | RangeUpper | RangeMiddle.
Definition rangeDefault (bits : Z) (m : rangeMode) : Z :=
  match m with RangeLower => 0 | RangeUpper => (2 ^ bits - 1) mod 65536 | RangeMiddle => (2 ^ bits / 2) mod 65536 end.

Fixpoint rangeLoop (n : nat) (bits : Z) (m : rangeMode) (l : list fl) (prev : option Z) : outcome (list Z) :=
  match n with
  | O => Ok []
  | S n' =>
      match l with
      | [] => let v := match prev with Some p => p | None => rangeDefault bits m end in
              obind (rangeLoop n' bits m [] prev) (fun r => Ok (v :: r))
      | x :: l' =>
          obind (truncInt64 (add64 x (of64 1 (-1)))) (fun t =>
          if (t <? 0) || (2 ^ bits - 1 <? t) then Err
          else obind (rangeLoop n' bits m l' (Some (t mod 65536))) (fun r => Ok (t mod 65536 :: r)))
      end
  end.
Definition rangeArgs (f : vfmt) (m : rangeMode) (l : list fl) : outcome (list Z) :=
  if f_np f <? zlength l then Err else rangeLoop 3 (f_bits f) m l None.

Record limitData := mkLim { lim_process : Z -> bool; lim_min : list Z; lim_max : list Z }.

(** templateInit, genericfilters.cpp:219-229, then limitCreate, 1144-1163. *)
Definition templateInit (f : vfmt) (planes : list Z) : outcome (Z -> bool) :=
  if (f_cf f =? cfUndefined) || negb (f_st f =? stInteger) || (16 <? f_bits f) then Err
  else match getPlanesArg planes with None => Err | Some p => Ok p end.

Definition limitCreate (f : vfmt) (planes : list Z) (mins maxs : list fl) : outcome limitData :=
  obind (templateInit f planes) (fun process =>
  obind (rangeArgs f RangeLower mins) (fun lo =>
  obind (rangeArgs f RangeUpper maxs) (fun hi =>
  if existsb (fun p => snd p <? fst p) (combine lo hi) then Err else Ok (mkLim process lo hi)))).

(** LimitOp, genericfilters.cpp:1107-1142. *)
Definition limitOp (d : limitData) (f : vfmt) (i v : Z) : outcome Z :=
  match nthz (lim_min d) i, nthz (lim_max d) i with
  | Some lo, Some hi => Ok (Z.min (hi mod 256 ^ f_bytes f) (Z.max (lo mod 256 ^ f_bytes f) v))
  | _, _ => UB
  end.
Definition limitGetFrame (al : Z) (g : Z -> Z -> Z) (d : limitData) (src : vframe) : outcome vframe :=
  singlePixel al g (lim_process d) (limitOp d) src.

Record binData := mkBin { bin_process : Z -> bool; bin_v0 : list Z; bin_v1 : list Z; bin_thr : list Z }.

(** binarizeCreate, genericfilters.cpp:1216-1233; BinarizeOp, 1177-1214. *)
Definition binarizeCreate (f : vfmt) (planes : list Z) (v0 v1 thr : list fl) : outcome binData :=
  obind (templateInit f planes) (fun process =>
  obind (rangeArgs f RangeLower v0) (fun a =>
  obind (rangeArgs f RangeUpper v1) (fun b =>
  obind (rangeArgs f RangeMiddle thr) (fun c => Ok (mkBin process a b c))))).
Definition binarizeOp (d : binData) (f : vfmt) (i v : Z) : outcome Z :=
  match nthz (bin_v0 d) i, nthz (bin_v1 d) i, nthz (bin_thr d) i with
  | Some a, Some b, Some t => Ok ((if v <? t then a else b) mod 256 ^ f_bytes f)
  | _, _, _ => UB
  end.
Definition binarizeGetFrame (al : Z) (g : Z -> Z -> Z) (d : binData) (src : vframe) : outcome vframe :=
  singlePixel al g (bin_process d) (binarizeOp d) src.

(** The float operations, on values: LimitOp and BinarizeOp processPlaneF, genericfilters.cpp:1126-1130,
    1199-1206; InvertOp on chroma, 1088-1092 and (half precision) 1101-1104. *)
Definition limitF (minf maxf v : fl) : fl := fmin maxf (fmax minf v).
Definition binarizeF (v0 v1 thr v : fl) : fl := if SFltb v thr then v0 else v1.
Definition invertF (v : fl) : fl := SFopp v.
Definition invertH (v : Z) : Z := Z.lxor v 32768.

(** ** Levels, genericfilters.cpp:1253-1480, integer formats.  [powf] is the C library's. *)
Section Levels.
Variable powf : fl -> fl -> fl.
(** std::round of a float: halves away from zero; exact from 2^23 on. *)
Definition roundF (x : fl) : fl :=
  match x with S754_finite s m e => if 0 <=? e then x else
                 (match mag_away m e with 0 => S754_zero s | v => of32 (signed s v) 0 end) | _ => x end.
(** static_cast<T> of a non negative float: UB when the truncated value does not fit. *)
Definition castT (k : Z) (x : fl) : outcome Z :=
  obind (truncInt64 x) (fun v => if (0 <=? v) && (v <? 256 ^ k) then Ok v else UB).

Record levels := mkLv { lv_min_in : fl; lv_max_in : fl; lv_min_out : fl; lv_max_out : fl; lv_gamma : fl }.

Definition levelsEntry (k : Z) (maxvalf : fl) (a : levels) (v : Z) : outcome Z :=
  let min_in := roundF (lv_min_in a) in let max_in := roundF (lv_max_in a) in
  let min_out := roundF (lv_min_out a) in let max_out := roundF (lv_max_out a) in
  let x := div32 (fmax (sub32 (fmin (of32 v 0) max_in) min_in) (of32 0 0)) (sub32 max_in min_in) in
  castT k (add32 (fmax (fmin (add32 (mul32 (powf x (lv_gamma a)) (sub32 max_out min_out)) min_out) maxvalf) (of32 0 0))
                 (of32 1 (-1))).

(** The per plane argument check and the reciprocal of gamma, 1437-1450. *)
Definition levelsCheck (a : levels) : bool :=
  if negb (isFin (lv_min_in a)) || negb (isFin (lv_max_in a)) || negb (isFin (lv_min_out a)) || negb (isFin (lv_max_out a)) then false
  else if SFleb (lv_max_in a) (lv_min_in a) then false
  else negb (negb (isFin (lv_gamma a)) || SFleb (lv_gamma a) (of32 0 0)).

(** The table of one plane: a buffer of bytes * 2^bits bytes, filled for 0..255 or 0..2^bits - 1. *)
Fixpoint levelsFill (n : nat) (v : Z) (entry : Z -> outcome Z) (size : Z) (t : table) : outcome table :=
  match n with
  | O => Ok t
  | S n' => obind (entry v) (fun x => if v <? size then levelsFill n' (v + 1) entry size (setT t v x) else UB)
  end.
Definition levelsTable (f : vfmt) (a : levels) : outcome table :=
  if SFltb (SFabs (sub32 (roundF (lv_max_in a)) (roundF (lv_min_in a)))) eps32 then Err else
  let b := mkLv (lv_min_in a) (lv_max_in a) (lv_min_out a) (lv_max_out a) (div32 (of32 1 0) (lv_gamma a)) in
  let maxvalf := if f_bytes f =? 1 then of32 255 0 else of32 (2 ^ f_bits f - 1) 0 in
  levelsFill (Z.to_nat (if f_bytes f =? 1 then 256 else 2 ^ f_bits f)) 0 (levelsEntry (f_bytes f) maxvalf b) (2 ^ f_bits f) noTable.

(** levelsCreate; [arg i] are the arguments of plane [i] as getPlaneFloatArgs completes them. *)
Record levelsData := mkLvD { lvd_process : Z -> bool; lvd_lut : Z -> table }.
Fixpoint levelsTables (n : nat) (i : Z) (f : vfmt) (process : Z -> bool) (arg : Z -> levels) : outcome (Z -> table) :=
  match n with
  | O => Ok (fun _ => noTable)
  | S n' =>
      obind (if process i then levelsTable f (arg i) else Ok noTable) (fun t =>
      obind (levelsTables n' (i + 1) f process arg) (fun r => Ok (fun j => if j =? i then t else r j)))
  end.
Definition levelsCreate (f : vfmt) (planes : list Z) (arg : Z -> levels) : outcome levelsData :=
  obind (templateInit f planes) (fun process =>
  if negb (forallb (fun i => negb (process i) || levelsCheck (arg i)) (zseq (f_np f))) then Err else
  obind (levelsTables (Z.to_nat (f_np f)) 0 f process arg) (fun t => Ok (mkLvD process t))).
End Levels.

(** levelsGetframe, genericfilters.cpp:1266-1306. *)
Definition levelsGetFrame (al : Z) (g : Z -> Z -> Z) (d : levelsData) (src : vframe) : outcome vframe :=
  let f := vf_fmt src in
  filterFrame al g f (vf_w src) (vf_h src) (lvd_process d) src (fun i q =>
    match nthz (vf_planes src) i with
    | Some p =>
        drawPlane (f_bytes f) (getWidth f (vf_w src) i) (getHeight f (vf_h src) i)
          (fun x y => obind (sampleAt (f_bytes f) p x y) (fun v =>
             lookup (2 ^ f_bits f) (lvd_lut d i) (Z.min v ((2 ^ f_bits f - 1) mod 256 ^ f_bytes f)))) q
    | None => UB
    end).
