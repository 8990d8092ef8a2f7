(** Model of the geometric filters of src/core/simplefilters.cpp: Crop, AddBorders,
    FlipVertical, FlipHorizontal, Turn180, StackVertical, StackHorizontal,
    SeparateFields, DoubleWeave, ShufflePlanes, SplitPlanes.  (Transpose and the turns
    are in Transpose.v.)

    Frames are values here: what getReadPtr and getWritePtr give access to, the sharing
    of planes being the subject of Frame.v.  Row lengths and offsets are computed
    without overflow (a row of 2^31 bytes or more cannot be allocated); sums of
    user-supplied sizes, which can overflow, are checked. *)
From Coq Require Import String.
From Coq Require Import ZArith List Lia Bool.
From Verif Require Import Common FormatSpec Format Frame ImageSpec PlaneMem.
Import ListNotations.
Open Scope Z_scope.

(** Integer frame properties (first element of each). *)
Definition props := string -> option Z.
Definition setProp (k : string) (v : Z) (p : props) : props :=
  fun x => if String.eqb x k then Some v else p x.
Definition delProp (k : string) (p : props) : props :=
  fun x => if String.eqb x k then None else p x.

Record vframe := mkVF { vf_fmt : vfmt; vf_w : Z; vf_h : Z; vf_planes : list plane; vf_props : props }.

(** struct VSVideoInfo without the frame rate. *)
Record vinfo := mkVI { vi_fmt : vfmt; vi_w : Z; vi_h : Z; vi_n : Z }.

(** vscore.cpp, VSPlaneData sizes and strides of a new frame, see Frame.v. *)
Definition strideAt (al : Z) (f : vfmt) (w i : Z) : Z :=
  if i =? 0 then stride0 al f w else stride12 al f w.

(** newVideoFrame: contents are whatever the memory held ([g]).  Non-positive dimensions
    terminate the process; that is counted as [UB] here. *)
Definition newFrame (al : Z) (g : Z -> Z -> Z) (f : vfmt) (w h : Z) (p : props) : outcome vframe :=
  if (w <=? 0) || (h <=? 0) then UB
  else Ok (mkVF f w h
            (map (fun i => mkPl (strideAt al f w i) (mkB (strideAt al f w i * getHeight f h i) (g i)))
                 (zseq (f_np f)))
            p).

(** for (plane = 0; plane < numPlanes; plane++): the planes do not influence each other. *)
Fixpoint eachPlane (n : nat) (i : Z) (f : Z -> outcome plane) : outcome (list plane) :=
  match n with
  | O => Ok []
  | S k => obind (f i) (fun p => obind (eachPlane k (i + 1) f) (fun r => Ok (p :: r)))
  end.

(** Source plane and destination plane [i]. *)
Definition withPlanes (src dst : list plane) (f : Z -> plane -> plane -> outcome pbuf) (i : Z) : outcome plane :=
  match nthz src i, nthz dst i with
  | Some p, Some q => obind (f i p q) (fun b => Ok (mkPl (p_stride q) b))
  | _, _ => UB
  end.

Definition onPlanes (src dst : vframe) (n : Z) (f : Z -> plane -> plane -> outcome pbuf) : outcome vframe :=
  obind (eachPlane (Z.to_nat n) 0 (withPlanes (vf_planes src) (vf_planes dst) f))
        (fun l => Ok (mkVF (vf_fmt dst) (vf_w dst) (vf_h dst) l (vf_props dst))).

Definition addI (a b : Z) : outcome Z := if in_intb (a + b) then Ok (a + b) else UB.
Definition subI (a b : Z) : outcome Z := if in_intb (a - b) then Ok (a - b) else UB.
Definition mulI (a b : Z) : outcome Z := if in_intb (a * b) then Ok (a * b) else UB.

Definition ssw (f : vfmt) (i : Z) : Z := if i =? 0 then 0 else f_ssw f.
Definition ssh (f : vfmt) (i : Z) : Z := if i =? 0 then 0 else f_ssh f.

(** ** Crop *)

(** cropVerify, simplefilters.cpp:108-138; true = a message was produced.  The sums are
    only formed when the source has a size; the second only when the first test failed. *)
Definition cropVerify (x y w h srcw srch : Z) (f : vfmt) : outcome bool :=
  let neg := (y <? 0) || (x <? 0) in
  let empty := (w <=? 0) || (h <=? 0) in
  let mods := negb (Z.rem w (2 ^ f_ssw f) =? 0) || negb (Z.rem h (2 ^ f_ssh f) =? 0)
              || negb (Z.rem x (2 ^ f_ssw f) =? 0) || negb (Z.rem y (2 ^ f_ssh f) =? 0) in
  obind
    (if (0 <? srch) && (0 <? srcw) then
       obind (addI h y) (fun b => if srch <? b then Ok true
                                  else obind (addI w x) (fun r => Ok (srcw <? r)))
     else Ok false)
    (fun beyond => Ok (neg || empty || beyond || mods)).

(** The same with wrapping additions: what the machine computes when the compiler does
    not exploit the overflow. *)
Definition cropVerifyWrap (x y w h srcw srch : Z) (f : vfmt) : bool :=
  let beyond := if (0 <? srch) && (0 <? srcw)
                then (srch <? wrap32 (h + y)) || (srcw <? wrap32 (w + x)) else false in
  (y <? 0) || (x <? 0) || (w <=? 0) || (h <=? 0) || beyond
  || negb (Z.rem w (2 ^ f_ssw f) =? 0) || negb (Z.rem h (2 ^ f_ssh f) =? 0)
  || negb (Z.rem x (2 ^ f_ssw f) =? 0) || negb (Z.rem y (2 ^ f_ssh f) =? 0).

(** simplefilters.cpp:172-178 and 371-377: an odd vertical offset exchanges the fields. *)
Definition fieldBased := "_FieldBased"%string.
Definition swapFields (odd : bool) (p : props) : props :=
  if odd then
    match p fieldBased with
    | Some 1 => setProp fieldBased 2 p
    | Some 2 => setProp fieldBased 1 p
    | _ => p
    end
  else p.

(** cropGetframe, simplefilters.cpp:140-186. *)
Definition cropPlane (x y w : Z) (f : vfmt) (dh : Z) (i : Z) (p q : plane) : outcome pbuf :=
  bitblt (p_buf q) 0 (p_stride q)
         (p_buf p) (p_stride p * Z.shiftr y (ssh f i) + Z.shiftr x (ssw f i) * f_bytes f) (p_stride p)
         (Z.shiftr w (ssw f i) * f_bytes f) (getHeight f dh i).

Definition cropGetFrame (al : Z) (g : Z -> Z -> Z) (x y w h : Z) (src : vframe) : outcome vframe :=
  let f := vf_fmt src in
  obind (cropVerify x y w h (vf_w src) (vf_h src) f) (fun bad =>
    if bad then Err
    else obind (newFrame al g f w h (vf_props src)) (fun dst =>
      obind (onPlanes src dst (f_np f) (cropPlane x y w f h)) (fun r =>
        Ok (mkVF (vf_fmt r) (vf_w r) (vf_h r) (vf_planes r) (swapFields (Z.odd y) (vf_props r)))))).

Record cropData := mkCD { c_x : Z; c_y : Z; c_w : Z; c_h : Z }.

(** mapGetIntSaturated of an optional argument, 0 when absent. *)
Definition optI (o : option Z) : Z := match o with Some v => sat32 v | None => 0 end.

(** cropAbsCreate, simplefilters.cpp:188-215. *)
Definition cropAbsCreate (vi : vinfo) (left x top y : option Z) (width height : Z) : outcome (cropData * vinfo) :=
  let cx := match left with Some v => sat32 v | None => optI x end in
  let cy := match top with Some v => sat32 v | None => optI y end in
  let w := sat32 width in
  let h := sat32 height in
  obind (cropVerify cx cy w h (vi_w vi) (vi_h vi) (vi_fmt vi)) (fun bad =>
    if bad then Err else Ok (mkCD cx cy w h, mkVI (vi_fmt vi) w h (vi_n vi))).

Definition constantFormat (vi : vinfo) : bool :=
  (0 <? vi_h vi) && (0 <? vi_w vi) && negb (f_cf (vi_fmt vi) =? cfUndefined).

(** cropRelCreate, simplefilters.cpp:217-249; [None] = the source is passed through. *)
Definition cropRelCreate (vi : vinfo) (left right top bottom : option Z) : outcome (option cropData * vinfo) :=
  if negb (constantFormat vi) then Err
  else
    let x := optI left in
    let y := optI top in
    obind (subI (vi_h vi) y) (fun h0 => obind (subI h0 (optI bottom)) (fun h =>
    obind (subI (vi_w vi) x) (fun w0 => obind (subI w0 (optI right)) (fun w =>
    if (x =? 0) && (y =? 0) && (w =? vi_w vi) && (h =? vi_h vi) then Ok (None, vi)
    else obind (cropVerify x y w h (vi_w vi) (vi_h vi) (vi_fmt vi)) (fun bad =>
      if bad then Err else Ok (Some (mkCD x y w h), mkVI (vi_fmt vi) w h (vi_n vi))))))).

(** ** AddBorders *)

(** addBordersVerify, simplefilters.cpp:265-283. *)
Definition addBordersVerify (l r t b : Z) (f : vfmt) : bool :=
  negb (Z.rem l (2 ^ f_ssw f) =? 0) || negb (Z.rem r (2 ^ f_ssw f) =? 0)
  || negb (Z.rem t (2 ^ f_ssh f) =? 0) || negb (Z.rem b (2 ^ f_ssh f) =? 0).

(** addBordersGetframe, simplefilters.cpp:304-366: one plane.  [k] = bytesPerSample, the
    cases 1, 2 and 4 differ in the element type only. *)
Definition addBordersPlane (l r t b : Z) (colour : Z -> Z) (f : vfmt) (srcw srch : Z) (i : Z) (p q : plane)
    : outcome pbuf :=
  let k := f_bytes f in
  let row := getWidth f srcw i * k in
  let sh := getHeight f srch i in
  let padt := Z.shiftr t (ssh f i) in
  let padb := Z.shiftr b (ssh f i) in
  let padl := Z.shiftr l (ssw f i) * k in
  let padr := Z.shiftr r (ssw f i) * k in
  let c := colour i in
  let ds := p_stride q in
  obind (fill (p_buf q) 0 k c (padt * ds / k)) (fun m0 =>
  obind (forZ sh (fun y m =>
           let o := padt * ds + y * ds in
           obind (fill m o k c (padl / k)) (fun m1 =>
           obind (memcpy m1 (o + padl) (p_buf p) (y * p_stride p) row) (fun m2 =>
           fill m2 (o + padl + row) k c (padr / k)))) m0) (fun m3 =>
  fill m3 (padt * ds + sh * ds) k c (padb * ds / k))).

Definition addBordersGetFrame (al : Z) (g : Z -> Z -> Z) (l r t b : Z) (colour : Z -> Z) (src : vframe)
    : outcome vframe :=
  let f := vf_fmt src in
  if addBordersVerify l r t b f then Err
  else
    obind (addI (vf_w src) l) (fun w0 => obind (addI w0 r) (fun w =>
    obind (addI (vf_h src) t) (fun h0 => obind (addI h0 b) (fun h =>
    obind (newFrame al g f w h (vf_props src)) (fun dst =>
    obind (onPlanes src dst (f_np f) (addBordersPlane l r t b colour f (vf_w src) (vf_h src))) (fun o =>
      Ok (mkVF (vf_fmt o) (vf_w o) (vf_h o) (vf_planes o) (swapFields (Z.odd t) (vf_props o))))))))).

(** addBordersCreate, simplefilters.cpp:384-440, without the colour values (Colour.v);
    [None] = passed through. *)
Definition addBordersCreate (vi : vinfo) (left right top bottom : option Z)
    : outcome (option (Z * Z * Z * Z) * vinfo) :=
  let l := optI left in let r := optI right in let t := optI top in let b := optI bottom in
  if (l =? 0) && (r =? 0) && (t =? 0) && (b =? 0) then Ok (None, vi)
  else if (l <? 0) || (r <? 0) || (t <? 0) || (b <? 0) then Err
  else if f_cf (vi_fmt vi) =? cfUndefined then Err
  else if addBordersVerify l r t b (vi_fmt vi) then Err
  else
    obind (if vi_h vi =? 0 then Ok 0 else obind (addI t b) (fun s => addI (vi_h vi) s)) (fun h =>
    obind (if vi_w vi =? 0 then Ok 0 else obind (addI l r) (fun s => addI (vi_w vi) s)) (fun w =>
    Ok (Some (l, r, t, b), mkVI (vi_fmt vi) w h (vi_n vi)))).

(** ** Flips *)

(** flipVerticalGetframe, simplefilters.cpp:876-902. *)
Definition flipVPlane (f : vfmt) (w h : Z) (i : Z) (p q : plane) : outcome pbuf :=
  let height := getHeight f h i in
  bitblt (p_buf q) (p_stride q * (height - 1)) (- p_stride q) (p_buf p) 0 (p_stride p)
         (getWidth f w i * f_bytes f) height.

Definition flipVGetFrame (al : Z) (g : Z -> Z -> Z) (src : vframe) : outcome vframe :=
  let f := vf_fmt src in
  obind (newFrame al g f (vf_w src) (vf_h src) (vf_props src)) (fun dst =>
    onPlanes src dst (f_np f) (flipVPlane f (vf_w src) (vf_h src))).

(** flipHorizontalGetframe, simplefilters.cpp:921-999, also Turn180 ([turn]): an element
    of 1, 2 or 4 bytes is copied at a time; another size is an error. *)
Definition flipHPlane (turn : bool) (f : vfmt) (sw sh : Z) (i : Z) (p q : plane) : outcome pbuf :=
  let h := getHeight f sh i in
  let w := getWidth f sw i - 1 in
  let k := f_bytes f in
  let d0 := if turn then p_stride q * (h - 1) else 0 in
  let ds := if turn then - p_stride q else p_stride q in
  if (k =? 1) || (k =? 2) || (k =? 4) then
    forZ h (fun y m =>
      forZ (w + 1) (fun x m' => memcpy m' (d0 + y * ds + (w - x) * k) (p_buf p) (y * p_stride p + x * k) k) m)
      (p_buf q)
  else Err.

Definition flipHGetFrame (al : Z) (g : Z -> Z -> Z) (turn : bool) (src : vframe) : outcome vframe :=
  let f := vf_fmt src in
  obind (newFrame al g f (vf_w src) (vf_h src) (vf_props src)) (fun dst =>
    onPlanes src dst (f_np f) (flipHPlane turn f (vf_w src) (vf_h src))).

(** ** Stacks *)

Definition sameFormat (a b : vfmt) : bool :=
  (f_cf a =? f_cf b) && (f_st a =? f_st b) && (f_bits a =? f_bits b)
  && (f_ssw a =? f_ssw b) && (f_ssh a =? f_ssh b).

(** stackCreate, simplefilters.cpp:1064-1108: at least two clips. *)
Definition stackStep (vertical : bool) (acc : outcome vinfo) (vi : vinfo) : outcome vinfo :=
  obind acc (fun d =>
    let n := if vi_n d <? vi_n vi then vi_n vi else vi_n d in
    if negb (constantFormat vi) || negb (sameFormat (vi_fmt vi) (vi_fmt d))
       || (vertical && negb (vi_w vi =? vi_w d)) || (negb vertical && negb (vi_h vi =? vi_h d)) then Err
    else if vertical then obind (addI (vi_h d) (vi_h vi)) (fun h => Ok (mkVI (vi_fmt d) (vi_w d) h n))
    else obind (addI (vi_w d) (vi_w vi)) (fun w => Ok (mkVI (vi_fmt d) w (vi_h d) n))).
Definition stackCreate (vertical : bool) (vis : list vinfo) : outcome vinfo :=
  match vis with
  | [] => UB
  | v :: r => fold_left (stackStep vertical) r (Ok v)
  end.

(** stackGetframe, simplefilters.cpp:1023-1062: plane [i] of the sources copied one after
    the other; the state is the destination pointer and the buffer. *)
Definition stackPlane (vertical : bool) (f : vfmt) (srcs : list vframe) (i : Z) (q : plane) : outcome pbuf :=
  obind (fold_left (fun acc src =>
    obind acc (fun st => let '(d, m) := st in
      match nthz (vf_planes src) i with
      | None => UB
      | Some p =>
          if vertical then
            let size := p_stride q * getHeight (vf_fmt src) (vf_h src) i in
            obind (memcpy m d (p_buf p) 0 size) (fun m' => Ok (d + size, m'))
          else
            let row := getWidth (vf_fmt src) (vf_w src) i * f_bytes f in
            obind (bitblt m d (p_stride q) (p_buf p) 0 (p_stride p) row (getHeight (vf_fmt src) (vf_h src) i))
                  (fun m' => Ok (d + row, m'))
      end)) srcs (Ok (0, p_buf q))) (fun st => Ok (snd st)).

Definition stackGetFrame (al : Z) (g : Z -> Z -> Z) (vertical : bool) (vi : vinfo) (srcs : list vframe)
    : outcome vframe :=
  match srcs with
  | [] => UB
  | first :: _ =>
      obind (newFrame al g (vi_fmt vi) (vi_w vi) (vi_h vi) (vf_props first)) (fun dst =>
        obind (eachPlane (Z.to_nat (f_np (vi_fmt vi))) 0 (fun i =>
                 match nthz (vf_planes dst) i with
                 | Some q => obind (stackPlane vertical (vi_fmt vi) srcs i q) (fun b => Ok (mkPl (p_stride q) b))
                 | None => UB
                 end))
              (fun l => Ok (mkVF (vf_fmt dst) (vf_w dst) (vf_h dst) l (vf_props dst))))
  end.

(** ** Fields *)

Definition fieldProp := "_Field"%string.

(** separateFieldsGetframe, simplefilters.cpp:677-700: the effective field order; [tff] is
    -1 when the argument was not given.  A missing property reads as 0. *)
Definition effectiveTFF (tff : Z) (p : props) : Z :=
  match p fieldBased with
  | Some v => if sat32 v =? 1 then 0 else if sat32 v =? 2 then 1 else tff
  | None => tff
  end.

(** simplefilters.cpp:702-722. *)
Definition separatePlane (n eff : Z) (f : vfmt) (w h : Z) (i : Z) (p q : plane) : outcome pbuf :=
  let s0 := if Z.lxor (n mod 2) eff =? 0 then p_stride p else 0 in
  bitblt (p_buf q) 0 (p_stride q) (p_buf p) s0 (p_stride p * 2) (getWidth f w i * f_bytes f) (getHeight f h i).

(** [n] is the number of the output frame, [src] the source frame n / 2.  The change of
    _DurationNum and _DurationDen is omitted (see Rational.v for muldivRational). *)
Definition separateGetFrame (al : Z) (g : Z -> Z -> Z) (tff : Z) (vi : vinfo) (n : Z) (src : vframe)
    : outcome vframe :=
  let eff := effectiveTFF tff (vf_props src) in
  if eff =? -1 then Err
  else
    obind (newFrame al g (vi_fmt vi) (vi_w vi) (vi_h vi) (vf_props src)) (fun dst =>
      obind (onPlanes src dst (f_np (vi_fmt vi)) (separatePlane n eff (vi_fmt vi) (vi_w vi) (vi_h vi))) (fun r =>
        Ok (mkVF (vf_fmt r) (vf_w r) (vf_h r) (vf_planes r)
                 (delProp fieldBased (setProp fieldProp (Z.lxor (n mod 2) eff) (vf_props r)))))).

(** separateFieldsCreate, simplefilters.cpp:734-770. *)
Definition separateCreate (vi : vinfo) : outcome vinfo :=
  if negb (constantFormat vi) then Err
  else if negb (Z.rem (vi_h vi) (2 ^ (f_ssh (vi_fmt vi) + 1)) =? 0) then Err
  else if INT_MAX / 2 <? vi_n vi then Err
  else Ok (mkVI (vi_fmt vi) (vi_w vi) (Z.quot (vi_h vi) 2) (vi_n vi * 2)).

(** tff argument: absent is -1, otherwise 0 or 1. *)
Definition tffArg (o : option Z) : Z := match o with None => -1 | Some v => if v =? 0 then 0 else 1 end.

(** doubleWeaveGetframe, simplefilters.cpp:788-816: true = the first source is the top
    field. *)
Definition weaveOrder (tff n : Z) (p1 p2 : props) : outcome bool :=
  let f1 := match p1 fieldProp with Some v => v | None => -1 end in
  let f2 := match p2 fieldProp with Some v => v | None => -1 end in
  if (f1 =? 0) && (f2 =? 1) then Ok false
  else if (f1 =? 1) && (f2 =? 0) then Ok true
  else if negb (tff =? -1) then Ok (negb (Z.lxor (n mod 2) tff =? 0))
  else Err.

(** simplefilters.cpp:824-843; the row distance of the bottom field is used for both
    sources. *)
Definition weavePlane (f : vfmt) (dw th : Z) (i : Z) (top btm q : plane) : outcome pbuf :=
  let sstr := p_stride btm in
  let h := getHeight f th i in
  let row := getWidth f dw i * f_bytes f in
  forZ h (fun y m =>
    obind (memcpy m (2 * y * p_stride q) (p_buf top) (y * sstr) row) (fun m1 =>
    memcpy m1 (2 * y * p_stride q + p_stride q) (p_buf btm) (y * sstr) row)) (p_buf q).

Definition weaveGetFrame (al : Z) (g : Z -> Z -> Z) (tff : Z) (vi : vinfo) (n : Z) (src1 src2 : vframe)
    : outcome vframe :=
  obind (weaveOrder tff n (vf_props src1) (vf_props src2)) (fun first =>
    let top := if first then src1 else src2 in
    let btm := if first then src2 else src1 in
    obind (newFrame al g (vi_fmt vi) (vi_w vi) (vi_h vi) (vf_props src1)) (fun dst =>
      obind (eachPlane (Z.to_nat (f_np (vi_fmt vi))) 0 (fun i =>
               match nthz (vf_planes top) i, nthz (vf_planes btm) i, nthz (vf_planes dst) i with
               | Some a, Some b, Some q =>
                   obind (weavePlane (vf_fmt top) (vi_w vi) (vf_h top) i a b q)
                         (fun m => Ok (mkPl (p_stride q) m))
               | _, _, _ => UB
               end))
            (fun l => Ok (mkVF (vf_fmt dst) (vf_w dst) (vf_h dst) l
                       (setProp fieldBased (if first then 2 else 1) (delProp fieldProp (vf_props dst))))))).

(** doubleWeaveCreate, simplefilters.cpp:853-871. *)
Definition weaveCreate (vi : vinfo) : outcome vinfo :=
  obind (mulI (vi_h vi) 2) (fun h =>
    let vi' := mkVI (vi_fmt vi) (vi_w vi) h (vi_n vi) in
    if constantFormat vi' then Ok vi' else Err).

(** ** ShufflePlanes *)

(** simplefilters.cpp:505-511: i with s1 == s2 << i, i < 6. *)
Fixpoint findSub (n : nat) (i s1 s2 : Z) : Z :=
  match n with
  | O => -1
  | S k => if s1 - Z.shiftl s2 i =? 0 then i else findSub k (i + 1) s1 s2
  end.
Definition findSubSampling (s1 s2 : Z) : Z := findSub 6 0 s1 s2.

Definition planeWidth (vi : vinfo) (i : Z) : Z := Z.shiftr (vi_w vi) (ssw (vi_fmt vi) i).
Definition planeHeight (vi : vinfo) (i : Z) : Z := Z.shiftr (vi_h vi) (ssh (vi_fmt vi) i).

(** Old and new colour family constants, simplefilters.cpp:522-531. *)
Definition familyArg (c : Z) : option Z :=
  let c' := if c =? cmGray then cfGray
            else if (c =? cmYUV) || (c =? cmYCoCg) then cfYUV
            else if c =? cmRGB then cfRGB else c in
  if (c' =? cfRGB) || (c' =? cfYUV) || (c' =? cfGray) then Some c' else None.

(** Selected planes with the default 0, nodes with the last one repeated. *)
Definition pick3 (l : list Z) : Z * Z * Z :=
  match l with
  | [] => (0, 0, 0)
  | [a] => (a, 0, 0)
  | [a; b] => (a, b, 0)
  | a :: b :: c :: _ => (a, b, c)
  end.

Definition badPlane (vi : vinfo) (p : Z) : bool :=
  (p <? 0) || (negb (f_cf (vi_fmt vi) =? cfUndefined) && (f_np (vi_fmt vi) <=? p)).

(** What the created filter remembers: index of the clip for each output plane, plane
    number there, video information of the output. *)
Record shuffleData := mkSD { sd_clip : list Z; sd_plane : list Z; sd_vi : vinfo }.

(** shufflePlanesCreate, simplefilters.cpp:513-627.  queryVideoFormat fills the format
    with zeros when the combination is invalid; its result is ignored by the filter. *)
Definition queryFmt (cf st bits w h : Z) : outcome vfmt :=
  match queryVideoFormat cf st bits w h with
  | Some (_, f) => Ok f
  | None => UB
  end.

Definition shuffleCreate (clips : list vinfo) (planes : list Z) (family : Z) : outcome shuffleData :=
  match familyArg (sat32 family) with
  | None => Err
  | Some cf =>
    let outplanes := if cf =? cfGray then 1 else 3 in
    if outplanes <? zlength clips then Err
    else if outplanes <? zlength planes then Err
    else if negb (forallb constantFormat clips) then Err
    else
      let '(p0, p1, p2) := pick3 (map sat32 planes) in
      match clips with
      | [] => UB
      | v0 :: rest =>
        let '(i1, v1) := match rest with [] => (0, v0) | v :: _ => (1, v) end in
        let '(i2, v2) := match rest with [] => (0, v0) | [v] => (1, v) | _ :: v :: _ => (2, v) end in
        if cf =? cfGray then
          if badPlane v0 p0 then Err
          else obind (queryFmt cfGray (f_st (vi_fmt v0)) (f_bits (vi_fmt v0)) 0 0) (fun f =>
            Ok (mkSD [0] [p0] (mkVI f (planeWidth v0 p0) (planeHeight v0 p0) (vi_n v0))))
        else
          if badPlane v0 p0 || badPlane v1 p1 || badPlane v2 p2 then Err
          else
            let h0 := planeHeight v0 p0 in let w0 := planeWidth v0 p0 in
            let h1 := planeHeight v1 p1 in let w1 := planeWidth v1 p1 in
            let h2 := planeHeight v2 p2 in let w2 := planeWidth v2 p2 in
            if negb (w1 =? w2) || negb (h1 =? h2) then Err
            else
              let sh := findSubSampling h0 h1 in
              let sw := findSubSampling w0 w1 in
              if (sh <? 0) || (sw <? 0) then Err
              else if negb (f_bits (vi_fmt v0) =? f_bits (vi_fmt v1)) || negb (f_st (vi_fmt v0) =? f_st (vi_fmt v1))
                   || negb (f_bits (vi_fmt v0) =? f_bits (vi_fmt v2)) || negb (f_st (vi_fmt v0) =? f_st (vi_fmt v2))
              then Err
              else if (cf =? cfRGB) && (negb (sh =? 0) || negb (sw =? 0)) then Err
              else
                obind (queryFmt cf (f_st (vi_fmt v0)) (f_bits (vi_fmt v0)) sw sh) (fun f =>
                  Ok (mkSD [0; i1; i2] [p0; p1; p2]
                           (mkVI f w0 h0 (Z.max (Z.max (vi_n v0) (vi_n v1)) (vi_n v2)))))
      end
  end.

(** newVideoFrame2 (see Frame.v) on frames as values: every output plane is a source
    plane, whose dimensions must match. *)
Definition takePlane (f : vfmt) (w h : Z) (frames : list vframe) (clip pl i : Z) : outcome plane :=
  match nthz frames clip with
  | None => UB
  | Some fr =>
      if (pl <? 0) || (f_np (vf_fmt fr) <=? pl) then UB
      else if negb (getHeight (vf_fmt fr) (vf_h fr) pl =? getHeight f h i)
              || negb (getWidth (vf_fmt fr) (vf_w fr) pl =? getWidth f w i) then UB
      else match nthz (vf_planes fr) pl with Some p => Ok p | None => UB end
  end.

(** shufflePlanesGetframe, simplefilters.cpp:453-503; [frames] are the frames of the given
    clips, [ps] the one whose properties are taken. *)
Definition shuffleGetFrame (d : shuffleData) (frames : list vframe) (ps : vframe) : outcome vframe :=
  let vi := sd_vi d in
  if negb (f_cf (vi_fmt vi) =? cfGray) then
    obind (eachPlane (Z.to_nat (f_np (vi_fmt vi))) 0 (fun i =>
             match nthz (sd_clip d) i, nthz (sd_plane d) i with
             | Some c, Some p => takePlane (vi_fmt vi) (vi_w vi) (vi_h vi) frames c p i
             | _, _ => UB
             end))
          (fun l => Ok (mkVF (vi_fmt vi) (vi_w vi) (vi_h vi) l (vf_props ps)))
  else
    match frames, sd_plane d with
    | src :: _, p :: _ =>
        if f_np (vf_fmt src) <=? p then Err
        else
          let w := getWidth (vf_fmt src) (vf_w src) p in
          let h := getHeight (vf_fmt src) (vf_h src) p in
          obind (takePlane (vi_fmt vi) w h frames 0 p 0) (fun q =>
            Ok (mkVF (vi_fmt vi) w h [q] (vf_props ps)))
    | _, _ => UB
    end.

(** splitPlanesCreate, simplefilters.cpp:632-660: [None] = passed through. *)
Definition splitCreate (vi : vinfo) : outcome (option (list shuffleData)) :=
  if f_cf (vi_fmt vi) =? cfUndefined then Err
  else if f_np (vi_fmt vi) =? 1 then Ok None
  else
    obind (fold_right (fun i acc => obind (shuffleCreate [vi] [i] cfGray) (fun d =>
             obind acc (fun l => Ok (d :: l)))) (Ok []) (zseq (f_np (vi_fmt vi))))
          (fun l => Ok (Some l)).
