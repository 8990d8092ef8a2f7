(** The resize filters: src/core/vsresize.cpp.
    The zimg library, which is not part of the repository, is the parameter [build]: from two picture descriptions it makes a conversion of planes, or refuses.  Everything around it is modelled: the descriptions it is given, which conversion is used for which frame, where its results are put and the frame properties.
    Simplifications: the parameters of zimg that are fixed when the filter is created (filter, dithering, luminance) belong to [build]; zimg reads and writes the samples of a row and not the padding behind them; maps are values (C01, C02); reading a property without an error argument ends the process when it fails, as does a message of type mtFatal, both UB here. *)
From Coq Require Import String.
From Coq Require Import ZArith List Lia Bool.
From Coq Require Import SpecFloat.
From Verif Require Import Common FormatSpec Format Frame SMap MapSpec MapAlias Props ImageSpec PlaneMem Spatial Rational Soft ClipProp Blank ResizeSpec.
Import ListNotations.
Local Open Scope string_scope.
Local Open Scope list_scope.
Open Scope Z_scope.

(** zimg_image_format.  Families: 0 grey, 1 RGB, 2 YUV; types: 0 byte, 1 word, 2 half, 3 float; parity: 0 progressive, 1 top, 2 bottom. *)
Record region := mkReg { r_left : fl; r_top : fl; r_width : fl; r_height : fl }.
Record zfmt := mkZ { z_w : Z; z_h : Z; z_type : Z; z_ssw : Z; z_ssh : Z; z_cf : Z; z_depth : Z; z_col : colour; z_parity : Z; z_region : region }.
Definition noRegion : region := mkReg S754_nan S754_nan S754_nan S754_nan.
Definition setCol (z : zfmt) (c : colour) : zfmt := mkZ (z_w z) (z_h z) (z_type z) (z_ssw z) (z_ssh z) (z_cf z) (z_depth z) c (z_parity z) (z_region z).
Definition setParity (z : zfmt) (p : Z) : zfmt := mkZ (z_w z) (z_h z) (z_type z) (z_ssw z) (z_ssh z) (z_cf z) (z_depth z) (z_col z) p (z_region z).
Definition setHeight (z : zfmt) (h : Z) : zfmt := mkZ (z_w z) h (z_type z) (z_ssw z) (z_ssh z) (z_cf z) (z_depth z) (z_col z) (z_parity z) (z_region z).
Definition setRegion (z : zfmt) (r : region) : zfmt := mkZ (z_w z) (z_h z) (z_type z) (z_ssw z) (z_ssh z) (z_cf z) (z_depth z) (z_col z) (z_parity z) r.

(** vsresize.cpp:149-197: properties.  propGetScalar<int> after mapNumElements. *)
Definition getFatal (m : pmap) (k : string) : outcome Z := match aGetInt m k 0 with Some z => Ok z | None => UB end.
Definition propGetIfValid (m : pmap) (k : string) (pred : Z -> bool) (old : Z) : outcome Z :=
  if 0 <? aNum m k then obind (getFatal m k) (fun x => if in_intb x then Ok (if pred x then x else old) else Err) else Ok old.

(** vsresize.cpp:200-250. *)
Definition pixelType (f : vfmt) : outcome Z :=
  if (f_st f =? stInteger) && (f_bytes f =? 1) then Ok 0
  else if (f_st f =? stInteger) && (f_bytes f =? 2) then Ok 1
  else if (f_st f =? stFloat) && (f_bytes f =? 2) then Ok 2
  else if (f_st f =? stFloat) && (f_bytes f =? 4) then Ok 3
  else Err.
Definition familyOf (cf : Z) : outcome (Z * Z) :=
  if cf =? cfGray then Ok (0, 2) else if cf =? cfRGB then Ok (1, 0) else if cf =? cfYUV then Ok (2, 2) else Err.
Definition translate (f : vfmt) (w h : Z) (r : region) : outcome zfmt :=
  obind (familyOf (f_cf f)) (fun fm =>
  obind (pixelType f) (fun t =>
  Ok (mkZ w h t (f_ssw f) (f_ssh f) (fst fm) (f_bits f)
        (mkCol (snd fm) 2 2 (if fst fm =? 1 then 1 else 0) (if negb (f_ssw f =? 0) || negb (f_ssh f =? 0) then 0 else 1)) 0 r))).

(** vsresize.cpp:253-297, import_frame_props. *)
Definition half (x : fl) : fl := div64 x (of64 2 0).
Definition importRange (m : pmap) (old : Z) : outcome Z :=
  if 0 <? aNum m "_Range" then obind (getFatal m "_Range") (fun x => if x =? 1 then Ok 1 else if x =? 0 then Ok 0 else Err) else Ok old.
Definition importField (m : pmap) (old : Z) : outcome (Z * bool) :=
  if 0 <? aNum m "_Field" then obind (getFatal m "_Field") (fun x => if x =? 0 then Ok (2, false) else if x =? 1 then Ok (1, false) else Err)
  else if 0 <? aNum m "_FieldBased" then
    obind (getFatal m "_FieldBased") (fun x => if negb (x =? 0) && negb (x =? 1) && negb (x =? 2) then Err else Ok (old, (x =? 1) || (x =? 2)))
  else Ok (old, false).
Definition importProps (m : pmap) (z : zfmt) : outcome (zfmt * bool) :=
  let c := z_col z in
  obind (propGetIfValid m "_ChromaLocation" (fun x => 0 <=? x) (c_chroma c)) (fun ch =>
  obind (importRange m (c_range c)) (fun ra =>
  obind (propGetIfValid m "_Matrix" (fun x => negb (x =? 2)) (c_matrix c)) (fun ma =>
  obind (propGetIfValid m "_Transfer" (fun x => negb (x =? 2)) (c_transfer c)) (fun tr =>
  obind (propGetIfValid m "_Primaries" (fun x => negb (x =? 2)) (c_primaries c)) (fun pr =>
  obind (importField m (z_parity z)) (fun pi =>
  let z1 := setParity (setCol z (mkCol ma tr pr ra ch)) (fst pi) in
  let r := z_region z in
  Ok (if snd pi then setRegion z1 (mkReg (r_left r) (half (r_top r)) (r_width r) (half (r_height r))) else z1, snd pi))))))).

(** vsresize.cpp:299-323, export_frame_props. *)
Definition setIntIfPositive (m : pmap) (k : string) (x : Z) : pmap := if 0 <=? x then aSetInt m k x MReplace else aDelete m k.
Definition exportProps (z : zfmt) (m : pmap) : pmap :=
  let c := z_col z in
  let m := if (z_cf z =? 2) && (negb (z_ssw z =? 0) || negb (z_ssh z =? 0)) then aSetInt m "_ChromaLocation" (c_chroma c) MReplace else aDelete m "_ChromaLocation" in
  let m := if c_range c =? 1 then aSetInt m "_Range" 1 MReplace else if c_range c =? 0 then aSetInt m "_Range" 0 MReplace else aDelete m "_Range" in
  let m := setIntIfPositive m "_Matrix" (c_matrix c) in
  let m := setIntIfPositive m "_Transfer" (c_transfer c) in
  setIntIfPositive m "_Primaries" (c_primaries c).

(** vsresize.cpp:325-348, propagate_sar.  Sizes become doubles for the comparison. *)
Definition partOf (x : fl) (n : Z) : bool := negb (isNan x) && negb (SFeqb x (of64 n 0)).
Definition sixteen (x : fl) : outcome Z := llround (mul64 x (of64 16 0)).
Definition sarWidth (s d : zfmt) (q : Z * Z) : outcome (Z * Z) :=
  if partOf (r_width (z_region s)) (z_w s)
  then obind (sixteen (r_width (z_region s))) (fun a => muldivRational (fst q) (snd q) a (z_w d * 16))
  else muldivRational (fst q) (snd q) (z_w s) (z_w d).
Definition sarHeight (s d : zfmt) (q : Z * Z) : outcome (Z * Z) :=
  if partOf (r_height (z_region s)) (z_h s)
  then obind (sixteen (r_height (z_region s))) (fun a => muldivRational (fst q) (snd q) (z_h d * 16) a)
  else muldivRational (fst q) (snd q) (z_h d) (z_h s).
Definition readSar (m : pmap) (k : string) : outcome Z := if 0 <? aNum m k then getFatal m k else Ok 0.
Definition propagateSar (sm dm : pmap) (s d : zfmt) : outcome pmap :=
  obind (readSar sm "_SARNum") (fun n =>
  obind (readSar sm "_SARDen") (fun e =>
  if (n <=? 0) || (e <=? 0) then Ok (aDelete (aDelete dm "_SARNum") "_SARDen")
  else obind (sarWidth s d (n, e)) (fun q =>
       obind (sarHeight s d q) (fun q =>
       Ok (aSetInt (aSetInt dm "_SARNum" (fst q) MReplace) "_SARDen" (snd q) MReplace))))).

(** vsresize.cpp:390-438: when two descriptions count as the same; shifted pictures. *)
Definition regionEq (x y : fl) : bool := (isNan x && isNan y) || SFeqb x y.
Definition zeqb (a b : zfmt) : bool :=
  (z_w a =? z_w b) && (z_h a =? z_h b) && (z_type a =? z_type b) && (z_ssw a =? z_ssw b) && (z_ssh a =? z_ssh b) && (z_cf a =? z_cf b)
  && ((z_cf a =? 0) || (c_matrix (z_col a) =? c_matrix (z_col b)))
  && (c_transfer (z_col a) =? c_transfer (z_col b)) && (c_primaries (z_col a) =? c_primaries (z_col b))
  && (z_depth a =? z_depth b) && (c_range (z_col a) =? c_range (z_col b)) && (z_parity a =? z_parity b)
  && (negb ((z_cf a =? 2) && (negb (z_ssw a =? 0) || negb (z_ssh a =? 0))) || (c_chroma (z_col a) =? c_chroma (z_col b)))
  && regionEq (r_left (z_region a)) (r_left (z_region b)) && regionEq (r_top (z_region a)) (r_top (z_region b))
  && regionEq (r_width (z_region a)) (r_width (z_region b)) && regionEq (r_height (z_region a)) (r_height (z_region b)).
Definition isShifted (a : zfmt) : bool :=
  partOf (r_left (z_region a)) 0 || partOf (r_top (z_region a)) 0 || partOf (r_width (z_region a)) (z_w a) || partOf (r_height (z_region a)) (z_h a).

(** A filter: m_vi, the frame parameters, the region and the field operation. *)
Record rdata := mkRD { rd_fmt : vfmt; rd_w : Z; rd_h : Z; rd_out : given; rd_in : given; rd_region : region; rd_bob : bool }.
Record rframe := mkRF { rf_fmt : vfmt; rf_w : Z; rf_h : Z; rf_planes : list plane; rf_props : pmap }.

(** vsresize.cpp:650-656, set_frame_params. *)
Definition orGiven (o : option Z) (d : Z) : Z := match o with Some v => v | None => d end.
Definition setParams (g : given) (z : zfmt) : zfmt :=
  let c := z_col z in
  setCol z (mkCol (orGiven (g_matrix g) (c_matrix c)) (orGiven (g_transfer g) (c_transfer c)) (orGiven (g_primaries g) (c_primaries c)) (orGiven (g_range g) (c_range c)) (orGiven (g_chroma g) (c_chroma c))).
(** vsresize.cpp:664-688, set_dst_colorspace. *)
Definition hasSub (z : zfmt) : bool := negb (z_ssw z =? 0) || negb (z_ssh z =? 0).
Definition setDst (g : given) (s d : zfmt) : zfmt :=
  let c := z_col d in
  let ma := if negb (c_matrix c =? 0) then c_matrix (z_col s) else c_matrix c in
  let ra := if z_cf d =? z_cf s then c_range (z_col s) else c_range c in
  let ch := if (z_cf d =? z_cf s) && ((z_cf d =? 2) && hasSub d && hasSub s) then c_chroma (z_col s) else c_chroma c in
  setParams g (setParity (setCol d (mkCol ma (c_transfer (z_col s)) (c_primaries (z_col s)) ra ch)) (z_parity s)).

(** vsresize.cpp:690-730: the two descriptions for a frame, and whether it holds two fields. *)
Definition dstFormat (d : rdata) (src : rframe) : vfmt := if negb (f_cf (rd_fmt d) =? cfUndefined) then rd_fmt d else rf_fmt src.
Definition describe (d : rdata) (src : rframe) : outcome (zfmt * zfmt * bool) :=
  obind (translate (rf_fmt src) (rf_w src) (rf_h src) (rd_region d)) (fun s0 =>
  obind (translate (dstFormat d src) (if rd_w d =? 0 then rf_w src else wrapu32 (rd_w d)) (if rd_h d =? 0 then rf_h src else wrapu32 (rd_h d)) noRegion) (fun d0 =>
  obind (importProps (rf_props src) (setParams (rd_in d) s0)) (fun si =>
  let s := fst si in
  let t := setDst (rd_out d) s d0 in
  if rd_bob d then
    if snd si || (z_parity s =? 0) then UB
    else Ok (s, setParity (setHeight t (wrapu32 (z_h s * 2))) 0, snd si)
  else Ok (s, t, snd si)))).

(** The cached conversions: vsresize.cpp:494-496, 625-648. *)
Record cache := mkCache { c_prog : option (zfmt * zfmt); c_top : option (zfmt * zfmt); c_bottom : option (zfmt * zfmt) }.
Definition noGraphs : cache := mkCache None None None.
Definition slot (p : Z) (c : cache) : option (zfmt * zfmt) := if p =? 1 then c_top c else if p =? 2 then c_bottom c else c_prog c.
Definition setSlot (p : Z) (g : zfmt * zfmt) (c : cache) : cache :=
  if p =? 1 then mkCache (c_prog c) (Some g) (c_bottom c) else if p =? 2 then mkCache (c_prog c) (c_top c) (Some g) else mkCache (Some g) (c_top c) (c_bottom c).

(** vsresize.cpp:376-387, get_field_buffer: start and row distance of a field of a plane. *)
Definition fieldStart (p : plane) (parity : Z) : Z := if parity =? 2 then p_stride p else 0.

(** zimg reading a picture of [w] by [h] samples of [k] bytes and writing one. *)
Definition readImage (b : pbuf) (start stride k w h : Z) : outcome image :=
  if (h <=? 0) || (w <=? 0) || (inside b start (w * k) && inside b (start + (h - 1) * stride) (w * k))
  then Ok (mkI w h (fun x y => leval (Z.to_nat k) (b_data b) (start + y * stride + x * k))) else UB.
Definition writeRow (b : pbuf) (o k w : Z) (f : Z -> Z) : outcome pbuf :=
  if (w <=? 0) || inside b o (w * k)
  then Ok (mkB (b_size b) (fun a => if (o <=? a) && (a <? o + w * k) then byteOf (f ((a - o) / k)) ((a - o) mod k) else b_data b a)) else UB.
Definition writeImage (b : pbuf) (start stride k w h : Z) (im : image) : outcome pbuf :=
  forZ h (fun y b => writeRow b (start + y * stride) k w (fun x => i_at im x y)) b.

(** Widths and heights of the planes of a described picture. *)
Definition zPlaneW (z : zfmt) (i : Z) : Z := if i =? 0 then z_w z else Z.shiftr (z_w z) (z_ssw z).
Definition zPlaneH (z : zfmt) (i : Z) : Z := if i =? 0 then z_h z else Z.shiftr (z_h z) (z_ssh z).

Section Zimg.
Variable build : zfmt -> zfmt -> option (list image -> list image).

Definition getGraph (s d : zfmt) (c : cache) : option (zfmt * zfmt) * cache :=
  match slot (z_parity s) c with
  | Some (s', d') => if negb (zeqb s' s) || negb (zeqb d' d)
                     then match build s d with Some _ => (Some (s, d), setSlot (z_parity s) (s, d) c) | None => (None, c) end
                     else (Some (s', d'), c)
  | None => match build s d with Some _ => (Some (s, d), setSlot (z_parity s) (s, d) c) | None => (None, c) end
  end.

(** FilterGraph::process: the planes of the source are read, those of the result written.  [fld]: 0 whole planes, 1 or 2 one field of them.  The sizes are those the conversion was made for. *)
Definition rowStep (p : plane) (fld : Z) : Z := if fld =? 0 then p_stride p else p_stride p * 2.
Fixpoint readPlanes (n : nat) (i : Z) (z : zfmt) (k fld : Z) (src : list plane) : outcome (list image) :=
  match n with
  | O => Ok []
  | Datatypes.S m =>
    match nthz src i with
    | None => UB
    | Some p => obind (readImage (p_buf p) (fieldStart p fld) (rowStep p fld) k (zPlaneW z i) (zPlaneH z i)) (fun im =>
                obind (readPlanes m (i + 1) z k fld src) (fun rest => Ok (im :: rest)))
    end
  end.
Definition writePlane (z : zfmt) (k fld : Z) (dst : list plane) (ims : list image) (i : Z) : outcome plane :=
  match nthz dst i, nthz ims i with
  | Some q, Some im => obind (writeImage (p_buf q) (fieldStart q fld) (rowStep q fld) k (zPlaneW z i) (zPlaneH z i) im) (fun b => Ok (mkPl (p_stride q) b))
  | _, _ => UB
  end.
Definition process (g : zfmt * zfmt) (sk dk : Z) (snp dnp : Z) (fld : Z) (src dst : list plane) : outcome (list plane) :=
  match build (fst g) (snd g) with
  | None => UB
  | Some conv => obind (readPlanes (Z.to_nat snp) 0 (fst g) sk fld src) (fun ims => eachPlane (Z.to_nat dnp) 0 (writePlane (snd g) dk fld dst (conv ims)))
  end.

(** vsresize.cpp:690-800, real_get_frame.  [env] is what other threads do to the cached conversions between two uses by this one. *)
Definition newPlanes (al : Z) (g : Z -> Z -> Z) (f : vfmt) (w h : Z) : outcome (list plane) :=
  obind (newFrame al g f w h (fun _ => None)) (fun r => Ok (vf_planes r)).
Definition withGraph {A} (r : option (zfmt * zfmt) * cache) (k : zfmt * zfmt -> cache -> outcome A * cache) : outcome A * cache :=
  match r with (Some g, c) => k g c | (None, c) => (Err, c) end.
Definition convert (al : Z) (g : Z -> Z -> Z) (env : cache -> cache) (src : rframe) (df : vfmt) (s d : zfmt) (interlaced : bool) (c : cache) : outcome (list plane) * cache :=
  let sk := f_bytes (rf_fmt src) in let dk := f_bytes df in
  let snp := f_np (rf_fmt src) in let dnp := f_np df in
  match newPlanes al g df (z_w d) (z_h d) with
  | Ok dst =>
    if interlaced then
      let st := setParity (setHeight s (z_h s / 2)) 1 in let dt := setParity (setHeight d (z_h d / 2)) 1 in
      withGraph (getGraph st dt c) (fun gt c1 =>
      withGraph (getGraph (setParity st 2) (setParity dt 2) (env c1)) (fun gb c2 =>
        (obind (process gb sk dk snp dnp 2 (rf_planes src) dst) (fun dst => process gt sk dk snp dnp 1 (rf_planes src) dst), c2)))
    else withGraph (getGraph s d c) (fun gr c1 => (process gr sk dk snp dnp 0 (rf_planes src) dst, c1))
  | Err => (Err, c)
  | UB => (UB, c)
  end.
Definition resizeFrame (al : Z) (g : Z -> Z -> Z) (env : cache -> cache) (d : rdata) (src : rframe) (c : cache) : outcome rframe * cache :=
  match describe d src with
  | Ok (s, t, interlaced) =>
    let df := dstFormat d src in
    if zeqb s t && sameFormat (rf_fmt src) df && negb (isShifted s)
    then (Ok (mkRF (rf_fmt src) (rf_w src) (rf_h src) (rf_planes src) (exportProps t (rf_props src))), c)
    else match convert al g env src df s t interlaced c with
         | (Ok pl, c') => (obind (propagateSar (rf_props src) (rf_props src) s t) (fun m => Ok (mkRF df (z_w t) (z_h t) pl (exportProps t m))), c')
         | (Err, c') => (Err, c')
         | (UB, c') => (UB, c')
         end
  | Err => (Err, c)
  | UB => (UB, c)
  end.
End Zimg.

(** The properties of the fields SeparateFields makes for Bob (simplefilters.cpp:713-726; durations left out). *)
Definition fieldProps (parity : Z) (m : pmap) : pmap := aDelete (aSetInt m "_Field" parity MReplace) "_FieldBased".

(** vsresize.cpp:527-621, the constructor, and vszimg::create.  The tables are those of lines 69-133. *)
Definition matrixTable : list (string * Z) := [("rgb", 0); ("709", 1); ("unspec", 2); ("170m", 6); ("240m", 7); ("470bg", 5); ("fcc", 4); ("ycgco", 8); ("2020ncl", 9); ("2020cl", 10); ("chromacl", 13); ("chromancl", 12); ("ictcp", 14)].
Definition transferTable : list (string * Z) := [("709", 1); ("unspec", 2); ("601", 6); ("linear", 8); ("2020_10", 14); ("2020_12", 15); ("240m", 7); ("470m", 4); ("470bg", 5); ("log100", 9); ("log316", 10); ("st2084", 16); ("std-b67", 18); ("st428", 17); ("srgb", 13); ("xvycc", 11)].
Definition primariesTable : list (string * Z) := [("709", 1); ("unspec", 2); ("170m", 6); ("240m", 7); ("470m", 4); ("470bg", 5); ("film", 8); ("2020", 9); ("st428", 10); ("xyz", 10); ("st431-2", 11); ("st432-1", 12); ("ebu3213-e", 22)].
Definition rangeTable : list (string * Z) := [("limited", 0); ("full", 1)].
Definition chromaTable : list (string * Z) := [("left", 0); ("center", 1); ("top_left", 2); ("top", 3); ("bottom_left", 4); ("bottom", 5)].
Fixpoint findName (t : list (string * Z)) (s : string) : option Z := match t with [] => None | (k, v) :: r => if String.eqb s k then Some v else findName r s end.
(** An argument as a number and as a name. *)
Record earg := mkE { e_int : option Z; e_name : option string }.
Definition lookupEnum (t : list (string * Z)) (a : earg) : outcome (option Z) :=
  match e_int a with
  | Some x => if in_intb x then Ok (Some x) else Err
  | None => match e_name a with Some s => match findName t s with Some v => Ok (Some v) | None => Err end | None => Ok None end
  end.
Record eargs := mkEs { ea_matrix : earg; ea_transfer : earg; ea_primaries : earg; ea_range : earg; ea_chroma : earg }.
Definition lookupAll (a : eargs) : outcome given :=
  obind (lookupEnum matrixTable (ea_matrix a)) (fun m => obind (lookupEnum transferTable (ea_transfer a)) (fun t =>
  obind (lookupEnum primariesTable (ea_primaries a)) (fun p => obind (lookupEnum rangeTable (ea_range a)) (fun r =>
  obind (lookupEnum chromaTable (ea_chroma a)) (fun c => Ok (mkG m t p r c)))))).
Record rargs := mkRA { ra_width : option Z; ra_height : option Z; ra_format : option Z; ra_out : eargs; ra_in : eargs; ra_region : region }.
Definition sizeArg (o : option Z) (d : Z) : outcome Z :=
  match o with None => Ok d | Some x => if (0 <=? x) && (x <? 2 ^ 32) then Ok (wrap32 x) else Err end.
Definition constantInfo (f : vfmt) (w h : Z) : bool := (0 <? h) && (0 <? w) && negb (f_cf f =? cfUndefined).
Definition resizeCreate (r : reg) (bob : bool) (node : cvi) (a : rargs) : outcome (rdata * cvi) :=
  obind (sizeArg (ra_width a) (cv_w node)) (fun w =>
  obind (sizeArg (ra_height a) (cv_h node)) (fun h0 =>
  obind (if bob then mulI (cv_h node) 2 else Ok h0) (fun h =>
  obind (match ra_format a with
         | None => Ok (cv_fmt node)
         | Some id => if negb (in_intb id) then Err
                      else if id =? 0 then Ok (cv_fmt node)
                      else match getVideoFormatByID r (wrapu32 id) with
                           | Some x => if f_cf (snd x) =? cfUndefined then Err else Ok (snd x)
                           | None => Err end
         end) (fun f =>
  obind (lookupAll (ra_out a)) (fun go =>
  obind (lookupAll (ra_in a)) (fun gi =>
  obind (if constantInfo (cv_fmt node) (cv_w node) (cv_h node) && constantInfo f w h then
           obind (translate (cv_fmt node) (cv_w node) (cv_h node) noRegion) (fun s =>
           obind (translate f w h noRegion) (fun d =>
           if ((z_cf d =? 2) || (z_cf d =? 0)) && (c_matrix (z_col d) =? 2) && negb (z_cf s =? 2) && negb (z_cf s =? 0) && match g_matrix go with None => true | Some _ => false end then Err else Ok tt))
         else Ok tt) (fun _ =>
  let v := mkCV f w h (cv_n node) (cv_fps node) in
  createVideoFilter v (mkRD f w h go gi (ra_region a) bob, v)))))))).
