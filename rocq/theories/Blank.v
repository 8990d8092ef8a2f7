(** Clips made from nothing: src/core/simplefilters.cpp:44-95 (pixel values), 1109-1317 (BlankClip), 1319-1380 (AssumeFPS); filtershared.h:44-49 (setBlack), VSHelper4.h int64ToIntS; vscore.cpp:1584-1601 (isValidVideoInfo).
    Simplifications: doubles are [fl]; the address of the kept frame is not modelled ([keep] returns the frame of the first request, which is the same for all requests). *)
From Coq Require Import String.
From Coq Require Import ZArith List Lia Bool.
From Coq Require Import SpecFloat.
From Verif Require Import Common FormatSpec Format Frame ImageSpec PlaneMem Spatial Rational Soft Half ClipProp.
Import ListNotations.
Local Open Scope string_scope.
Local Open Scope list_scope.
Open Scope Z_scope.

Definition isValidVideoInfo (v : cvi) : outcome bool :=
  if negb (isValidVideoFormatS (cv_fmt v)) then Ok false
  else if (snd (cv_fps v) <? 0) || (fst (cv_fps v) <? 0) || (cv_h v <? 0) || (cv_w v <? 0) || (cv_n v <? 1) then Ok false
  else obind (reduceRational (fst (cv_fps v)) (snd (cv_fps v))) (fun q =>
    if negb (fst q =? fst (cv_fps v)) || negb (snd q =? snd (cv_fps v)) then Ok false
    else Ok (negb (xorb (negb (cv_h v =? 0)) (negb (cv_w v =? 0))))).
(** createVideoFilter throws for invalid structures; the creation fails. *)
Definition createVideoFilter {A} (v : cvi) (x : A) : outcome A := obind (isValidVideoInfo v) (fun ok => if ok then Ok x else Err).

(** Pixel values. *)
Definition uint32Max : fl := of64 4294967295 0.
Definition doubleToUInt32S (v : fl) : outcome Z :=
  if SFltb v (S754_zero false) then Ok 0
  else if SFltb uint32Max v then Ok 4294967295
  else obind (truncInt64 (add64 v (of64 1 (-1)))) (fun i => if (0 <=? i) && (i <? 2 ^ 32) then Ok i else UB).
Definition doubleToIntPixelValue (v : fl) (bits : Z) : outcome Z :=
  if negb (isFin v) || SFltb v (S754_zero false) then Err
  else obind (doubleToUInt32S v) (fun i => if Z.shiftl 1 bits <=? i then Err else Ok i).
Definition doubleToFloatPixelValue (v : fl) : outcome Z := if negb (isFin (to32 v)) then Err else Ok (toBits (to32 v)).
Definition doubleToHalfPixelValue (v : fl) : outcome Z :=
  if negb (isFin (to32 v)) then Err else if isInfHalf (floatToHalf (toBits (to32 v))) then Err else Ok (floatToHalf (toBits (to32 v))).
Definition colourValue (f : vfmt) (v : fl) : outcome Z :=
  if f_st f =? stInteger then doubleToIntPixelValue v (f_bits f) else if f_bits f =? 16 then doubleToHalfPixelValue v else doubleToFloatPixelValue v.
Definition setBlack (f : vfmt) : list Z := if (f_st f =? stInteger) && (f_cf f =? cfYUV) then [0; wrapu32 (Z.shiftl 1 (f_bits f - 1)); wrapu32 (Z.shiftl 1 (f_bits f - 1))] else [0; 0; 0].
Fixpoint colourValues (f : vfmt) (l : list fl) : outcome (list Z) :=
  match l with [] => Ok [] | v :: r => obind (colourValue f v) (fun c => obind (colourValues f r) (fun cs => Ok (c :: cs))) end.

(** BlankClip.  The registry [r] is that of the old format numbers. *)
Record blankArgs := mkBA { ba_clip : option cvi; ba_width : option Z; ba_height : option Z; ba_format : option Z; ba_length : option Z; ba_fpsnum : option Z; ba_fpsden : option Z; ba_color : list fl; ba_varsize : option Z; ba_varformat : option Z }.
Definition orElse (o : option Z) (d : Z) : Z := match o with Some z => z | None => d end.
Definition satO (o : option Z) : option Z := option_map sat32 o.
Definition rgb24 : vfmt := mkV cfRGB stInteger 8 1 0 0 3.
Definition blankDefault : cvi := mkCV rgb24 640 480 0 (24, 1).
Definition nonzero (o : option Z) : bool := match o with Some z => negb (z =? 0) | None => false end.
Definition blankClipCreate (r : reg) (a : blankArgs) : outcome (cvi * list Z * cvi) :=
  let base := match ba_clip a with Some v => v | None => blankDefault end in
  let w := orElse (satO (ba_width a)) (cv_w base) in
  let h := orElse (satO (ba_height a)) (cv_h base) in
  let num := orElse (ba_fpsnum a) (fst (cv_fps base)) in
  let den := orElse (ba_fpsden a) (snd (cv_fps base)) in
  if (den <? 0) || (num <? 0) then Err
  else
  let '(num, den) := if (den =? 0) || (num =? 0) then (0, 0) else (num, den) in
  obind (reduceRational num den) (fun q =>
  obind (match satO (ba_format a) with None => Ok (cv_fmt base) | Some id => match getVideoFormatByID r (wrapu32 id) with Some x => Ok (snd x) | None => UB end end) (fun f =>
  if f_cf f =? cfUndefined then Err
  else
  obind (match satO (ba_length a) with
         | Some n => Ok n
         | None => match ba_clip a with
                   | Some v => Ok (cv_n v)
                   | None => if (0 <? fst q) && (0 <? snd q) then (if in_int64b (fst q * 10) then Ok (sat32 (Z.quot (fst q * 10) (snd q))) else UB) else Ok 300
                   end
         end) (fun n =>
  if (w <=? 0) || negb (Z.rem w (Z.shiftl 1 (f_ssw f)) =? 0) then Err
  else if (h <=? 0) || negb (Z.rem h (Z.shiftl 1 (f_ssh f)) =? 0) then Err
  else if n <=? 0 then Err
  else
  obind (if zlength (ba_color a) =? f_np f then obind (colourValues f (ba_color a)) (fun l => Ok (l ++ skipn (Z.to_nat (f_np f)) (setBlack f)))
         else if 0 <? zlength (ba_color a) then Err else Ok (setBlack f)) (fun cs =>
  let v := mkCV f w h n q in
  let dv := mkCV (if nonzero (ba_varformat a) then undefFmt else f) (if nonzero (ba_varsize a) then 0 else w) (if nonzero (ba_varsize a) then 0 else h) n q in
  createVideoFilter dv (v, cs, dv))))).
(** vs_memset over the whole plane. *)
Definition blankPlane (f : vfmt) (h : Z) (colour : Z -> Z) (i : Z) (p q : plane) : outcome pbuf :=
  let k := f_bytes f in
  if (k =? 1) || (k =? 2) || (k =? 4) then fill (p_buf q) 0 k (colour i) (Z.quot (p_stride q * getHeight f h i) k) else Ok (p_buf q).
Definition durations (num den : Z) (p : props) : props := setProp "_DurationDen" num (setProp "_DurationNum" den p).
Definition blankClipGetFrame (al : Z) (g : Z -> Z -> Z) (v : cvi) (colour : Z -> Z) : outcome vframe :=
  obind (newFrame al g (cv_fmt v) (cv_w v) (cv_h v) (if 0 <? fst (cv_fps v) then durations (fst (cv_fps v)) (snd (cv_fps v)) (fun _ => None) else fun _ => None)) (fun dst =>
  onPlanes dst dst (f_np (cv_fmt v)) (blankPlane (cv_fmt v) (cv_h v) colour)).

(** AssumeFPS. *)
Definition assumeFPSCreate (v : cvi) (fpsnum fpsden : option Z) (src : option cvi) : outcome cvi :=
  let num := match src with Some s => fst (cv_fps s) | None => orElse fpsnum 0 end in
  let den := match src with Some s => snd (cv_fps s) | None => orElse fpsden 1 end in
  let hasfps := match fpsnum with Some _ => true | None => false end in
  let hassrc := match src with Some _ => true | None => false end in
  if (hasfps && hassrc) || (negb hasfps && negb hassrc) then Err
  else if (den <? 1) || (num <? 1) then Err
  else obind (reduceRational num den) (fun q => let r := mkCV (cv_fmt v) (cv_w v) (cv_h v) (cv_n v) q in createVideoFilter r r).
Definition assumeFPSGetFrame (v : cvi) (src : vframe) : vframe := mkVF (vf_fmt src) (vf_w src) (vf_h src) (vf_planes src) (durations (fst (cv_fps v)) (snd (cv_fps v)) (vf_props src)).
