(** Drawing text: src/core/textfilter.cpp:43-312 (scrawl_character_*, sanitise_text, split_text, scrawl_text), 519-660 (textGetFrame), 670-760 (textCreate). *)
From Coq Require Import ZArith List Bool Lia.
From Verif Require Import Common FormatSpec Format Frame ImageSpec PlaneMem Spatial Pixel.
Import ListNotations.
Open Scope Z_scope.

Definition margin : Z := 16.
Definition characterWidth : Z := 8.
Definition characterHeight : Z := 16.
(** sanitise_text; [txt[i + 1]] of the last character is the terminating zero. *)
Definition adjust (c : Z) : Z :=
  if (c <? 32) || (c =? 129) || (c =? 141) || (c =? 143) || (c =? 144) || (c =? 157) then 95
  else if 157 <? c then c - 5 else if 144 <? c then c - 4 else if 141 <? c then c - 2 else if 129 <? c then c - 1 else c.
Fixpoint sanitise (t : list Z) : list Z :=
  match t with
  | [] => []
  | c :: r =>
      if c =? 13 then match r with 10 :: r' => 10 :: sanitise r' | _ => 10 :: sanitise r end
      else if c =? 10 then 10 :: sanitise r else adjust c :: sanitise r
  end.
(** split_text.  The pieces between line feeds ... *)
Fixpoint splitNl (cur t : list Z) : list (list Z) :=
  match t with [] => [rev cur] | c :: r => if c =? 10 then rev cur :: splitNl [] r else splitNl (c :: cur) r end.
(** ... then lines that are too long are cut, what is cut off becoming the next line; the loop does not end when the capacity is 0 (UB) ... *)
Fixpoint cutLines (fuel : nat) (cap : Z) (ls : list (list Z)) : outcome (list (list Z)) :=
  match ls with
  | [] => Ok []
  | l :: r =>
      match fuel with
      | O => UB
      | S k => if cap <? zlength l then obind (cutLines k cap (skipn (Z.to_nat cap) l :: r)) (fun x => Ok (firstn (Z.to_nat cap) l :: x))
               else obind (cutLines k cap r) (fun x => Ok (l :: x))
      end
  end.
(** ... and lines below the bottom are dropped. *)
Definition splitText (t : list Z) (width height scale : Z) : outcome (list (list Z)) :=
  let ls := splitNl [] t in
  obind (cutLines (length ls + length t) (Z.quot (Z.quot width characterWidth) scale) ls) (fun ls =>
  let v := Z.quot (Z.quot height characterHeight) scale in
  Ok (if v <? zlength ls then firstn (Z.to_nat v) ls else ls)).

(** One scrawl_character_*: [font] is the array, [k] the bytes of a sample, [white] and [black] the values.  The offsets are counted in samples, the stride being divided after the multiplication. *)
Definition scrawlCharacter (font : list Z) (c k stride dx dy scale white black : Z) (image : pbuf) : outcome pbuf :=
  forZ (characterHeight * scale) (fun y m => forZ (characterWidth * scale) (fun x m' =>
    match nthz font (c * characterHeight + Z.quot y scale) with
    | None => UB
    | Some b => storeS k m' ((Z.quot ((dy + y) * stride) k + dx + x) * k) (if Z.testbit b (7 - Z.quot x scale) then white else black)
    end) m) image.
(** Values in the planes.  Half and single precision: 0.0 and 1.0. *)
Definition whiteOf (f : vfmt) : Z := if f_st f =? stInteger then Z.shiftl 235 (f_bits f - 8) else if f_bits f =? 16 then 15360 else 1065353216.
Definition blackOf (f : vfmt) : Z := if f_st f =? stInteger then Z.shiftl 16 (f_bits f - 8) else 0.
Definition neutralOf (f : vfmt) : Z :=
  if (f_st f =? stFloat) && (f_bits f =? 16) then 0 else if f_bits f =? 8 then 128 else if f_bits f <=? 16 then Z.shiftl 128 (f_bits f - 8) else 0.
(** The element size the branches work with. *)
Definition elemInk (f : vfmt) : Z := if f_st f =? stInteger then (if f_bits f =? 8 then 1 else 2) else if f_bits f =? 16 then 2 else 4.
Definition elemChroma (f : vfmt) : Z := if (f_st f =? stFloat) && (f_bits f =? 16) then 2 else if f_bits f =? 8 then 1 else if f_bits f <=? 16 then 2 else 4.
(** What one character does to plane [i]. *)
Definition drawChar (font : list Z) (f : vfmt) (c i stride dx dy scale : Z) (image : pbuf) : outcome pbuf :=
  if (f_cf f =? cfRGB) || (i =? 0) then scrawlCharacter font c (elemInk f) stride dx dy scale (whiteOf f) (blackOf f) image
  else
    let subW := Z.shiftr (scale * characterWidth) (f_ssw f) in
    let subH := Z.shiftr (scale * characterHeight) (f_ssh f) in
    let sx := Z.shiftr dx (f_ssw f) in
    let sy := Z.shiftr dy (f_ssh f) in
    forZ subH (fun y m => fill m ((Z.quot ((y + sy) * stride) (elemChroma f) + sx) * elemChroma f) (elemChroma f) (neutralOf f) subW) image.
(** The characters of a line. *)
Fixpoint drawLine (font : list Z) (f : vfmt) (i stride startX startY scale j : Z) (l : list Z) (image : pbuf) : outcome pbuf :=
  match l with
  | [] => Ok image
  | c :: r => obind (drawChar font f c i stride (startX + j * characterWidth * scale) startY scale image) (fun m => drawLine font f i stride startX startY scale (j + 1) r m)
  end.
Definition startXOf (alignment scale width : Z) (l : list Z) : Z :=
  if (alignment =? 1) || (alignment =? 4) || (alignment =? 7) then margin
  else if (alignment =? 2) || (alignment =? 5) || (alignment =? 8) then Z.quot (width - zlength l * characterWidth * scale) 2
  else width - zlength l * characterWidth * scale - margin.
Definition startYOf (alignment scale height : Z) (n : Z) : Z :=
  if (7 <=? alignment) && (alignment <=? 9) then margin
  else if (4 <=? alignment) && (alignment <=? 6) then Z.quot (height - n * characterHeight * scale) 2
  else height - n * characterHeight * scale - margin.
Fixpoint drawLines (font : list Z) (f : vfmt) (i stride alignment scale width startY : Z) (ls : list (list Z)) (image : pbuf) : outcome pbuf :=
  match ls with
  | [] => Ok image
  | l :: r => obind (drawLine font f i stride (startXOf alignment scale width l) startY scale 0 l image) (fun m => drawLines font f i stride alignment scale width (startY + characterHeight * scale) r m)
  end.
(** scrawl_text on the copy of a frame.  The planes are separate memory, so the loop over them is put outside. *)
Definition scrawlText (font : list Z) (t : list Z) (alignment scale : Z) (src : vframe) : outcome vframe :=
  let f := vf_fmt src in
  obind (splitText (sanitise t) (vf_w src - margin * 2) (vf_h src - margin * 2) scale) (fun ls =>
  obind (eachPlane (Z.to_nat (f_np f)) 0 (fun i =>
    match nthz (vf_planes src) i with
    | None => UB
    | Some p => obind (drawLines font f i (p_stride p) alignment scale (vf_w src) (startYOf alignment scale (vf_h src) (zlength ls)) ls (p_buf p)) (fun m => Ok (mkPl (p_stride p) m))
    end)) (fun ps => Ok (mkVF f (vf_w src) (vf_h src) ps (vf_props src)))).
(** filtershared.h:159-168. *)
Definition is8to16orFloat (f : vfmt) : bool := negb (((f_st f =? stInteger) && (16 <? f_bits f)) || ((f_st f =? stFloat) && negb ((f_bits f =? 32) || (f_bits f =? 16)))).
(** textGetFrame for a given text. *)
Definition textGetFrame (font : list Z) (t : list Z) (alignment scale : Z) (src : vframe) : outcome vframe :=
  if negb (is8to16orFloat (vf_fmt src)) then Err
  else if (vf_w src <? 2 * margin + characterWidth * scale) || (vf_h src <? 2 * margin + characterHeight * scale) then Err
  else scrawlText font t alignment scale src.
(** textCreate: the numeric arguments. *)
Definition textArgs (alignment scale : option Z) : outcome (Z * Z) :=
  let a := match alignment with Some v => sat32 v | None => 7 end in
  if (a <? 1) || (9 <? a) then Err else
  let s := match scale with Some v => sat32 v | None => 1 end in
  if (s <? 1) || (2 ^ 16 <? s) then Err else Ok (a, s).
