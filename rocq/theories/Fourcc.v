(** Pictures for Video for Windows: the table of codes, the size of a picture and its packing
    (src/common/fourcc.cpp). *)
From Coq Require Import String ZArith List Bool Lia.
From Verif Require Import Common FormatSpec.
Import ListNotations.
Open Scope Z_scope.

(** The packings of the p2p library in use, and PLANAR, fourcc.cpp:36. *)
Inductive packing := PLANAR | p_argb32 | p_rgb30 | p_argb64 | p_yuy2 | p_uyvy | p_v210 | p_y410 | p_y416
  | p_p010 | p_p012 | p_p016 | p_p210 | p_p212 | p_p216.
Definition isPlanar (p : packing) : bool := match p with PLANAR => true | _ => false end.

(** fourcc.cpp:38-53; the three flags as booleans. *)
Record traits := mkT { t_cf : Z; t_st : Z; t_bits : Z; t_ssw : Z; t_ssh : Z; t_alt : Z;
  t_fcc : string; t_pack : packing; t_num : Z; t_den : Z; t_bib : Z;
  t_ud : bool; t_swap : bool; t_nv : bool; t_align : Z }.

Definition cfPackedRGB : Z := - cfRGB.
Definition cfPackedYUV : Z := - cfYUV.

(** fourcc.cpp:55-83 *)
Definition table : list traits :=
 [ mkT cfRGB stInteger 8 0 0 0 "DIB " p_argb32 4 1 32 true false false 1;
   mkT cfRGB stInteger 10 0 0 0 "r210" p_rgb30 4 1 30 false false false 256;
   mkT cfRGB stInteger 16 0 0 0 "b64a" p_argb64 8 1 64 false false false 1;
   mkT cfYUV stInteger 8 1 1 0 "YV12" PLANAR 1 1 0 false false false 1;
   mkT cfYUV stInteger 8 1 1 1 "I420" PLANAR 1 1 0 false true false 1;
   mkT cfYUV stInteger 8 1 1 2 "IYUV" PLANAR 1 1 0 false true false 1;
   mkT cfGray stInteger 8 0 0 0 "Y800" PLANAR 1 1 0 false false false 1;
   mkT cfYUV stInteger 8 0 0 0 "YV24" PLANAR 1 1 0 false false false 1;
   mkT cfYUV stInteger 8 1 0 0 "YV16" PLANAR 1 1 0 false false false 1;
   mkT cfYUV stInteger 8 2 0 0 "Y41B" PLANAR 1 1 0 false false false 1;
   mkT cfYUV stInteger 8 1 0 1 "YUY2" p_yuy2 2 1 0 false false false 1;
   mkT cfYUV stInteger 8 1 0 2 "UYVY" p_uyvy 2 1 0 false false false 1;
   mkT cfYUV stInteger 8 2 2 0 "YVU9" PLANAR 1 1 0 false false false 1;
   mkT cfYUV stInteger 10 1 1 0 "P010" p_p010 2 1 0 false false true 1;
   mkT cfYUV stInteger 12 1 1 0 "P016" p_p012 2 1 0 false false true 1;
   mkT cfYUV stInteger 16 1 1 0 "P016" p_p016 2 1 0 false false true 1;
   mkT cfYUV stInteger 10 1 0 0 "P210" p_p210 2 1 0 false false true 1;
   mkT cfYUV stInteger 10 1 0 1 "v210" p_v210 16 6 20 false false false 128;
   mkT cfYUV stInteger 12 1 0 0 "P216" p_p212 2 1 0 false false true 1;
   mkT cfYUV stInteger 16 1 0 0 "P216" p_p216 2 1 0 false false true 1;
   mkT cfYUV stInteger 10 0 0 0 "Y410" p_y410 4 1 32 false false false 1;
   mkT cfYUV stInteger 16 0 0 0 "Y416" p_y416 8 1 64 false false false 1;
   mkT cfPackedRGB stInteger 24 0 0 0 "DIB " PLANAR 3 1 24 false false false 4;
   mkT cfPackedRGB stInteger 32 0 0 0 "DIB " PLANAR 4 1 32 false false false 4;
   mkT cfPackedYUV stInteger 16 1 0 0 "YUY2" PLANAR 2 1 16 false false false 1 ].

(** fourcc.cpp:85-95 *)
Definition hasKey (f : vfmt) (alt : Z) (t : traits) : bool :=
  (t_cf t =? f_cf f) && (t_st t =? f_st f) && (t_bits t =? f_bits f) && (t_ssw t =? f_ssw f) &&
  (t_ssh t =? f_ssh f) && (t_alt t =? alt).
Definition findTraits (f : vfmt) (alt : Z) : option traits := find (hasKey f alt) table.

(** fourcc.cpp:99-103 and 162-165 *)
Definition getFourCC (f : vfmt) (alt : Z) : bool * string :=
  match findTraits f alt with Some t => (true, t_fcc t) | None => (false, "UNKN"%string) end.
Definition hasSupportedFourCC (f : vfmt) : bool := fst (getFourCC f 0).

(** A value of int, or undefined behaviour when it overflows. *)
Definition i32 (x : Z) : outcome Z := if in_intb x then Ok x else UB.

(** fourcc.cpp:112-114 *)
Definition rowAligned (rowsize al : Z) : outcome Z :=
  if rowsize mod al =? 0 then Ok rowsize else i32 (rowsize + (al - rowsize mod al)).
(** fourcc.cpp:116-119 *)
Definition rowPlanar (width bytes : Z) (t : option traits) : outcome Z :=
  obind (i32 (width * bytes)) (fun r => rowAligned r (match t with Some t => t_align t | None => 1 end)).
(** fourcc.cpp:121-125; unsigned arithmetic, converted to int. *)
Definition rowInterleaved (width : Z) (t : traits) : outcome Z :=
  let r := ((width * t_num t + (t_den t - 1)) mod 2 ^ 32) / t_den t in
  rowAligned (wrap32 r) (t_align t).

(** fourcc.cpp:127-159 *)
Definition bmpSize (f : vfmt) (w h alt : Z) : outcome Z :=
  let t := findTraits f alt in
  let planar := obind (rowPlanar w (f_bytes f) t) (fun r => obind (i32 (r * h)) (fun luma =>
    if (f_cf f =? cfGray) || (f_cf f =? cfPackedRGB) || (f_cf f =? cfPackedYUV) then Ok luma
    else obind (rowPlanar (Z.shiftr w (f_ssw f)) (f_bytes f) t) (fun c =>
         obind (i32 (c * Z.shiftr h (f_ssh f))) (fun chroma =>
         obind (i32 (chroma * 2)) (fun c2 => i32 (luma + c2)))))) in
  match t with
  | None => planar
  | Some tr =>
      if isPlanar (t_pack tr) then planar
      else if t_nv tr then
        obind (rowPlanar w (f_bytes f) t) (fun r => obind (i32 (r * h)) (fun luma =>
        obind (i32 (Z.shiftr w (f_ssw f) * 2)) (fun w2 => obind (rowPlanar w2 (f_bytes f) t) (fun c =>
        obind (i32 (c * Z.shiftr h (f_ssh f))) (fun chroma => i32 (luma + chroma))))))
      else obind (rowInterleaved w tr) (fun r => i32 (r * h))
  end.

(** fourcc.cpp:161-174 *)
Definition bitsPerPixel (f : vfmt) (alt : Z) : Z :=
  match findTraits f alt with
  | None => 0
  | Some t => if t_bib t =? 0 then let b := f_bytes f * 8 in b + Z.shiftr (b * 2) (f_ssw f + f_ssh f) else t_bib t
  end.

(** A plane written: where row 0 begins, from row to row, bytes written in a row, rows, and the
    input planes it is made of. *)
Record block := mkB { b_off : Z; b_stride : Z; b_len : Z; b_rows : Z; b_from : list Z }.

(** fourcc.cpp:197-217: the loop over planes, [dst] the running pointer. *)
Fixpoint planarBlocks (f : vfmt) (w h : Z) (t : option traits) (order : list Z) (dst : Z) : outcome (list block) :=
  match order with
  | [] => Ok []
  | p :: tl =>
      let ssw := if p =? 0 then 0 else f_ssw f in
      let ssh := if p =? 0 then 0 else f_ssh f in
      obind (rowPlanar (Z.shiftr w ssw) (f_bytes f) t) (fun row =>
      let ud := match t with Some t => t_ud t | None => false end in
      obind (if ud then i32 (row * (Z.shiftr h ssh - 1)) else Ok 0) (fun up =>
      obind (i32 (Z.shiftr w ssw * f_bytes f)) (fun len =>
      obind (i32 (row * Z.shiftr h ssh)) (fun size =>
      obind (planarBlocks f w h t tl (dst + size)) (fun rest =>
      Ok (mkB (dst + up) (if ud then - row else row) len (Z.shiftr h ssh) [p] :: rest))))))
  end.

(** What p2p_pack_frame writes of a row of the (first) output plane: whole groups of six pixels
    for v210. The contract of the library, which is not part of the repository. *)
Definition p2pRow (p : packing) (w : Z) : Z :=
  match p with
  | p_argb32 | p_rgb30 | p_y410 => 4 * w
  | p_argb64 | p_y416 => 8 * w
  | p_yuy2 | p_uyvy => 2 * w
  | p_v210 => 16 * ((w + 5) / 6)
  | _ => 2 * w
  end.

(** fourcc.cpp:189-260; p2p strides are ptrdiff_t. [np] planes are visited in [order]. *)
Definition packBlocks (f : vfmt) (w h alt : Z) : outcome (list block) :=
  let t := findTraits f alt in
  let swap := match t with Some t => t_swap t | None => false end in
  let order := firstn (Z.to_nat (f_np f)) (if swap then [0; 1; 2] else [0; 2; 1]) in
  match t with
  | None => planarBlocks f w h t order 0
  | Some tr =>
      if isPlanar (t_pack tr) then planarBlocks f w h t order 0
      else if t_nv tr then
        obind (rowPlanar w (f_bytes f) t) (fun s0 =>
        obind (i32 (Z.shiftr w (f_ssw f) * 2)) (fun w2 => obind (rowPlanar w2 (f_bytes f) t) (fun s1 =>
        Ok [mkB 0 s0 (2 * w) h [0]; mkB (s0 * h) s1 (4 * Z.shiftr w (f_ssw f)) (Z.shiftr h (f_ssh f)) [1; 2]])))
      else obind (rowInterleaved w tr) (fun s0 =>
        Ok [if t_ud tr then mkB ((h - 1) * s0) (- s0) (p2pRow (t_pack tr) w) h [0; 1; 2]
            else mkB 0 s0 (p2pRow (t_pack tr) w) h [0; 1; 2]])
  end.
