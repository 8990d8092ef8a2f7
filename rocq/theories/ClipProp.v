(** Clips stored in properties: src/core/simplefilters.cpp:2050-2177 (ClipToProp, PropToClip), 2494-2521 (what CopyFrameProps declares), vsapi.cpp:476-497 (mapGetFrame), 634-639 (mapSetFrame), include/VSHelper4.h:88-95.
    Simplifications: a frame is a number, [st_audio] and [st_meta] give its kind, format and size; nodes serve the last frame for numbers past their end (C57).  Asking an audio frame for its video format fails an assertion or reads the wrong member of a union: UB. *)
From Coq Require Import String Ascii ZArith List Lia Bool.
From Verif Require Import Common SMap MapSpec FormatSpec Format ReqPat Props.
Import ListNotations.
Local Open Scope string_scope.
Open Scope Z_scope.

Record store := mkStore { st_audio : Z -> bool; st_meta : Z -> vfmt * (Z * Z) }.
Record cvi := mkCV { cv_fmt : vfmt; cv_w : Z; cv_h : Z; cv_n : Z; cv_fps : Z * Z }.
Definition isConstant (v : cvi) : bool := (0 <? cv_h v) && (0 <? cv_w v) && negb (f_cf (cv_fmt v) =? cfUndefined).
Definition sameFormat (a b : vfmt) : bool := (f_cf a =? f_cf b) && (f_st a =? f_st b) && (f_bits a =? f_bits b) && (f_ssw a =? f_ssw b) && (f_ssh a =? f_ssh b).
Definition mapSetFrame (st : store) (m : pmap) (k : string) (h : Z) : pmap := keepOr m (set_value m k (VFrame (st_audio st h) h) MReplace).
Definition mapGetFrame (m : pmap) (k : string) (i : Z) : option (bool * Z) :=
  match snd (lookup_at m k i ptVideoFrame) with
  | Some (VFrame a h) => Some (a, h)
  | Some _ => None
  | None => match snd (lookup_at m k i ptAudioFrame) with Some (VFrame a h) => Some (a, h) | _ => None end
  end.
(** ClipToProp: the clip, the property and the declared patterns. *)
Definition propName (p : option string) : string := match p with Some s => s | None => "_Alpha" end.
Definition clipToPropCreate (v1 v2 : cvi) (p : option string) : outcome (cvi * string * (reqpat * reqpat)) :=
  if negb (isConstant v1) || negb (isConstant v2) then Err
  else Ok (mkCV (cv_fmt v1) (cv_w v1) (cv_h v1) (cv_n v2) (cv_fps v1), propName p, (if cv_n v2 <=? cv_n v1 then rpStrictSpatial else rpFrameReuseLastOnly, rpNoFrameReuse)).
(** A frame of the result: whose planes it has, and its properties. *)
Definition clipToPropFrame (st : store) (k : string) (src1 : Z * pmap) (src2 : Z) : Z * pmap := (fst src1, mapSetFrame st (snd src1) k src2).
Definition node (len : Z) (f : Z -> Z * pmap) (n : Z) : Z * pmap := f (Z.min n (len - 1)).
Definition clipToProp (st : store) (k : string) (n1 n2 : Z) (c1 c2 : Z -> Z * pmap) (n : Z) : Z * pmap := clipToPropFrame st k (node n1 c1 n) (fst (node n2 c2 n)).
(** PropToClip. *)
Definition videoMeta (st : store) (q : bool * Z) : outcome (vfmt * (Z * Z)) := if fst q then UB else Ok (st_meta st (snd q)).
Definition propToClipCreate (st : store) (v : cvi) (p : option string) (index : option Z) (src0 : outcome (Z * pmap)) : outcome (cvi * string * Z) :=
  if negb (isConstant v) then Err
  else if String.eqb (propName p) "" then Err
  else let i := match index with Some z => sat32 z | None => 0 end in
  if i <? 0 then Err
  else obind src0 (fun s => match mapGetFrame (snd s) (propName p) i with
    | None => Err
    | Some q => obind (videoMeta st q) (fun x => Ok (mkCV (fst x) (fst (snd x)) (snd (snd x)) (cv_n v) (cv_fps v), propName p, i))
    end).
Definition propToClipFrame (st : store) (d : cvi * string * Z) (s : Z * pmap) : outcome Z :=
  match mapGetFrame (snd s) (snd (fst d)) (snd d) with
  | None => Err
  | Some q => obind (videoMeta st q) (fun x =>
      if negb (sameFormat (cv_fmt (fst (fst d))) (fst x)) || negb (cv_h (fst (fst d)) =? snd (snd x)) || negb (cv_w (fst (fst d)) =? fst (snd x)) then Err else Ok (snd q))
  end.
(** CopyFrameProps: patterns of the clip and of the source of the properties. *)
Definition copyPatterns (v1 v2 : cvi) : reqpat * reqpat := (rpStrictSpatial, if cv_n v1 <=? cv_n v2 then rpStrictSpatial else rpFrameReuseLastOnly).
