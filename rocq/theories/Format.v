(** Video and audio formats, their identifiers and their names. *)
From Coq Require Import ZArith List Lia Bool String.
From Verif Require Import Common FormatSpec.
Import ListNotations.
Local Open Scope string_scope.
Local Open Scope list_scope.
Open Scope Z_scope.

(** src/core/vscore.cpp:1507-1530, VSCore::isValidVideoFormat(int,...). *)
Definition isValidVideoFormat (cf st bits ssw ssh : Z) : bool :=
  if negb (cf =? cfUndefined) && negb (cf =? cfGray) && negb (cf =? cfYUV) && negb (cf =? cfRGB)
  then false
  else if (cf =? cfUndefined) && (ssh =? 0) && (ssw =? 0) && (bits =? 0) && (st =? stInteger)
  then true
  else if negb (st =? stInteger) && negb (st =? stFloat) then false
  else if (st =? stFloat) && (negb (bits =? 16) && negb (bits =? 32)) then false
  else if (ssh <? 0) || (ssw <? 0) || (4 <? ssh) || (4 <? ssw) then false
  else if ((cf =? cfRGB) || (cf =? cfGray)) && (negb (ssh =? 0) || negb (ssw =? 0)) then false
  else if (bits <? 8) || (32 <? bits) then false
  else true.

(** src/core/vscore.cpp:1532-1550, VSCore::isValidVideoFormat(const VSVideoFormat &). *)
Definition isValidVideoFormatS (f : vfmt) : bool :=
  if negb (isValidVideoFormat (f_cf f) (f_st f) (f_bits f) (f_ssw f) (f_ssh f)) then false
  else if f_cf f =? cfUndefined then (f_bytes f =? 0) && (f_np f =? 0)
  else if negb (f_np f =? (if (f_cf f =? cfYUV) || (f_cf f =? cfRGB) then 3 else 1)) then false
  else if (f_bits f =? 8) && negb (f_bytes f =? 1) then false
  else if (8 <? f_bits f) && (f_bits f <=? 16) && negb (f_bytes f =? 2) then false
  else if (16 <? f_bits f) && negb (f_bytes f =? 4) then false
  else true.

(** The loop [while (bytes * 8 < bits) bytes <<= 1;] of vscore.cpp:1288-1289 and
    1417-1418, at most [fuel] iterations ([None]: would run longer). *)
Fixpoint bytesLoop (fuel : nat) (bytes bits : Z) : option Z :=
  match fuel with
  | O => None
  | S k => if bytes * 8 <? bits then bytesLoop k (Z.shiftl bytes 1) bits else Some bytes
  end.

(** src/core/vscore.cpp:1275-1296, VSCore::queryVideoFormat; the result is the
    returned flag and the contents of the output structure.  [None] would be a
    loop running for more than 8 iterations (never, see [bytesLoop_total]). *)
Definition queryVideoFormat (cf st bits ssw ssh : Z) : option (bool * vfmt) :=
  if cf =? cfUndefined then Some (true, undefFmt)
  else if negb (isValidVideoFormat cf st bits ssw ssh) then Some (false, undefFmt)
  else match bytesLoop 8 1 bits with
       | Some nb => Some (true, mkV cf st bits nb ssw ssh (if cf =? cfGray then 1 else 3))
       | None => None
       end.

(** src/core/vscore.cpp:1307-1311, VSCore::queryVideoFormatID. *)
Definition queryVideoFormatID (cf st bits ssw ssh : Z) : Z :=
  if negb (isValidVideoFormat cf st bits ssw ssh) || (cf =? cfUndefined) then 0
  else Z.lor (Z.lor (Z.lor (Z.lor (Z.shiftl (Z.land cf 15) 28) (Z.shiftl (Z.land st 15) 24))
                           (Z.shiftl (Z.land bits 255) 16))
                    (Z.shiftl (Z.land ssw 255) 8))
             (Z.shiftl (Z.land ssh 255) 0).

(** *** The API 3 format registry *)

(** src/core/VapourSynth3.h:38-46 *)
Definition cmGray := 1000000.
Definition cmRGB := 2000000.
Definition cmYUV := 3000000.
Definition cmYCoCg := 4000000.
Definition cmCompat := 9000000.

(** struct vs3::VSVideoFormat without the name, byte and plane counts. *)
Record v3fmt := mk3 { t_id : Z; t_cf : Z; t_st : Z; t_bits : Z; t_ssw : Z; t_ssh : Z }.

Definition descr (f : v3fmt) := (t_cf f, t_st f, t_bits f, t_ssw f, t_ssh f).

(** std::map<int, vs3::VSVideoFormat> as a list sorted by id, and the counter
    videoFormatIdOffset (vscore.h:1147-1148). *)
Record reg := mkReg { r_fmts : list v3fmt; r_off : Z }.

Fixpoint insertFmt (f : v3fmt) (l : list v3fmt) : list v3fmt :=
  match l with
  | [] => [f]
  | g :: r => if t_id f <? t_id g then f :: l
              else if t_id f =? t_id g then l       (* std::map::insert keeps the old entry *)
              else g :: insertFmt f r
  end.

Definition sameDescr (cf st bits ssw ssh : Z) (f : v3fmt) : bool :=
  (t_cf f =? cf) && (t_st f =? st) && (t_ssw f =? ssw) && (t_ssh f =? ssh) && (t_bits f =? bits).

(** src/core/vscore.cpp:1257-1265, VSCore::getV3VideoFormat. *)
Definition getV3VideoFormat (r : reg) (id : Z) : option v3fmt :=
  find (fun f => t_id f =? id) (r_fmts r).

(** src/core/vscore.cpp:1313-1406, VSCore::queryVideoFormat3.  [named] says whether
    a name was given, [id] is 0 when the identifier is to be assigned.  The name
    text is not modelled. *)
Definition queryVideoFormat3 (r : reg) (cf st bits ssw ssh : Z) (named : bool) (id : Z)
  : reg * option v3fmt :=
  if (ssh <? 0) || (ssw <? 0) || (4 <? ssh) || (4 <? ssw) then (r, None)
  else if (st <? 0) || (1 <? st) then (r, None)
  else if (cf =? cmRGB) && (negb (ssh =? 0) || negb (ssw =? 0)) then (r, None)
  else if (st =? stFloat) && (negb (bits =? 16) && negb (bits =? 32)) then (r, None)
  else if (bits <? 8) || (32 <? bits) then (r, None)
  else if (cf =? cmCompat) && negb named then (r, None)
  else match find (sameDescr cf st bits ssw ssh) (r_fmts r) with
       | Some f => (r, Some f)
       | None =>
           let newid := if negb (id =? 0) then id else cf + r_off r in
           let off := if negb (id =? 0) then r_off r else r_off r + 1 in
           let r' := mkReg (insertFmt (mk3 newid cf st bits ssw ssh) (r_fmts r)) off in
           (r', getV3VideoFormat r' newid)
       end.

(** src/core/vscore.cpp:1793-1845, VSCore::registerFormats, with the identifiers
    of src/core/VapourSynth3.h:49-100. *)
Definition builtin : list (Z * Z * Z * Z * Z * Z) := [
  (cmGray,0,8,0,0,cmGray+10); (cmGray,0,16,0,0,cmGray+11);
  (cmGray,1,16,0,0,cmGray+12); (cmGray,1,32,0,0,cmGray+13);
  (cmYUV,0,8,1,1,cmYUV+10); (cmYUV,0,8,1,0,cmYUV+11); (cmYUV,0,8,0,0,cmYUV+12);
  (cmYUV,0,8,2,2,cmYUV+13); (cmYUV,0,8,2,0,cmYUV+14); (cmYUV,0,8,0,1,cmYUV+15);
  (cmYUV,0,9,1,1,cmYUV+16); (cmYUV,0,9,1,0,cmYUV+17); (cmYUV,0,9,0,0,cmYUV+18);
  (cmYUV,0,10,1,1,cmYUV+19); (cmYUV,0,10,1,0,cmYUV+20); (cmYUV,0,10,0,0,cmYUV+21);
  (cmYUV,0,12,1,1,cmYUV+27); (cmYUV,0,12,1,0,cmYUV+28); (cmYUV,0,12,0,0,cmYUV+29);
  (cmYUV,0,14,1,1,cmYUV+30); (cmYUV,0,14,1,0,cmYUV+31); (cmYUV,0,14,0,0,cmYUV+32);
  (cmYUV,0,16,1,1,cmYUV+22); (cmYUV,0,16,1,0,cmYUV+23); (cmYUV,0,16,0,0,cmYUV+24);
  (cmYUV,1,16,0,0,cmYUV+25); (cmYUV,1,32,0,0,cmYUV+26);
  (cmRGB,0,8,0,0,cmRGB+10); (cmRGB,0,9,0,0,cmRGB+11); (cmRGB,0,10,0,0,cmRGB+12);
  (cmRGB,0,16,0,0,cmRGB+13); (cmRGB,1,16,0,0,cmRGB+14); (cmRGB,1,32,0,0,cmRGB+15);
  (cmCompat,0,32,0,0,cmCompat+10); (cmCompat,0,16,1,0,cmCompat+11) ].

Definition pfCompatBGR32 := cmCompat + 10.
Definition pfCompatYUY2 := cmCompat + 11.

Definition registerFormats (r : reg) : reg :=
  fold_left (fun r e => match e with (cf,st,bits,ssw,ssh,id) =>
                          fst (queryVideoFormat3 r cf st bits ssw ssh true id) end) builtin r.

(** src/core/vscore.cpp:2020 and VSCore::VSCore: the registry of a new core. *)
Definition reg0 : reg := registerFormats (mkReg [] 1000).

(** src/core/vscore.cpp:1618-1631; an unknown family is an assertion failure
    (undefined behaviour of the model: [None]). *)
Definition ColorFamilyFromV3 (cf : Z) : option Z :=
  if cf =? cmGray then Some cfGray
  else if (cf =? cmYUV) || (cf =? cmYCoCg) then Some cfYUV
  else if cf =? cmRGB then Some cfRGB
  else None.

(** src/core/vscore.cpp:1633-1645 *)
Definition ColorFamilyToV3 (cf : Z) : option Z :=
  if cf =? cfGray then Some cmGray
  else if cf =? cfYUV then Some cmYUV
  else if cf =? cfRGB then Some cmRGB
  else None.

(** src/core/vscore.cpp:1654-1659, VSCore::VideoFormatFromV3. *)
Definition VideoFormatFromV3 (f : option v3fmt) : option (bool * vfmt) :=
  match f with
  | None => queryVideoFormat cfUndefined stInteger 0 0 0
  | Some f =>
      if (t_id f =? pfCompatBGR32) || (t_id f =? pfCompatYUY2)
      then queryVideoFormat cfUndefined stInteger 0 0 0
      else match ColorFamilyFromV3 (t_cf f) with
           | Some cf => queryVideoFormat cf (t_st f) (t_bits f) (t_ssw f) (t_ssh f)
           | None => None
           end
  end.

(** src/core/vscore.cpp:1647-1652, VSCore::VideoFormatToV3. *)
Definition VideoFormatToV3 (r : reg) (f : vfmt) : option (reg * option v3fmt) :=
  if f_cf f =? cfUndefined then Some (r, None)
  else match ColorFamilyToV3 (f_cf f) with
       | Some cf => Some (queryVideoFormat3 r cf (f_st f) (f_bits f) (f_ssw f) (f_ssh f) false 0)
       | None => None
       end.

(** src/core/vscore.cpp:1298-1305, VSCore::getVideoFormatByID; [id] is a uint32_t. *)
Definition isV3ID (id : Z) : bool :=
  (Z.land id 4278190080 =? 0) && negb (Z.land id 16777215 =? 0).

Definition getVideoFormatByID (r : reg) (id : Z) : option (bool * vfmt) :=
  if isV3ID id then VideoFormatFromV3 (getV3VideoFormat r id)
  else queryVideoFormat (Z.land (Z.shiftr id 28) 15) (Z.land (Z.shiftr id 24) 15)
                        (Z.land (Z.shiftr id 16) 255) (Z.land (Z.shiftr id 8) 255)
                        (Z.land (Z.shiftr id 0) 255).

(** *** Names *)

Definition digit (d : Z) : string :=
  String (Ascii.ascii_of_nat (48 + Z.to_nat d)) EmptyString.

(** printf %d for 0 <= n < 100, which covers every number printed below. *)
Definition dec2 (n : Z) : string :=
  if n <? 10 then digit n else append (digit (n / 10)) (digit (n mod 10)).

(** src/core/vscore.cpp:1720-1768, VSCore::getVideoFormatName ([None] = returns
    false).  The 32 byte truncation of snprintf never applies. *)
Definition getVideoFormatName (f : vfmt) : option string :=
  if negb (isValidVideoFormat (f_cf f) (f_st f) (f_bits f) (f_ssw f) (f_ssh f)) then None
  else
    let suffix := if f_st f =? stFloat then (if f_bits f =? 32 then "S" else "H")
                  else dec2 ((if f_cf f =? cfRGB then 3 else 1) * f_bits f) in
    if f_cf f =? cfGray then Some (append "Gray" suffix)
    else if f_cf f =? cfRGB then Some (append "RGB" suffix)
    else if f_cf f =? cfYUV then
      let w := f_ssw f in let h := f_ssh f in
      let yuv := if (w =? 1) && (h =? 1) then Some "420"
                 else if (w =? 1) && (h =? 0) then Some "422"
                 else if (w =? 0) && (h =? 0) then Some "444"
                 else if (w =? 2) && (h =? 2) then Some "410"
                 else if (w =? 2) && (h =? 0) then Some "411"
                 else if (w =? 0) && (h =? 1) then Some "440"
                 else None in
      match yuv with
      | Some y => Some (append "YUV" (append y (append "P" suffix)))
      | None => Some (append "YUVssw" (append (dec2 w) (append "ssh" (append (dec2 h) (append "P" suffix)))))
      end
    else Some "Undefined".

(** *** Audio formats *)

(** src/core/vscore.cpp:1552-1566, VSCore::isValidAudioFormat(int,...). *)
Definition isValidAudioFormat (st bits layout : Z) : bool :=
  if negb (st =? stInteger) && negb (st =? stFloat) then false
  else if (bits <? 16) || (32 <? bits) then false
  else if (st =? stFloat) && negb (bits =? 32) then false
  else if layout =? 0 then false
  else true.

(** src/core/vscore.cpp:1568-1582, VSCore::isValidAudioFormat(const VSAudioFormat &). *)
Definition isValidAudioFormatS (a : afmt) : bool :=
  if negb (isValidAudioFormat (a_st a) (a_bits a) (a_layout a)) then false
  else if negb (a_nch a =? popcount 64 (a_layout a)) then false
  else if (a_bits a =? 16) && negb (a_bytes a =? 2) then false
  else if (16 <? a_bits a) && negb (a_bytes a =? 4) then false
  else true.

(** src/core/vscore.cpp:1408-1424, VSCore::queryAudioFormat ([None]: returns false). *)
Definition queryAudioFormat (st bits layout : Z) : option afmt :=
  if negb (isValidAudioFormat st bits layout) then None
  else match bytesLoop 8 1 bits with
       | Some nb => Some (mkA st bits nb (popcount 64 layout) layout)
       | None => None
       end.
