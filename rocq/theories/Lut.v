(** Model of src/core/lutfilters.cpp and src/core/kernel/x86/lut_avx512.cpp: Lut and Lut2.

    Samples of float output are 32 bit patterns; the conversion from double is a parameter
    [tofloat].  User functions are pure. *)
From Coq Require Import String.
From Coq Require Import ZArith List Lia Bool.
From Verif Require Import Common FormatSpec Format Frame ImageSpec PlaneMem Spatial Pixel.
Import ListNotations.
Open Scope Z_scope.

(** ** Tables *)

(** malloc'd table: [None] = not initialised; reading such an entry is UB, as is reading
    outside. *)
Definition table := Z -> option Z.
Definition noTable : table := fun _ => None.
Definition setT (t : table) (i v : Z) : table := fun j => if j =? i then Some v else t j.
Definition lookup (size : Z) (t : table) (i : Z) : outcome Z :=
  if (0 <=? i) && (i <? size) then match t i with Some v => Ok v | None => UB end else UB.

Section Create.
Variable D : Type.            (* double *)
Variable tofloat : D -> Z.    (* static_cast<float>, as bits *)

(** What a user function leaves in its output map: an error message, or "val" read as an
    integer and as a float. *)
Inductive reply := RError (msg : string) | RVal (asInt : option Z) (asFloat : option D).

(** lutfilters.cpp:177-197: the value stored for a reply. *)
Definition convert (floatout : bool) (nout : Z) (vi : option Z) (vd : option D) : option Z :=
  if floatout then option_map tofloat vd
  else match vi with Some v => if (v <? 0) || (nout <=? v) then None else Some v | None => None end.

(** funcToLut, lutfilters.cpp:158-206: fills until an error; the result is the table and
    errstr. *)
Fixpoint funcLoop (n : nat) (i : Z) (floatout : bool) (nout : Z) (f : Z -> reply) (t : table) : table * string :=
  match n with
  | O => (t, ""%string)
  | S k =>
      match f i with
      | RError msg => (t, msg)
      | RVal vi vd =>
          match convert floatout nout vi vd with
          | Some v => funcLoop k (i + 1) floatout nout f (setT t i v)
          | None => (t, "Lut: invalid value"%string)
          end
      end
  end.

(** lutfilters.cpp:229-250: copying the list; [None] = value out of range. *)
Fixpoint listLoop (n : nat) (i : Z) (conv : Z -> outcome (option Z)) (t : table) : outcome table :=
  match n with
  | O => Ok t
  | S k => obind (conv i) (fun o => match o with Some v => listLoop k (i + 1) conv (setT t i v) | None => Err end)
  end.

(** for (i = lo; i < hi; i++) lut[i] = lut[lo - 1]; *)
Definition padT (lo hi : Z) (t : table) : table := fun j => if (lo <=? j) && (j <? hi) then t (lo - 1) else t j.

Record lutArgs := mkLA {
  la_planes : list Z;
  la_lut : option (list Z);
  la_lutf : option (list D);
  la_func : option (Z -> reply);
  la_bits : option Z;
  la_float : bool }.

(** The array element [i] of "lut"/"lutf"; the length was checked. *)
Definition arrayConv (floatout : bool) (maxval : Z) (l : list Z) (lf : list D) (i : Z) : outcome (option Z) :=
  if floatout then match nthz lf i with Some v => Ok (Some (tofloat v)) | None => UB end
  else match nthz l i with
       | Some v => Ok (if (v <? 0) || (maxval <=? v) then None else Some v)
       | None => UB
       end.

Definition orNil {A} (o : option (list A)) : list A := match o with Some l => l | None => [] end.

(** lutCreateHelper, lutfilters.cpp:208-266: the padded table. *)
Definition buildTable (bits bytes bitsout : Z) (a : lutArgs) : outcome table :=
  let inrange := 2 ^ bits in
  let maxval := if la_float a then 0 else 2 ^ bitsout in
  obind
    (match la_func a with
     | Some f =>
         let '(t, err) := funcLoop (Z.to_nat inrange) 0 (la_float a) maxval f noTable in
         if String.eqb err "" then Ok t else Err
     | None => listLoop (Z.to_nat inrange) 0 (arrayConv (la_float a) maxval (orNil (la_lut a)) (orNil (la_lutf a))) noTable
     end)
    (fun t => Ok (padT inrange (2 ^ (8 * bytes)) t)).

Record lutData := mkLD { ld_out : vinfo; ld_process : Z -> bool; ld_tbl : table; ld_bytesIn : Z; ld_vbmi : bool }.

Definition isSet {A} (o : option A) : Z := match o with Some _ => 1 | None => 0 end.

(** lutCreate, lutfilters.cpp:268-348. *)
Definition lutCreate (vbmi : bool) (vi : vinfo) (a : lutArgs) : outcome lutData :=
  if negb (constantFormat vi) then Err
  else if negb (f_st (vi_fmt vi) =? stInteger) || (16 <? f_bits (vi_fmt vi)) then Err
  else
    let bitsout := match la_bits a with Some b => sat32 b | None => if la_float a then 32 else f_bits (vi_fmt vi) end in
    if (la_float a && negb (bitsout =? 32)) || (negb (la_float a) && ((bitsout <? 8) || (16 <? bitsout))) then Err
    else match getPlanesArg (la_planes a) with
    | None => Err
    | Some process =>
        let num := isSet (la_lut a) + isSet (la_lutf a) + isSet (la_func a) in
        if num =? 0 then Err
        else if 1 <? num then Err
        else if (isSet (la_lut a) =? 1) && la_float a then Err
        else if (isSet (la_lutf a) =? 1) && negb (la_float a) then Err
        else
          let len o := match o with Some n => n | None => -1 end in
          let length := Z.max (len (option_map (@zlength Z) (la_lut a))) (len (option_map (@zlength D) (la_lutf a))) in
          if (0 <=? length) && negb (length =? 2 ^ f_bits (vi_fmt vi)) then Err
          else
            obind (queryFmt (f_cf (vi_fmt vi)) (if la_float a then stFloat else stInteger) bitsout
                            (f_ssw (vi_fmt vi)) (f_ssh (vi_fmt vi))) (fun fo =>
            obind (buildTable (f_bits (vi_fmt vi)) (f_bytes (vi_fmt vi)) bitsout a) (fun t =>
              Ok (mkLD (mkVI fo (vi_w vi) (vi_h vi) (vi_n vi)) process t (f_bytes (vi_fmt vi)) vbmi)))
    end.

End Create.
Arguments RError {D}. Arguments RVal {D}.
Arguments mkLA {D}. Arguments la_planes {D}. Arguments la_lut {D}. Arguments la_lutf {D}. Arguments la_func {D}.
Arguments la_bits {D}. Arguments la_float {D}.
Arguments lutCreate {D}. Arguments buildTable {D}. Arguments funcLoop {D}. Arguments convert {D}. Arguments arrayConv {D}.

(** ** Rows *)

Fixpoint mapO {A B} (f : A -> outcome B) (l : list A) : outcome (list B) :=
  match l with
  | [] => Ok []
  | x :: r => obind (f x) (fun y => obind (mapO f r) (fun s => Ok (y :: s)))
  end.

(** (uint64_t) a << s0 | b << s1 | ..., then memcpy to the row: the lanes in memory. *)
Definition orShifted (shifts vals : list Z) : Z :=
  fold_left (fun acc sv => Z.lor acc (Z.shiftl (snd sv) (fst sv))) (combine shifts vals) 0.
Definition lanesOf (bits n p : Z) : list Z := map (fun t => (p / 2 ^ (bits * t)) mod 2 ^ bits) (zseq n).

(** lutfilters.cpp:114-127, 8 bit output: eight samples at a time. *)
Definition lutGroup8 (kin size : Z) (t : table) (src : plane) (x y : Z) : outcome (list Z) :=
  obind (loadLanes kin (p_buf src) (y * p_stride src + x * kin) 8) (fun l =>
  obind (mapO (lookup size t) l) (fun v => Ok (lanesOf 8 8 (orShifted [0; 8; 16; 24; 32; 40; 48; 56] v)))).
(** lutfilters.cpp:128-136, 16 bit output: four at a time. *)
Definition lutGroup16 (kin size : Z) (t : table) (src : plane) (x y : Z) : outcome (list Z) :=
  obind (loadLanes kin (p_buf src) (y * p_stride src + x * kin) 4) (fun l =>
  obind (mapO (lookup size t) l) (fun v => Ok (lanesOf 16 4 (orShifted [0; 16; 32; 48] v)))).
(** lutfilters.cpp:137-140. *)
Definition lutOne (kin size : Z) (t : table) (src : plane) (x y : Z) : outcome Z :=
  obind (loadS kin (p_buf src) (y * p_stride src + x * kin)) (lookup size t).

(** vs_lut1_b_b_avx512vbmi, lut_avx512.cpp:80-97: _mm512_permutex2var_epi8 selects with six
    bits of the index within a register and with bit 6 between the two; lanes whose mask
    bit is clear are zero. *)
Definition permutex2 (size : Z) (t : table) (a b x : Z) : outcome Z :=
  lookup size t ((if Z.testbit x 6 then b else a) + x mod 64).
Definition vbmiLane (t : table) (x : Z) : outcome Z :=
  let nonneg := x <? 128 in    (* signed byte compare with zero *)
  obind (if nonneg then permutex2 256 t 0 64 x else Ok 0) (fun a =>
  obind (if negb nonneg then permutex2 256 t 128 192 x else Ok 0) (fun b => Ok (Z.lor a b))).
(** Aligned loads and stores of 64 bytes; planes start at multiples of the alignment. *)
Definition vbmiGroup (al : Z) (t : table) (src : plane) (dstStride : Z) (x y : Z) : outcome (list Z) :=
  if (al mod 64 =? 0) && ((y * p_stride src + x) mod 64 =? 0) && ((y * dstStride + x) mod 64 =? 0) then
    obind (loadLanes 1 (p_buf src) (y * p_stride src + x) 64) (mapO (vbmiLane t))
  else UB.

(** lutGetframe, lutfilters.cpp:64-156. *)
Definition lutPlane (al : Z) (d : lutData) (w h : Z) (src dst : plane) : outcome pbuf :=
  let kin := ld_bytesIn d in
  let size := 2 ^ (8 * kin) in
  let kout := f_bytes (vi_fmt (ld_out d)) in
  if (kin =? 1) && (kout =? 1) && ld_vbmi d then
    drawGroups 1 w h 64 (vbmiGroup al (ld_tbl d) src (p_stride dst)) dst
  else if kout =? 1 then drawGroups 1 w h 8 (lutGroup8 kin size (ld_tbl d) src) dst
  else if kout =? 2 then drawGroups 2 w h 4 (lutGroup16 kin size (ld_tbl d) src) dst
  else drawPlane kout w h (lutOne kin size (ld_tbl d) src) dst.

Definition lutGetFrame (al : Z) (g : Z -> Z -> Z) (d : lutData) (src : vframe) : outcome vframe :=
  let f := vi_fmt (ld_out d) in
  filterFrame al g f (vf_w src) (vf_h src) (ld_process d) src (fun i q =>
    match nthz (vf_planes src) i with
    | Some p => lutPlane al d (getWidth (vf_fmt src) (vf_w src) i) (getHeight (vf_fmt src) (vf_h src) i) p q
    | None => UB
    end).

(** ** Lut2 *)

Section Create2.
Variable D : Type.
Variable tofloat : D -> Z.

(** funcToLut2, lutfilters.cpp:452-505: [true] = filled; every error has a message. *)
Fixpoint func2Row (n : nat) (j : Z) (floatout : bool) (nout : Z) (f : Z -> reply D) (base : Z) (t : table) : option table :=
  match n with
  | O => Some t
  | S k =>
      match f j with
      | RError _ => None
      | RVal vi vd =>
          match convert tofloat floatout nout vi vd with
          | Some v => func2Row k (j + 1) floatout nout f base (setT t (j + base) v)
          | None => None
          end
      end
  end.
Fixpoint func2Loop (n : nat) (i nx : Z) (floatout : bool) (nout : Z) (f : Z -> Z -> reply D) (t : table) : option table :=
  match n with
  | O => Some t
  | S k =>
      match func2Row (Z.to_nat nx) 0 floatout nout (fun j => f j i) (i * nx) t with
      | Some t' => func2Loop k (i + 1) nx floatout nout f t'
      | None => None
      end
  end.

Record lut2Args := mkLA2 {
  l2_planes : list Z;
  l2_lut : option (list Z);
  l2_lutf : option (list D);
  l2_func : option (Z -> Z -> reply D);    (* x, y *)
  l2_bits : option Z;
  l2_float : bool }.

(** lut2CreateHelper, lutfilters.cpp:507-547. *)
Definition buildTable2 (bx by_ bitsout : Z) (a : lut2Args) : outcome table :=
  let maxval := if l2_float a then 0 else 2 ^ bitsout in
  match l2_func a with
  | Some f => match func2Loop (Z.to_nat (2 ^ by_)) 0 (2 ^ bx) (l2_float a) maxval f noTable with
              | Some t => Ok t
              | None => Err
              end
  | None => listLoop (Z.to_nat (2 ^ bx * 2 ^ by_)) 0
              (arrayConv tofloat (l2_float a) maxval (orNil (l2_lut a)) (orNil (l2_lutf a))) noTable
  end.

Record lut2Data := mkLD2 { l2_out : vinfo; l2_process : Z -> bool; l2_tbl : table; l2_bx : Z; l2_by : Z;
  l2_kx : Z; l2_ky : Z; l2_gather : bool }.

(** lut2Create, lutfilters.cpp:568-665; [avx512] = CPU level and features. *)
Definition lut2Create (avx512 : bool) (vx vy : vinfo) (a : lut2Args) : outcome lut2Data :=
  let fx := vi_fmt vx in let fy := vi_fmt vy in
  if negb (constantFormat vx) || negb (constantFormat vy) then Err
  else if negb (f_st fx =? stInteger) || negb (f_st fy =? stInteger) || (20 <? f_bits fx + f_bits fy)
          || negb (f_ssh fx =? f_ssh fy) || negb (f_ssw fx =? f_ssw fy)
          || negb (vi_w vx =? vi_w vy) || negb (vi_h vx =? vi_h vy) then Err
  else
    let bitsout := match l2_bits a with Some b => sat32 b | None => if l2_float a then 32 else f_bits fx end in
    if (l2_float a && negb (bitsout =? 32)) || (negb (l2_float a) && ((bitsout <? 8) || (16 <? bitsout))) then Err
    else
      obind (queryFmt (f_cf fx) (if l2_float a then stFloat else stInteger) bitsout (f_ssw fx) (f_ssh fx)) (fun fo =>
      match getPlanesArg (l2_planes a) with
      | None => Err
      | Some process =>
          let num := isSet (l2_lut a) + isSet (l2_lutf a) + isSet (l2_func a) in
          if num =? 0 then Err
          else if 1 <? num then Err
          else if (isSet (l2_lut a) =? 1) && l2_float a then Err
          else if (isSet (l2_lutf a) =? 1) && negb (l2_float a) then Err
          else
            let len o := match o with Some n => n | None => -1 end in
            let length := Z.max (len (option_map (@zlength Z) (l2_lut a))) (len (option_map (@zlength D) (l2_lutf a))) in
            if (0 <=? length) && negb (length =? 2 ^ (f_bits fx + f_bits fy)) then Err
            else
              obind (buildTable2 (f_bits fx) (f_bits fy) bitsout a) (fun t =>
                let ko := f_bytes fo in
                let gather := avx512 && negb (l2_float a) && (512 * 1024 <=? 2 ^ (f_bits fx + f_bits fy) * ko) in
                Ok (mkLD2 (mkVI fo (vi_w vx) (vi_h vx) (vi_n vx)) process t (f_bits fx) (f_bits fy) (f_bytes fx) (f_bytes fy) gather))
      end).
End Create2.
Arguments mkLA2 {D}. Arguments l2_planes {D}. Arguments l2_lut {D}. Arguments l2_lutf {D}. Arguments l2_func {D}.
Arguments l2_bits {D}. Arguments l2_float {D}. Arguments lut2Create {D}. Arguments buildTable2 {D}. Arguments func2Loop {D}.
Arguments func2Row {D}.

(** lutfilters.cpp:432-436. *)
Definition lut2One (d : lut2Data) (sx sy : plane) (x y : Z) : outcome Z :=
  let size := 2 ^ (l2_bx d + l2_by d) in
  obind (loadS (l2_kx d) (p_buf sx) (y * p_stride sx + x * l2_kx d)) (fun a =>
  obind (loadS (l2_ky d) (p_buf sy) (y * p_stride sy + x * l2_ky d)) (fun b =>
    lookup size (l2_tbl d) (Z.shiftl (Z.min b (2 ^ l2_by d - 1)) (l2_bx d) + Z.min a (2 ^ l2_bx d - 1)))).

(** lut2_gather, lut_avx512.cpp:38-69: sixteen samples at a time; the table of elements of
    [k] bytes is read as dwords, [over] standing for the bytes that follow the element,
    and the result is truncated.  The allocation has 64 bytes more than the table. *)
Definition gatherLane (k size : Z) (t : table) (over : Z -> Z) (i : Z) : outcome Z :=
  let i := wrapu32 i in
  if i * k + 4 <=? size * k + 64 then
    obind (lookup size t i) (fun v => Ok ((v + 2 ^ (8 * k) * over i) mod 2 ^ (8 * k)))
  else UB.
Definition lut2Group (d : lut2Data) (over : Z -> Z) (sx sy : plane) (x y : Z) : outcome (list Z) :=
  let size := 2 ^ (l2_bx d + l2_by d) in
  let k := f_bytes (vi_fmt (l2_out d)) in
  obind (loadLanes (l2_kx d) (p_buf sx) (y * p_stride sx + x * l2_kx d) 16) (fun a =>
  obind (loadLanes (l2_ky d) (p_buf sy) (y * p_stride sy + x * l2_ky d) 16) (fun b =>
    mapO (fun ab => gatherLane k size (l2_tbl d) over
            (Z.shiftl (Z.min (snd ab) (2 ^ l2_by d - 1)) (l2_bx d) + Z.min (fst ab) (2 ^ l2_bx d - 1)))
         (combine a b))).

(** lut2Getframe, lutfilters.cpp:391-450; lut2GatherRow has no kernel for two 8 bit clips. *)
Definition lut2Plane (d : lut2Data) (over : Z -> Z) (w h : Z) (sx sy dst : plane) : outcome pbuf :=
  let kout := f_bytes (vi_fmt (l2_out d)) in
  if l2_gather d && negb ((l2_kx d =? 1) && (l2_ky d =? 1)) then
    drawGroups kout w h 16 (lut2Group d over sx sy) dst
  else drawPlane kout w h (lut2One d sx sy) dst.

(** A plane that the second clip does not have is a null pointer (vscore.cpp:369-371). *)
Definition lut2GetFrame (al : Z) (g : Z -> Z -> Z) (d : lut2Data) (over : Z -> Z) (srcx srcy : vframe) : outcome vframe :=
  let f := vi_fmt (l2_out d) in
  filterFrame al g f (vf_w srcx) (vf_h srcx) (l2_process d) srcx (fun i q =>
    match nthz (vf_planes srcx) i, nthz (vf_planes srcy) i with
    | Some p, Some p' => lut2Plane d over (getWidth (vf_fmt srcx) (vf_w srcx) i) (getHeight (vf_fmt srcx) (vf_h srcx) i) p p' q
    | _, _ => UB
    end).
