(** Model of src/core/kernel/x86/convolution_impl.h: the vector kernels of the horizontal,
    vertical and separable convolutions for integer samples, on the primitives of ISA_SSE2
    (convolution_sse2.cpp), ISA_AVX2 (convolution_avx2.cpp) and ISA_AVX512
    (convolution_avx512.cpp).

    Registers are lists of lanes as in Simd.v; [sse2], [avx2] and [avx512] are the backends of
    GenericSimd.v.  The kernels of float formats are not modelled.  Byte 0 of every plane and
    of every buffer is aligned; an aligned access elsewhere at an offset that is not a multiple
    of its size is undefined.  What malloc and the stack hold at first are parameters. *)
From Coq Require Import ZArith List Lia Bool.
From Coq Require Import SpecFloat.
From Verif Require Import Common PlaneMem Pixel Lut Soft Generic Simd GenericSimd SquareSimd.
Import ListNotations.
Open Scope Z_scope.

Section Kernels.
Variable B : backend.
Let nb := be_nb B.

(** IPELS, which is TMP_PAD too, HBLK and PADDED: convolution_sse2.cpp:34-40,
    convolution_avx2.cpp:37-43, convolution_avx512.cpp:41-47. *)
Definition pels : Z := 8 * Z.of_nat nb.
Definition hblk : Z := if pels =? 32 then 32 else 16.
Definition padElems : Z := if pels =? 32 then 96 else 64.

(** ** Passes over some of the taps *)

(** weight(k), convolution_impl.h:94: taps K .. K + N - 1 of the matrix. *)
Definition weight (g : gparams) (N K c : Z) : Z := if c <? N then coef g (K + c) else 0.

(** The taps of one block, convolution_impl.h:115-149, 188-222, 308-332, 378-402: in pairs for
    N >= 1, 3, 5, 7, 9, 11, the second of the last pair possibly of weight 0; a thirteenth alone.
    [load c] reads the samples of tap [c]. *)
Definition tapsPass (g : gparams) (N K : Z) (load : Z -> outcome vec) (a : acc) : outcome acc :=
  obind (forZ (Z.min 6 ((N + 1) / 2)) (fun t a =>
           obind (load (2 * t)) (fun x0 =>
           obind (load (2 * t + 1)) (fun x1 =>
           Ok (addTaps nb (pairTaps (weight g N K (2 * t)) (weight g N K (2 * t + 1))) x0 x1 a)))) a) (fun a =>
  if 13 <=? N then obind (load 12) (fun x0 => Ok (addTaps nb (wrapu16 (weight g N K 12)) x0 x0 a)) else Ok a).

(** load_acc and store_acc of the two accumulators at tmp + j and tmp + j + LANES. *)
Definition loadAcc (t : pbuf) (j : Z) : outcome acc :=
  obind (loadLanes 4 t (j * 4) (4 * nb)) (fun lo =>
  obind (loadLanes 4 t ((j + 4 * Z.of_nat nb) * 4) (4 * nb)) (fun hi => Ok (lo, hi))).
Definition storeAcc (t : pbuf) (j : Z) (a : acc) : outcome pbuf :=
  obind (storeLanes 4 t (j * 4) (fst a)) (fun t => storeLanes 4 t ((j + 4 * Z.of_nat nb) * 4) (snd a)).

(** One pass <N, K, First, Last>, convolution_impl.h:110-158: the blocks of IPELS columns that
    cover [n]; the state is the destination and tmp. *)
Definition state : Type := (pbuf * pbuf)%type.
Definition blocksOf (n : Z) : Z := (n + pels - 1) / pels.
Definition pass (first last : bool) (n : Z) (taps : Z -> acc -> outcome acc) (put : Z -> acc -> pbuf -> outcome pbuf) (st : state) : outcome state :=
  forZ (blocksOf n) (fun b st =>
    let j := b * pels in
    obind (if first then Ok (zeroAcc nb) else loadAcc (snd st) j) (fun a =>
    obind (taps j a) (fun a =>
    if last then obind (put j a (fst st)) (fun m => Ok (m, snd st))
    else obind (storeAcc (snd st) j a) (fun t => Ok (fst st, t))))) st.

Fixpoint passes (first : bool) (l : list (Z * Z)) (n : Z) (taps : Z * Z -> Z -> acc -> outcome acc) (put : Z -> acc -> pbuf -> outcome pbuf) (st : state) : outcome state :=
  match l with
  | [] => Ok st
  | [q] => pass first true n (taps q) put st
  | q :: r => obind (pass first false n (taps q) put st) (passes false r n taps put)
  end.

(** conv_scanline_h_byte and the other dispatchers, convolution_impl.h:466-557: (N, K) of every
    pass over a matrix of [N] taps. *)
Definition splitH (N : Z) : list (Z * Z) := if 13 <? N then [(12, 0); (N - 12, 12)] else [(N, 0)].
Definition splitV (N : Z) : list (Z * Z) :=
  if 19 <? N then [(10, 0); (10, 10); (N - 20, 20)] else if 9 <? N then [(10, 0); (N - 10, 10)] else [(N, 0)].

(** ** Stores *)

(** scale_bias_sat: fused but for SSE2, convolution_sse2.cpp:84-87. *)
Definition scaledB (g : gparams) (x : fl) : fl :=
  if be_biased B then let v := Soft.add32 (mul32 x (g_div g)) (g_bias g) in if g_sat g then v else SFabs v
  else SquareSimd.scaled g x.
Definition finishB (g : gparams) (x : vec) : vec := map (fun v => cvtI (scaledB g (cvtF v))) x.

(** store_u8: convolution_sse2.cpp:89-97, convolution_avx2.cpp:85-94, convolution_avx512.cpp:91-102. *)
Definition outByteB (g : gparams) (a : acc) : vec :=
  let x := packs32 nb (finishB g (fst a)) (finishB g (snd a)) in
  let y := packus16 nb x x in
  firstn (8 * nb) (match nb with 1%nat => y | _ => permute64 (gather nb) y end).

(** store_u16: convolution_sse2.cpp:98-109, convolution_avx2.cpp:95-103, convolution_avx512.cpp:103-111. *)
Definition outWordB (g : gparams) (a : acc) : vec :=
  wunsign B (wmin B (packWord B (wsign32 B (finishB g (fst a))) (wsign32 B (finishB g (snd a)))) (wmaxval B (g_maxval g))).

(** Every store but the 8 bytes of SSE2 is aligned. *)
Definition storeAligned (k o : Z) : bool := (be_biased B && (k =? 1)) || (o mod (pels * k) =? 0).

(** The end of a last pass: convolution_impl.h:151-152, 224-230. *)
Definition convPut (k : Z) (g : gparams) (wb base j : Z) (a : acc) (m : pbuf) : outcome pbuf :=
  let w := set32 B wb in
  let v := if k =? 1 then outByteB g a else outWordB g (zip Simd.sub32 (fst a) w, zip Simd.sub32 (snd a) w) in
  let o := base + j * k in
  if storeAligned k o then storeLanes k m o v else UB.

(** i32bias, convolution_impl.h:486-489 and the like: the sum over the whole matrix. *)
Definition wordBias (k : Z) (g : gparams) : outcome Z :=
  if k =? 1 then Ok 0 else forZ (g_size g) (fun i wb => chk32 (wb + -32768 * coef g i)) 0.

(** ** Scanlines *)

(** conv_scanline_h_*: [n] columns from column [x0] of row [row] of [p], unaligned loads. *)
Definition scanH (k : Z) (g : gparams) (p : plane) (row x0 base n : Z) (st : state) : outcome state :=
  let s := g_size g / 2 in
  obind (wordBias k g) (fun wb =>
  passes true (splitH (g_size g)) n
    (fun q j => tapsPass g (fst q) (snd q) (fun c => loadPels nb k p row (x0 + j - s + (snd q + c)))) (convPut k g wb base) st).

(** conv_scanline_v_*: the rows [rows 0], [rows 1], ...; srcp of a tap past N is that of the last
    one, convolution_impl.h:281-290.  load_word_aligned_biased is aligned. *)
Definition loadRow (k : Z) (p : plane) (row j : Z) : outcome vec :=
  if (k =? 1) || ((row * p_stride p + j * k) mod (pels * k) =? 0) then loadPels nb k p row j else UB.
Definition scanV (k : Z) (g : gparams) (p : plane) (rows : Z -> Z) (base n : Z) (st : state) : outcome state :=
  obind (wordBias k g) (fun wb =>
  passes true (splitV (g_size g)) n
    (fun q j => tapsPass g (fst q) (snd q) (fun c => loadRow k p (rows (snd q + Z.min c (fst q - 1))) j)) (convPut k g wb base) st).

(** ** Planes *)

(** std::copy_n, flip_left and flip_right (54-69) on elements of [k] bytes. *)
Definition copyN (k : Z) (s : pbuf) (so n : Z) (d : pbuf) (o : Z) : outcome pbuf :=
  forZ n (fun i d => obind (loadS k s (so + i * k)) (fun v => storeS k d (o + i * k) v)) d.
Definition flipLeft (k : Z) (o n : Z) (d : pbuf) : outcome pbuf :=
  forZ n (fun i d => obind (loadS k d ((o + i) * k)) (fun v => storeS k d ((o - 1 - i) * k) v)) d.
Definition flipRight (k : Z) (o n : Z) (d : pbuf) : outcome pbuf :=
  forZ n (fun i d => obind (loadS k d ((o - 1 - i) * k)) (fun v => storeS k d ((o + i) * k) v)) d.

Definition line (b : pbuf) : plane := mkPl 0 b.

(** What memory holds before it is written. *)
Record scratch := mkSc { sc_pad : Z -> Z; sc_out : Z -> Z; sc_tmp : Z -> Z; sc_row : Z -> Z }.

(** vec_end, convolution_impl.h:628: the mask of a power of two. *)
Definition vecEnd (w : Z) : Z := Z.max ((Z.max w 13 - 13) / hblk * hblk) hblk.

(** tmp: width + TMP_PAD int32_t when there is more than one pass, else nullptr. *)
Definition tmpOf (many : bool) (w : Z) (f : Z -> Z) : pbuf := mkB (if many then (w + pels) * 4 else 0) f.

(** One row of conv_plane_h, convolution_impl.h:637-673; [pad] is [padded], [t] is tmp. *)
Definition rowH (k : Z) (g : gparams) (sc : scratch) (src : plane) (w : Z) (dstr y : Z) (st : state * pbuf) : outcome (state * pbuf) :=
  let center := hblk + 12 in
  let so := y * p_stride src in
  let base := y * dstr in
  let '((m, t), pad) := st in
  (* columns 0 .. HBLK - 1 *)
  obind (copyN k (p_buf src) so (Z.min w center) pad (16 * k)) (fun pad =>
  obind (flipLeft k 16 12 pad) (fun pad =>
  obind (if w <? center then flipRight k (16 + w) (Z.min (center - w) 12) pad else Ok pad) (fun pad =>
  obind (if hblk <=? w then scanH k g (line pad) 0 16 base hblk (m, t)
         else obind (scanH k g (line pad) 0 16 0 hblk (mkB (padElems * k) (sc_out sc), t)) (fun ot =>
              obind (copyN k (fst ot) 0 w m base) (fun m => Ok (m, snd ot)))) (fun mt =>
  (* HBLK .. vec_end - 1 *)
  obind (if hblk <? vecEnd w then scanH k g src y hblk (base + hblk * k) (vecEnd w - hblk) mt else Ok mt) (fun mt =>
  (* vec_end .. w - 1 *)
  if hblk <? w then
    obind (copyN k (p_buf src) (so + (vecEnd w - 12) * k) (w - vecEnd w + 12) pad (4 * k)) (fun pad =>
    obind (flipRight k (16 + (w - vecEnd w)) 12 pad) (fun pad =>
    obind (scanH k g (line pad) 0 16 (base + vecEnd w * k) (w - vecEnd w) mt) (fun mt => Ok (mt, pad))))
  else Ok (mt, pad)))))).

Definition convHV (k : Z) (g : gparams) (sc : scratch) (src : plane) (w h : Z) (dst : plane) : outcome pbuf :=
  obind (forZ h (fun y st => rowH k g sc src w (p_stride dst) y st)
           ((p_buf dst, tmpOf (13 <? g_size g) w (sc_tmp sc)), mkB (padElems * k) (sc_pad sc))) (fun st => Ok (fst (fst st))).

(** gather_v_rows, convolution_impl.h:72-86: the formulas of the scalar kernel. *)
Definition gatherRow (g : gparams) (h y t : Z) : Z := tapIndex (g_size g / 2) h y y t.

(** conv_plane_v, convolution_impl.h:677-694. *)
Definition convVV (k : Z) (g : gparams) (sc : scratch) (src : plane) (w h : Z) (dst : plane) : outcome pbuf :=
  obind (forZ h (fun y st => scanV k g src (gatherRow g h y) (y * p_stride dst) w st)
           (p_buf dst, tmpOf (9 <? g_size g) w (sc_tmp sc))) (fun st => Ok (fst st)).

(** conv_plane_x, convolution_impl.h:697-723; the last component is tmp1. *)
Definition rowX (k : Z) (g : gparams) (src : plane) (w h : Z) (dstr y : Z) (st : state * pbuf) : outcome (state * pbuf) :=
  let '((m, t), r) := st in
  obind (scanV k g src (gatherRow g h y) (32 * k) w (r, t)) (fun rt =>
  obind (flipLeft k 32 12 (fst rt)) (fun r =>
  obind (flipRight k (32 + w) 12 r) (fun r =>
  obind (scanH k g (line r) 0 32 (y * dstr) w (m, snd rt)) (fun mt => Ok (mt, r))))).
Definition convXV (k : Z) (g : gparams) (sc : scratch) (src : plane) (w h : Z) (dst : plane) : outcome pbuf :=
  obind (forZ h (fun y st => rowX k g src w h (p_stride dst) y st)
           ((p_buf dst, tmpOf (9 <? g_size g) w (sc_tmp sc)), mkB ((w + 64) * k) (sc_row sc))) (fun st => Ok (fst (fst st))).

(** The kernels that genericSelectSSE2, genericSelectAVX2 and genericSelectAVX512 choose for these
    convolutions, genericfilters.cpp:256-530. *)
Definition convKernel (t : convType) (k : Z) (g : gparams) (sc : scratch) (src : plane) (w h : Z) (dst : plane) : outcome pbuf :=
  match t with
  | CHorizontal => convHV k g sc src w h dst
  | CVertical => convVV k g sc src w h dst
  | CSeparable => convXV k g sc src w h dst
  | CSquare => Err
  end.
End Kernels.
