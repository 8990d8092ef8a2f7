(** Transpose, Turn90 and Turn270: src/core/simplefilters.cpp:1640-1740 and the kernels
    in src/core/kernel/transpose.h, transpose.cpp and x86/transpose_sse2.cpp. *)
From Coq Require Import String.
From Coq Require Import ZArith List Lia Bool.
From Verif Require Import Common FormatSpec Format FrameSpec Frame ImageSpec PlaneMem Spatial.
Import ListNotations.
Open Scope Z_scope.

(** ** Addresses *)

(** transpose.h:43, ADD_OFFSET: the signed byte distance divided by the unsigned sizeof,
    hence as an unsigned 64 bit number; adding the quotient to a pointer to elements of
    [sz] bytes multiplies it again, modulo 2^64. *)
Definition addOff (sz o x : Z) : Z := o + wrap64 (sz * (wrapu64 x / sz)).

(** for (i = lo; i < hi; i += step), for bounds a multiple of [step] apart: the loops of
    transpose.h are of this kind (see [transposePlane]), the number of turns is fixed
    beforehand. *)
Definition forStep {S} (lo hi step : Z) (f : Z -> S -> outcome S) (s : S) : outcome S :=
  forZ ((hi - lo + step - 1) / step) (fun k => f (lo + k * step)) s.

(** ** Memory accesses *)

(** Bytes written one after the other. *)
Definition storeL (m : pbuf) (o : Z) (l : list Z) : outcome pbuf :=
  if inside m o (zlength l) then
    Ok (mkB (b_size m) (fun a => if (o <=? a) && (a <? o + zlength l) then nth (Z.to_nat (a - o)) l 0 else b_data m a))
  else UB.

Definition loadL (b : pbuf) (o n : Z) : outcome (list Z) :=
  if inside b o n then Ok (map (fun k => b_data b (o + k)) (zseq n)) else UB.

(** One sample of [sz] bytes assigned to another; both at multiples of their size. *)
Definition copyPx (sz : Z) (m : pbuf) (d : Z) (src : pbuf) (s : Z) : outcome pbuf :=
  if (d mod sz =? 0) && (s mod sz =? 0) then obind (loadL src s sz) (storeL m d) else UB.

(** _mm_load_si128, _mm_load_ps, _mm_store_si128, _mm_store_ps: plane buffers start at
    multiples of at least 32, so the offset decides about the alignment.  [storel],
    [storeh]: _mm_storel_epi64 and _mm_storeh_pd, without alignment. *)
Definition load16 (b : pbuf) (o : Z) : outcome (list Z) := if o mod 16 =? 0 then loadL b o 16 else UB.
Definition store16 (m : pbuf) (o : Z) (v : list Z) : outcome pbuf := if o mod 16 =? 0 then storeL m o v else UB.
Definition storel (m : pbuf) (o : Z) (v : list Z) : outcome pbuf := storeL m o (firstn 8 v).
Definition storeh (m : pbuf) (o : Z) (v : list Z) : outcome pbuf := storeL m o (skipn 8 v).

(** ** Byte permutations of the vector instructions, on lists of 16 bytes *)

Section Perm.
Context {A : Type}.
Fixpoint ilv (n k : nat) (a b : list A) : list A :=
  match n with
  | O => []
  | S n' => firstn k a ++ firstn k b ++ ilv n' k (skipn k a) (skipn k b)
  end.
(** _mm_unpacklo_epi8/16/32/64, _mm_unpacklo_ps with elements of [k] bytes *)
Definition unpacklo (k : nat) (a b : list A) : list A := ilv (8 / k) k a b.
Definition unpackhi (k : nat) (a b : list A) : list A := ilv (8 / k) k (skipn 8 a) (skipn 8 b).
(** _mm_shuffle_epi32 with _MM_SHUFFLE(i3, i2, i1, i0) given as [i0; i1; i2; i3] *)
Definition shuffle32 (idx : list nat) (v : list A) : list A := concat (map (fun i => firstn 4 (skipn (4 * i) v)) idx).
Definition movelh (a b : list A) : list A := firstn 8 a ++ firstn 8 b.
Definition movehl (a b : list A) : list A := skipn 8 b ++ skipn 8 a.

(** transpose_sse2.cpp:49-86, result registers row0 .. row7 *)
Definition permByte (r0 r1 r2 r3 r4 r5 r6 r7 : list A) : list (list A) :=
  let row0 := shuffle32 [0; 2; 1; 3]%nat r0 in
  let row1 := shuffle32 [0; 2; 1; 3]%nat r1 in
  let row2 := shuffle32 [0; 2; 1; 3]%nat r2 in
  let row3 := shuffle32 [0; 2; 1; 3]%nat r3 in
  let row4 := shuffle32 [0; 2; 1; 3]%nat r4 in
  let row5 := shuffle32 [0; 2; 1; 3]%nat r5 in
  let row6 := shuffle32 [0; 2; 1; 3]%nat r6 in
  let row7 := shuffle32 [0; 2; 1; 3]%nat r7 in
  let t0 := unpacklo 1 row0 row1 in
  let t1 := unpacklo 1 row2 row3 in
  let t2 := unpacklo 1 row4 row5 in
  let t3 := unpacklo 1 row6 row7 in
  let t4 := unpackhi 1 row0 row1 in
  let t5 := unpackhi 1 row2 row3 in
  let t6 := unpackhi 1 row4 row5 in
  let t7 := unpackhi 1 row6 row7 in
  let tt0 := unpacklo 2 t0 t1 in
  let tt1 := unpackhi 2 t0 t1 in
  let tt2 := unpacklo 2 t2 t3 in
  let tt3 := unpackhi 2 t2 t3 in
  let tt4 := unpacklo 2 t4 t5 in
  let tt5 := unpackhi 2 t4 t5 in
  let tt6 := unpacklo 2 t6 t7 in
  let tt7 := unpackhi 2 t6 t7 in
  [unpacklo 4 tt0 tt2; unpackhi 4 tt0 tt2; unpacklo 4 tt1 tt3; unpackhi 4 tt1 tt3;
   unpacklo 4 tt4 tt6; unpackhi 4 tt4 tt6; unpacklo 4 tt5 tt7; unpackhi 4 tt5 tt7].

(** transpose_sse2.cpp:118-148 *)
Definition permWord (row0 row1 row2 row3 row4 row5 row6 row7 : list A) : list (list A) :=
  let t0 := unpacklo 2 row0 row1 in
  let t1 := unpacklo 2 row2 row3 in
  let t2 := unpacklo 2 row4 row5 in
  let t3 := unpacklo 2 row6 row7 in
  let t4 := unpackhi 2 row0 row1 in
  let t5 := unpackhi 2 row2 row3 in
  let t6 := unpackhi 2 row4 row5 in
  let t7 := unpackhi 2 row6 row7 in
  let tt0 := unpacklo 4 t0 t1 in
  let tt1 := unpackhi 4 t0 t1 in
  let tt2 := unpacklo 4 t2 t3 in
  let tt3 := unpackhi 4 t2 t3 in
  let tt4 := unpacklo 4 t4 t5 in
  let tt5 := unpackhi 4 t4 t5 in
  let tt6 := unpacklo 4 t6 t7 in
  let tt7 := unpackhi 4 t6 t7 in
  [unpacklo 8 tt0 tt2; unpackhi 8 tt0 tt2; unpacklo 8 tt1 tt3; unpackhi 8 tt1 tt3;
   unpacklo 8 tt4 tt6; unpackhi 8 tt4 tt6; unpacklo 8 tt5 tt7; unpackhi 8 tt5 tt7].

(** transpose_sse2.cpp:167; _MM_TRANSPOSE4_PS of xmmintrin.h *)
Definition permDword (row0 row1 row2 row3 : list A) : list (list A) :=
  let t0 := unpacklo 4 row0 row1 in
  let t1 := unpacklo 4 row2 row3 in
  let t2 := unpackhi 4 row0 row1 in
  let t3 := unpackhi 4 row2 row3 in
  [movelh t0 t1; movehl t1 t0; movelh t2 t3; movehl t3 t2].
End Perm.

(** ** Blocks: destination, offset, stride, source, offset, stride *)

Definition blockFn : Type := pbuf -> Z -> Z -> pbuf -> Z -> Z -> outcome pbuf.

(** transpose.cpp:31-44 *)
Definition blockC (sz : Z) : blockFn := fun m d _ src s _ => copyPx sz m d src s.

(** Rows 0 .. n-1 loaded in this order. *)
Fixpoint loadRows (sz : Z) (src : pbuf) (s ss : Z) (ks : list Z) : outcome (list (list Z)) :=
  match ks with
  | [] => Ok []
  | k :: r => obind (load16 src (addOff sz s (k * ss))) (fun v => obind (loadRows sz src s ss r) (fun l => Ok (v :: l)))
  end.

(** Stores in this order; the operation, the row number and the register. *)
Fixpoint storeRows (sz : Z) (m : pbuf) (d ds : Z) (l : list ((pbuf -> Z -> list Z -> outcome pbuf) * Z * list Z)) : outcome pbuf :=
  match l with
  | [] => Ok m
  | (st, k, v) :: r => obind (st m (addOff sz d (k * ds)) v) (fun m' => storeRows sz m' d ds r)
  end.

(** transpose_sse2.cpp:34-105 *)
Definition blockByte : blockFn := fun m d ds src s ss =>
  obind (loadRows 1 src s ss [0; 1; 2; 3; 4; 5; 6; 7]) (fun rows =>
    match rows with
    | [r0; r1; r2; r3; r4; r5; r6; r7] =>
        match permByte r0 r1 r2 r3 r4 r5 r6 r7 with
        | [row0; row1; row2; row3; row4; row5; row6; row7] =>
            storeRows 1 m d ds
              [(storel, 0, row0); (storel, 2, row1); (storel, 8, row2); (storel, 10, row3);
               (storel, 4, row4); (storel, 6, row5); (storel, 12, row6); (storel, 14, row7);
               (storeh, 1, row0); (storeh, 3, row1); (storeh, 9, row2); (storeh, 11, row3);
               (storeh, 5, row4); (storeh, 7, row5); (storeh, 13, row6); (storeh, 15, row7)]
        | _ => UB
        end
    | _ => UB
    end).

(** transpose_sse2.cpp:107-158 *)
Definition blockWord : blockFn := fun m d ds src s ss =>
  obind (loadRows 2 src s ss [0; 1; 2; 3; 4; 5; 6; 7]) (fun rows =>
    match rows with
    | [r0; r1; r2; r3; r4; r5; r6; r7] =>
        match permWord r0 r1 r2 r3 r4 r5 r6 r7 with
        | [row0; row1; row2; row3; row4; row5; row6; row7] =>
            storeRows 2 m d ds
              [(store16, 0, row0); (store16, 1, row1); (store16, 2, row2); (store16, 3, row3);
               (store16, 4, row4); (store16, 5, row5); (store16, 6, row6); (store16, 7, row7)]
        | _ => UB
        end
    | _ => UB
    end).

(** transpose_sse2.cpp:160-173 *)
Definition blockDword : blockFn := fun m d ds src s ss =>
  obind (loadRows 4 src s ss [0; 1; 2; 3]) (fun rows =>
    match rows with
    | [r0; r1; r2; r3] =>
        match permDword r0 r1 r2 r3 with
        | [row0; row1; row2; row3] =>
            storeRows 4 m d ds [(store16, 0, row0); (store16, 1, row1); (store16, 2, row2); (store16, 3, row3)]
        | _ => UB
        end
    | _ => UB
    end).

(** ** Planes *)

(** transpose.h:54-95 (bytes), 97-138 (words), 140-181 (double words): the same text with
    a different element size [sz] and block size [bw] by [bh].  Unsigned arithmetic does
    not wrap: width and height come from ints. *)
Definition transposePlane (sz bw bh : Z) (block : blockFn) (src : pbuf) (s ss : Z) (dst : pbuf) (d ds w h : Z) : outcome pbuf :=
  let cl := 64 / sz in
  let wf := w - w mod bw in
  let hf := h - h mod cl in
  let hf2 := h - h mod bh in
  let px j ii m := copyPx sz m (addOff sz d (j * ds) + ii * sz) src (addOff sz s (ii * ss) + j * sz) in
  let blk j ii m := block m (addOff sz d (j * ds) + ii * sz) ds src (addOff sz s (ii * ss) + j * sz) ss in
  obind (forStep 0 hf cl (fun i m =>
           obind (forStep 0 wf bw (fun j m => forStep i (i + cl) bh (fun ii m => blk j ii m) m) m)
                 (fun m => forStep wf w 1 (fun j m => forStep i (i + cl) 1 (fun ii m => px j ii m) m) m)) dst) (fun m =>
  obind (forStep hf hf2 bh (fun i m =>
           obind (forStep 0 wf bw (fun j m => blk j i m) m)
                 (fun m => forStep wf w 1 (fun j m => forStep i (i + bh) 1 (fun ii m => px j ii m) m) m)) m) (fun m =>
  forStep hf2 h 1 (fun i m => forStep 0 w 1 (fun j m => px j i m) m) m)).

(** ** The filter *)

Inductive tmode := Transpose | Turn90 | Turn270.

(** Choice of the kernel, simplefilters.cpp:1674-1692.  [None]: no function, nothing is
    done. *)
Definition transposeFunc (sse2 : bool) (bytes : Z) : option (pbuf -> Z -> Z -> pbuf -> Z -> Z -> Z -> Z -> outcome pbuf) :=
  if bytes =? 1 then Some (if sse2 then transposePlane 1 16 8 blockByte else transposePlane 1 1 1 (blockC 1))
  else if bytes =? 2 then Some (if sse2 then transposePlane 2 8 8 blockWord else transposePlane 2 1 1 (blockC 2))
  else if bytes =? 4 then Some (if sse2 then transposePlane 4 4 4 blockDword else transposePlane 4 1 1 (blockC 4))
  else None.

(** simplefilters.cpp:1694-1712, one plane; [w], [h] are the dimensions of the source plane. *)
Definition transposeOne (sse2 : bool) (mode : tmode) (bytes w h : Z) (p q : plane) : outcome pbuf :=
  let s := match mode with Turn90 => p_stride p * (h - 1) | _ => 0 end in
  let ss := match mode with Turn90 => - p_stride p | _ => p_stride p end in
  let d := match mode with Turn270 => p_stride q * (w - 1) | _ => 0 end in
  let ds := match mode with Turn270 => - p_stride q | _ => p_stride q end in
  match transposeFunc sse2 bytes with
  | Some f => f (p_buf p) s ss (p_buf q) d ds w h
  | None => Ok (p_buf q)
  end.

Definition transposeGetFrame (al : Z) (g : Z -> Z -> Z) (sse2 : bool) (mode : tmode) (vi : vinfo) (src : vframe) : outcome vframe :=
  obind (newFrame al g (vi_fmt vi) (vi_w vi) (vi_h vi) (vf_props src)) (fun dst =>
    onPlanes src dst (f_np (vi_fmt vi)) (fun i p q =>
      transposeOne sse2 mode (f_bytes (vi_fmt vi)) (getWidth (vf_fmt src) (vf_w src) i) (getHeight (vf_fmt src) (vf_h src) i) p q)).

(** simplefilters.cpp:1720-1740 *)
Definition transposeCreate (vi : vinfo) : outcome vinfo :=
  let vi' := mkVI (vi_fmt vi) (vi_h vi) (vi_w vi) (vi_n vi) in
  if negb (constantFormat vi') then Err
  else obind (queryFmt (f_cf (vi_fmt vi)) (f_st (vi_fmt vi)) (f_bits (vi_fmt vi)) (f_ssh (vi_fmt vi)) (f_ssw (vi_fmt vi)))
             (fun f => Ok (mkVI f (vi_h vi) (vi_w vi) (vi_n vi))).
