(** AverageFrames on integer clips.  src/core/averageframesfilter.cpp *)
From Coq Require Import String.
From Coq Require Import ZArith List Lia Bool SpecFloat.
From Verif Require Import Common FormatSpec Format Frame PlaneMem Spatial Pixel Soft Generic.
Import ListNotations.
Open Scope Z_scope.

(** ** average_int_n, averageframesfilter.cpp:57-78.  [N] is the number of weights; the pointers of all sources advance by
    the stride of the destination. *)
Fixpoint accum (k bias : Z) (ws : list Z) (srcs : list pbuf) (o acc : Z) : outcome Z :=
  match ws, srcs with
  | w :: ws', s :: ss =>
      obind (loadS k s o) (fun v =>
      obind (chk32 (v - bias)) (fun d =>
      obind (chk32 (d * w)) (fun t =>
      obind (chk32 (acc + t)) (fun a => accum k bias ws' ss o a))))
  | [], _ => Ok acc
  | _ :: _, [] => UB
  end.

(** static_cast<int32_t>(lrintf(static_cast<float>(accum) * rscale)), rscale = 1.0f / static_cast<float>(scale) *)
Definition rounded (acc scale : Z) : outcome Z :=
  obind (lrint (mul32 (of32 acc 0) (div32 (of32 1 0) (of32 scale 0)))) (fun r => Ok (wrap32 r)).

Definition averagePixel (k scale maxval bias stride : Z) (ws : list Z) (srcs : list pbuf) (x y : Z) : outcome Z :=
  obind (accum k bias ws srcs (y * stride + x * k) 0) (fun a =>
  obind (rounded a scale) (fun q =>
  obind (chk32 (q + bias)) (fun r => Ok (Z.min (Z.max r 0) maxval)))).

(** average_int, averageframesfilter.cpp:168-176 (bias, maxval) and the dispatch on the number of sources. *)
Definition averagePlane (k depth scale : Z) (chroma : bool) (ws : list Z) (srcs : list pbuf) (w h : Z) (dst : plane) : outcome pbuf :=
  let bias := if chroma then 2 ^ (depth - 1) else 0 in
  drawPlane k w h (averagePixel k scale (2 ^ depth - 1) bias (p_stride dst) ws srcs) dst.

(** ** The scene changes, averageframesfilter.cpp:271-308 *)
(** mapGetInt of a frame property, 0 when absent. *)
Definition flag (key : string) (fr : vframe) : bool := match vf_props fr key with Some v => negb (v =? 0) | None => false end.
Definition flagAt (key : string) (frames : list vframe) (i : Z) : bool :=
  match nthz frames i with Some fr => flag key fr | None => false end.

(** for (i = mid; i > 0; i--) if (first i) { fromFrame = i; break; } *)
Fixpoint scanDown (first : Z -> bool) (n : nat) : Z :=
  match n with
  | O => 0
  | S m => if first (Z.of_nat n) then Z.of_nat n else scanDown first m
  end.
(** for (i = start; i < start + n; i++) if (last i) { toFrame = i; break; } *)
Fixpoint scanUp (last : Z -> bool) (dflt start : Z) (n : nat) : Z :=
  match n with
  | O => dflt
  | S m => if last start then start else scanUp last dflt (start + 1) m
  end.
(** acc += weights[i]; weights[i] = 0; for the selected [i]. *)
Fixpoint takeOut (sel : Z -> bool) (i acc : Z) (ws : list Z) : outcome (Z * list Z) :=
  match ws with
  | [] => Ok (acc, [])
  | w :: r =>
      if sel i then obind (chk32 (acc + w)) (fun a => obind (takeOut sel (i + 1) a r) (fun p => Ok (fst p, 0 :: snd p)))
      else obind (takeOut sel (i + 1) acc r) (fun p => Ok (fst p, w :: snd p))
  end.
Fixpoint addAt (n : nat) (v : Z) (ws : list Z) : outcome (list Z) :=
  match ws, n with
  | [], _ => UB
  | w :: r, O => obind (chk32 (w + v)) (fun s => Ok (s :: r))
  | w :: r, S m => obind (addAt m v r) (fun q => Ok (w :: q))
  end.
Definition redistribute (first last : Z -> bool) (ws : list Z) : outcome (list Z) :=
  let size := zlength ws in let mid := size / 2 in
  let from := scanDown first (Z.to_nat mid) in
  let to := scanUp last size mid (Z.to_nat (size - 1 - mid)) in
  obind (takeOut (fun i => to <? i) 0 0 ws) (fun p =>
  obind (takeOut (fun i => i <? from) 0 (fst p) (snd p)) (fun q =>
  addAt (Z.to_nat mid) (fst q) (snd q))).

(** ** averageFramesGetFrame, averageframesfilter.cpp:226-357 *)
Record avgData := mkAvg { av_weights : list Z; av_scale : Z; av_scenes : bool; av_single : bool; av_process : Z -> bool; av_vi : vinfo }.

(** Frame numbers requested from the only clip, and fetched from it. *)
Definition avgLast (n radius : Z) : Z := if INT_MAX - 1 - radius <? n then INT_MAX - 1 else n + radius.
Definition avgRequests (n radius : Z) : list Z :=
  let a := Z.max 0 (n - radius) in map (fun i => a + i) (zseq (avgLast n radius - a + 1)).
Fixpoint avgFetch (count : nat) (fn : Z) : list Z :=
  match count with
  | O => []
  | S m => Z.max 0 fn :: avgFetch m (if fn <? INT_MAX - 1 then fn + 1 else fn)
  end.
Definition avgFetches (n size : Z) : list Z := avgFetch (Z.to_nat size) (n - size / 2).

(** [frames] are the frames fetched, as many as there are weights. *)
Fixpoint planesOf (frames : list vframe) (i : Z) : outcome (list pbuf) :=
  match frames with
  | [] => Ok []
  | fr :: r => match nthz (vf_planes fr) i with
               | Some p => obind (planesOf r i) (fun l => Ok (p_buf p :: l))
               | None => UB
               end
  end.
Definition averageGetFrame (al : Z) (g : Z -> Z -> Z) (d : avgData) (frames : list vframe) : outcome vframe :=
  match nthz frames (if av_single d then zlength frames / 2 else 0) with
  | None => UB
  | Some center =>
      let f := vf_fmt center in
      obind (if av_scenes d then redistribute (flagAt "_SceneChangePrev" frames) (flagAt "_SceneChangeNext" frames) (av_weights d)
             else Ok (av_weights d)) (fun ws =>
      filterFrame al g f (vf_w center) (vf_h center) (av_process d) center (fun i q =>
        obind (planesOf frames i) (fun srcs =>
        averagePlane (f_bytes f) (f_bits f) (av_scale d) (((i =? 1) || (i =? 2)) && (f_cf f =? cfYUV)) ws srcs
          (getWidth f (vf_w center) i) (getHeight f (vf_h center) i) q)))
  end.

(** ** averageFramesCreate, averageframesfilter.cpp:359-460, for integer formats (floating point clips are not modelled). *)
(** std::round of a finite value, as an integer. *)
Definition roundZ (x : fl) : Z := match x with S754_finite s m e => signed s (mag_away m e) | _ => 0 end.
Definition avgWeight (x : fl) : outcome Z :=
  if negb (isFin x) then Err
  else let r := roundZ x in if (r <? -1023) || (1023 <? r) then Err else Ok r.
Fixpoint avgWeights (l : list fl) : outcome (list Z) :=
  match l with
  | [] => Ok []
  | x :: r => obind (avgWeight x) (fun w => obind (avgWeights r) (fun ws => Ok (w :: ws)))
  end.
(** floatToIntS, filtershared.h:51-58: static_cast<float>(INT_MAX) is 2^31 and the conversion of long to int wraps. *)
Definition floatToIntS (x : fl) : outcome Z :=
  if SFltb (of32 INT_MAX 0) x then Ok INT_MAX
  else if SFltb x (of32 INT_MIN 0) then Ok INT_MIN
  else obind (llround x) (fun v => Ok (wrap32 v)).
Definition avgScale (ws : list Z) (scale : option fl) : outcome Z :=
  match scale with
  | None => let s := fold_left Z.add ws 0 in Ok (if s <? 1 then 1 else s)
  | Some x =>
      let f := to32 x in
      if negb (isFin f) then Err
      else obind (floatToIntS f) (fun s => if s <? 1 then Err else Ok s)
  end.
Definition sameInfo (a b : vinfo) : bool :=
  let f := vi_fmt a in let g := vi_fmt b in
  (vi_h a =? vi_h b) && (vi_w a =? vi_w b) && (f_cf f =? f_cf g) && (f_st f =? f_st g) && (f_bits f =? f_bits g)
  && (f_ssw f =? f_ssw g) && (f_ssh f =? f_ssh g).
Definition avgCreate (clips : list vinfo) (weights : list fl) (scale : option fl) (scenes : Z) (planes : list Z) : outcome avgData :=
  let single := zlength clips =? 1 in
  if (if single then negb (Z.rem (zlength weights) 2 =? 1) else negb (zlength weights =? zlength clips)) then Err
  else if (31 <? zlength weights) || (31 <? zlength clips) then Err
  else if negb single && negb (scenes =? 0) then Err
  else match clips with
  | [] => UB
  | vi :: rest =>
      let f := vi_fmt vi in
      if f_cf f =? cfUndefined then Err
      else if negb (f_st f =? stInteger) then UB     (* not modelled *)
      else if 16 <? f_bits f then Err
      else if (vi_w vi =? 0) || (vi_h vi =? 0) then Err
      else if negb (forallb (sameInfo vi) rest) then Err
      else obind (avgWeights weights) (fun ws =>
           obind (avgScale ws scale) (fun s =>
           match getPlanesArg planes with
           | None => Err
           | Some process =>
               Ok (mkAvg ws s (negb (scenes =? 0)) single process
                     (mkVI f (vi_w vi) (vi_h vi) (fold_left Z.max (map vi_n rest) (vi_n vi))))
           end))
  end.
