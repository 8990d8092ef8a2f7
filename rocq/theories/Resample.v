(** AudioResample: src/core/audioresampling.cpp:198-345 (rates), 556-700 (frames), 780-885 (creation).
    Simplifications: sin, sqrt and the window are not modelled, the coefficients are given as a function of phase and tap, stored in rows of [tapCount]; a row of [inCount] floats is a function with a size; reading an integer or float sample ([load]) and storing a working value ([store], which sees the absolute position and the channel and reports clipping) are parameters, see Convert.v. *)
From Coq Require Import ZArith List Bool Lia.
From Coq Require Import SpecFloat.
From Verif Require Import Common AudioSpec Audio PlaneMem Soft ResampleSpec.
Import ListNotations.
Open Scope Z_scope.

Definition mulL (a b : Z) : outcome Z := if in_int64b (a * b) then Ok (a * b) else UB.
Definition addL (a b : Z) : outcome Z := if in_int64b (a + b) then Ok (a + b) else UB.

(** lines 228-235; the loop ends after at most 200 divisions, see [gcd64_spec]. *)
Fixpoint gcdLoop (fuel : nat) (a b : Z) : Z :=
  match fuel with O => 0 | S k => if b =? 0 then a else gcdLoop k b (Z.rem a b) end.
Definition gcd64 (a b : Z) : Z := gcdLoop 200 a b.

(** static_cast<int>(std::ceil(x)): undefined when it does not fit. *)
Definition ceilInt (x : fl) : outcome Z :=
  match x with
  | S754_zero _ => Ok 0
  | S754_finite s m e => let v := if 0 <=? e then signed s (Z.pos m) * 2 ^ e else - ((- signed s (Z.pos m)) / 2 ^ (- e)) in if in_intb v then Ok v else UB
  | _ => UB
  end.

Record bank := mkBank { bk_p : Z; bk_q : Z; bk_base : Z; bk_phase : Z; bk_half : Z; bk_taps : Z }.
Definition bank0 : bank := mkBank 1 1 0 0 0 0.
(** lines 257-274: the fraction and the size of the filter. *)
Definition buildBank (inRate outRate : Z) : outcome bank :=
  let g := gcd64 inRate outRate in
  if g =? 0 then UB
  else
  let p := Z.quot outRate g in
  let q := Z.quot inRate g in
  let r := div64 (of64 p 0) (of64 q 0) in
  let ratio := if SFltb r (of64 1 0) then r else of64 1 0 in
  obind (ceilInt (div64 (of64 64 0) ratio)) (fun half =>
  if negb (in_intb (2 * half)) then UB
  else if 8192 <? 2 * half then Err
  else if 32 * 2 ^ 20 <? wrapu64 (wrapu64 p * wrapu64 (2 * half) * 4) then Err
  else Ok (mkBank p q (Z.quot q p) (Z.rem q p) half (2 * half))).

(** lines 305-311 *)
Definition floorDiv (a b : Z) : Z := let quot := Z.quot a b in if negb (Z.rem a b =? 0) && (a <? 0) then quot - 1 else quot.

Section Model.
Context {S D : Type}.
Variable load : S -> fl.
Variable store : Z -> Z -> fl -> outcome (D * bool).
Variable coeff : Z -> Z -> fl.               (* phase, tap *)
Record plan := mkPlan { pl_bank : bank; pl_doResample : bool; pl_mix : option (Z -> Z -> fl); pl_silent : Z -> bool; pl_in : Z; pl_out : Z; pl_len : Z; pl_overflowError : bool }.
Variable d : plan.
Variable silence : D.

(** The input range of output frame [n], lines 584-610. *)
Record range := mkRange { rg_firstOut : Z; rg_outCount : Z; rg_base : Z; rg_phase : Z; rg_firstIn : Z; rg_lastIn : Z }.
Definition rangeOf (n : Z) : outcome range :=
  let b := pl_bank d in
  obind (mulL n AFS) (fun firstOut =>
  obind (addL (pl_len d) (- firstOut)) (fun rest =>
  let outCount := wrap32 (Z.min AFS rest) in
  if pl_doResample d then
    obind (mulL firstOut (bk_q b)) (fun pos =>
    obind (addL firstOut outCount) (fun e =>
    obind (mulL (e - 1) (bk_q b)) (fun lastPos =>
    let base := Z.quot pos (bk_p b) in
    obind (addL base (- bk_half b)) (fun lo =>
    obind (addL (Z.quot lastPos (bk_p b)) (bk_half b)) (fun hi =>
    Ok (mkRange firstOut outCount base (Z.rem pos (bk_p b)) (lo + 1) hi))))))
  else obind (addL firstOut outCount) (fun e => Ok (mkRange firstOut outCount 0 0 firstOut (e - 1))))).
Definition frameRange (frames : Z) (r : range) : Z * Z := (Z.max (floorDiv (rg_firstIn r) AFS) 0, Z.min (floorDiv (rg_lastIn r) AFS) (frames - 1)).
Definition frameList (x : Z * Z) : list Z := map (fun k => fst x + k) (zseq (snd x - fst x + 1)).
Definition resampleRequests (frames n : Z) : outcome (list (nat * Z)) :=
  obind (rangeOf n) (fun r => Ok (map (fun f => (O, wrap32 f)) (frameList (frameRange frames r)))).
Fixpoint getAll (src : clip (Z -> S)) (av : list (nat * Z)) (l : list Z) : outcome (list (aframe (Z -> S))) :=
  match l with [] => Ok [] | f :: t => obind (getFilter [src] av 0 (wrap32 f)) (fun x => obind (getAll src av t) (fun r => Ok (x :: r))) end.

(** Rows of floats. *)
Definition row := Z -> fl.
Definition setRow (size : Z) (r : row) (i : Z) (v : fl) : outcome row := if (0 <=? i) && (i <? size) then Ok (fun x => if x =? i then v else r x) else UB.
(** lines 633-643: one frame into the row, then all of them. *)
Definition gatherFrame (firstIn inCount ch frameStart : Z) (f : aframe (Z -> S)) (r : row) : outcome row :=
  let lo := Z.max frameStart firstIn in
  let hi := Z.min (frameStart + af_len f) (firstIn + inCount) in
  if lo <? hi then
    forZ (wrap32 (hi - lo)) (fun j r =>
      match nthz (af_buf f) (lo - frameStart + j) with
      | Some (Some cell) => setRow inCount r (lo - firstIn + j) (load (cell ch))
      | _ => UB
      end) r
  else Ok r.
Fixpoint gatherFrames (firstIn inCount ch frameStart : Z) (fs : list (aframe (Z -> S))) (r : row) : outcome row :=
  match fs with [] => Ok r | f :: t => obind (gatherFrame firstIn inCount ch frameStart f r) (gatherFrames firstIn inCount ch (frameStart + AFS) t) end.
Definition gatherChannel (firstIn inCount firstFrame : Z) (fs : list (aframe (Z -> S))) (ch : Z) : outcome row :=
  gatherFrames firstIn inCount ch (firstFrame * AFS) fs (fun _ => zero).
(** lines 645-664: mixing adds every input channel to all rows it feeds. *)
Definition mixRows (firstIn inCount firstFrame : Z) (fs : list (aframe (Z -> S))) : outcome (Z -> row) :=
  match pl_mix d with
  | Some w =>
      forZ (pl_in d) (fun ic rows =>
        obind (gatherChannel firstIn inCount firstFrame fs ic) (fun scratch =>
        forZ (pl_out d) (fun oc rows =>
          if SFeqb (w oc ic) zero then Ok rows
          else Ok (fun o => if o =? oc then (fun i => add32 (rows o i) (mul32 (w oc ic) (scratch i))) else rows o)) rows)) (fun _ _ => zero)
  | None => forZ (pl_out d) (fun oc rows => obind (gatherChannel firstIn inCount firstFrame fs oc) (fun r => Ok (fun o => if o =? oc then r else rows o))) (fun _ _ => zero)
  end.
(** lines 674-692: the filter with its running position. *)
Definition tap (mixed : row) (inCount base phase firstIn j : Z) (acc : fl) : outcome fl :=
  let i := base - bk_half (pl_bank d) + 1 - firstIn + j in
  let c := phase * bk_taps (pl_bank d) + j in
  if (0 <=? i) && (i <? inCount) && (0 <=? c) && (c <? bk_p (pl_bank d) * bk_taps (pl_bank d)) then Ok (add64 acc (mul64 (mixed i) (coeff (c / bk_taps (pl_bank d)) (c mod bk_taps (pl_bank d))))) else UB.
Definition advance (x : Z * Z) : Z * Z :=
  let base := fst x + bk_base (pl_bank d) in
  let phase := snd x + bk_phase (pl_bank d) in
  if bk_p (pl_bank d) <=? phase then (base + 1, phase - bk_p (pl_bank d)) else (base, phase).
Definition filterRow (mixed : row) (inCount : Z) (r : range) : outcome row :=
  obind (forZ (rg_outCount r) (fun m st =>
    let '((base, phase), out) := st in
    obind (forZ (bk_taps (pl_bank d)) (tap mixed inCount base phase (rg_firstIn r)) zero) (fun acc =>
    obind (setRow (rg_outCount r) out m (to32 acc)) (fun out => Ok (advance (base, phase), out))))
    ((rg_base r, rg_phase r), fun _ => zero)) (fun st => Ok (snd st)).
(** lines 666-700: the samples of one channel and whether one was clipped. *)
Definition channelOut (rows : Z -> row) (inCount : Z) (r : range) (oc : Z) : outcome (list D * bool) :=
  if pl_silent d oc then Ok (repeat silence (Z.to_nat (rg_outCount r)), false)
  else
  obind (if pl_doResample d then filterRow (rows oc) inCount r else Ok (rows oc)) (fun quantSrc =>
  if negb (pl_doResample d) && (inCount <? rg_outCount r) then UB
  else
  obind (inOrder (fun i => store (rg_firstOut r + i) oc (quantSrc i)) (zseq (rg_outCount r))) (fun l =>
  Ok (map fst l, existsb snd l))).
Definition resampleReady (src : clip (Z -> S)) (n : Z) (av : list (nat * Z)) : outcome (list (list D)) :=
  obind (rangeOf n) (fun r =>
  let fr := frameRange (c_frames src) r in
  obind (getAll src av (frameList fr)) (fun fs =>
  if rg_outCount r <=? 0 then Err
  else
  let inCount := wrap32 (rg_lastIn r - rg_firstIn r + 1) in
  if inCount <? 0 then UB
  else
  obind (mixRows (rg_firstIn r) inCount (fst fr) fs) (fun rows =>
  obind (inOrder (channelOut rows inCount r) (zseq (pl_out d))) (fun chs =>
  if existsb snd chs && pl_overflowError d then Err else Ok (map fst chs))))).
Definition resampleFrame (src : clip (Z -> S)) (n : Z) : outcome (list (list D)) :=
  obind (resampleRequests (c_frames src) n) (fun l => obind (requests [src] l) (resampleReady src n)).
End Model.

(** lines 812-860: rate and length of the output. *)
Definition resampleLength (b : bank) (N : Z) : outcome Z :=
  obind (addL (INT64_MAX - bk_q b) 1) (fun lim =>
  if Z.quot lim (bk_p b) <? N then Err
  else obind (mulL N (bk_p b)) (fun a => obind (addL a (bk_q b)) (fun c =>
  let numOut := Z.quot (c - 1) (bk_q b) in
  if (numOut <? 1) || (INT_MAX * AFS <? numOut) then Err else Ok numOut))).
(** lines 831-855: the plan, without the mixing matrix and the conversions. *)
Definition makePlan (inRate outRate N : Z) (mix : option (Z -> Z -> fl)) (silent : Z -> bool) (numIn numOut : Z) (overflowError : bool) : outcome plan :=
  if negb (outRate =? inRate) then
    obind (buildBank inRate outRate) (fun b => obind (resampleLength b N) (fun L => Ok (mkPlan b true mix silent numIn numOut L overflowError)))
  else Ok (mkPlan bank0 false mix silent numIn numOut N overflowError).
