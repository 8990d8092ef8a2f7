(** C83: descriptions of clips, clips of one colour and assumed frame rates. *)
From Coq Require Import String.
From Coq Require Import ZArith List.
From Coq Require Import SpecFloat.
From Verif Require Import Common FormatSpec Format FrameSpec FrameGeom Frame ImageSpec PlaneMem Spatial SpatialLemmas Rational Soft SoftNum ClipProp BlankSpec Blank BlankNum BlankLemmas.
Import ListNotations.
Local Open Scope list_scope.
Open Scope Z_scope.

Theorem C83_info_partial : forall v, INT64_MIN < fst (cv_fps v) <= INT64_MAX -> INT64_MIN < snd (cv_fps v) <= INT64_MAX -> isValidVideoInfo v = Ok true ->
  goodFormat (cv_fmt v) /\ goodSize (cv_w v) (cv_h v) /\ 1 <= cv_n v /\ 0 <= fst (cv_fps v) /\ 0 <= snd (cv_fps v) /\ (0 < fst (cv_fps v) -> 0 < snd (cv_fps v) -> goodRate (fst (cv_fps v)) (snd (cv_fps v))).
Proof. exact info_sound. Qed.
Print Assumptions C83_info_partial.

Theorem C83_info_rate_refuted : exists v, isValidVideoInfo v = Ok true /\ ~ goodRate (fst (cv_fps v)) (snd (cv_fps v)).
Proof. exact info_rate_refuted. Qed.
Print Assumptions C83_info_rate_refuted.

Theorem C83_info_complete : forall v, fst (cv_fps v) <= INT64_MAX -> snd (cv_fps v) <= INT64_MAX -> cv_fmt v = undefFmt \/ fmt_valid (cv_fmt v) -> goodSize (cv_w v) (cv_h v) -> 1 <= cv_n v -> goodRate (fst (cv_fps v)) (snd (cv_fps v)) -> isValidVideoInfo v = Ok true.
Proof. exact info_complete. Qed.
Print Assumptions C83_info_complete.

Theorem C83_created : forall r a v cs dv, argsOk a -> blankClipCreate r a = Ok (v, cs, dv) ->
  fmt_valid (cv_fmt v) /\ formatOf r a = Ok (cv_fmt v) /\ cv_w v = widthOf a /\ cv_h v = heightOf a /\ 0 < cv_w v /\ 0 < cv_h v /\ (2 ^ f_ssw (cv_fmt v) | cv_w v) /\ (2 ^ f_ssh (cv_fmt v) | cv_h v) /\
  0 < cv_n v /\ lengthOf a (cv_fps v) = Ok (cv_n v) /\ goodRate (fst (cv_fps v)) (snd (cv_fps v)) /\ sameRate (fst (rateOf a)) (snd (rateOf a)) (fst (cv_fps v)) (snd (cv_fps v)) /\
  coloursOf a (cv_fmt v) = Ok cs /\ zlength cs = 3 /\ Forall (legalColour (cv_fmt v)) cs /\ dv = delivered a v /\ isValidVideoInfo dv = Ok true.
Proof. exact blank_created. Qed.
Print Assumptions C83_created.

Theorem C83_default : forall r, blankClipCreate r (mkBA None None None None None None None [] None None) = Ok (mkCV rgb24 640 480 240 (24, 1), [0; 0; 0], mkCV rgb24 640 480 240 (24, 1)).
Proof. exact blank_default. Qed.
Print Assumptions C83_default.

Theorem C83_no_ub_partial : forall r a, argsOk a -> (forall id, ba_format a = Some id -> getVideoFormatByID r (wrapu32 (sat32 id)) <> None) ->
  ba_length a <> None \/ ba_clip a <> None \/ (forall z, ba_fpsnum a = Some z -> z * 10 <= INT64_MAX) -> blankClipCreate r a <> UB.
Proof. exact blank_no_ub. Qed.
Print Assumptions C83_no_ub_partial.

Theorem C83_overflow_refuted : exists a, argsOk a /\ forall r, blankClipCreate r a = UB.
Proof. exact blank_overflow_refuted. Qed.
Print Assumptions C83_overflow_refuted.

Theorem C83_frame : forall al g v colour, isAl al -> 4 <= al -> fmt_valid (cv_fmt v) -> 0 < cv_w v -> 0 < cv_h v -> (forall i, 0 <= i < f_np (cv_fmt v) -> 0 <= colour i < 256 ^ f_bytes (cv_fmt v)) ->
  exists fr, blankClipGetFrame al g v colour = Ok fr /\ wfFrame al fr /\ vf_fmt fr = cv_fmt v /\ vf_w fr = cv_w v /\ vf_h fr = cv_h v /\
    (forall k, vf_props fr k = if 0 <? fst (cv_fps v) then (if String.eqb k "_DurationDen" then Some (fst (cv_fps v)) else if String.eqb k "_DurationNum" then Some (snd (cv_fps v)) else None) else None) /\
    forall i, 0 <= i < f_np (cv_fmt v) -> exists img, planeImg fr i = Some img /\ i_w img = planeW (cv_fmt v) (cv_w v) i /\ i_h img = planeH (cv_fmt v) (cv_h v) i /\ forall x y, 0 <= x < i_w img -> 0 <= y < i_h img -> i_at img x y = colour i.
Proof. exact blank_frame. Qed.
Print Assumptions C83_frame.

(** Whole numbers are kept or refused; what is accepted is a value of the format. *)
Theorem C83_colour_exact : forall v bits, 0 <= v < 4294967296 -> 0 <= bits -> doubleToIntPixelValue (num v) bits = if v <? 2 ^ bits then Ok v else Err.
Proof. exact int_exact. Qed.
Print Assumptions C83_colour_exact.

Theorem C83_colour_legal : forall f v, fmt_valid f -> valid64 v -> match colourValue f v with Ok c => legalColour f c | Err => True | UB => False end.
Proof. exact colour_legal. Qed.
Print Assumptions C83_colour_legal.

Theorem C83_colour_refused : forall v bits, isFin v = false \/ SFltb v (S754_zero false) = true -> doubleToIntPixelValue v bits = Err.
Proof. exact colour_refused. Qed.
Print Assumptions C83_colour_refused.

Theorem C83_colour_nearest_refuted : valid64 belowHalf /\ SFltb belowHalf (of64 1 (-1)) = true /\ doubleToIntPixelValue belowHalf 8 = Ok 1.
Proof. exact colour_nearest_refuted. Qed.
Print Assumptions C83_colour_nearest_refuted.

Theorem C83_colour_limit_refuted : exists v, valid64 v /\ SFltb (num (2 ^ 32)) v = true /\ doubleToIntPixelValue v 32 = Ok (2 ^ 32 - 1).
Proof. exact colour_limit_refuted. Qed.
Print Assumptions C83_colour_limit_refuted.

Theorem C83_assume_created : forall v fpsnum fpsden src r, (forall s, src = Some s -> fst (cv_fps s) <= INT64_MAX /\ snd (cv_fps s) <= INT64_MAX) ->
  (forall x, fpsnum = Some x -> x <= INT64_MAX) -> (forall x, fpsden = Some x -> x <= INT64_MAX) -> assumeFPSCreate v fpsnum fpsden src = Ok r ->
  cv_fmt r = cv_fmt v /\ cv_w r = cv_w v /\ cv_h r = cv_h v /\ cv_n r = cv_n v /\
  exists num den, 0 < num /\ 0 < den /\ (match src, fpsnum with Some s, None => num = fst (cv_fps s) /\ den = snd (cv_fps s) | None, Some x => num = x /\ (den = 1 /\ fpsden = None \/ fpsden = Some den) | _, _ => False end) /\
    0 < fst (cv_fps r) /\ goodRate (fst (cv_fps r)) (snd (cv_fps r)) /\ sameRate num den (fst (cv_fps r)) (snd (cv_fps r)).
Proof. exact assume_created. Qed.
Print Assumptions C83_assume_created.

Theorem C83_assume_accepts : forall v x y, isValidVideoInfo v = Ok true -> 0 < x <= INT64_MAX -> 0 < y <= INT64_MAX -> exists r, assumeFPSCreate v (Some x) (Some y) None = Ok r.
Proof. exact assume_accepts. Qed.
Print Assumptions C83_assume_accepts.

Theorem C83_assume_frame : forall v src, let r := assumeFPSGetFrame v src in vf_planes r = vf_planes src /\ vf_fmt r = vf_fmt src /\ vf_w r = vf_w src /\ vf_h r = vf_h src /\
  vf_props r "_DurationNum"%string = Some (snd (cv_fps v)) /\ vf_props r "_DurationDen"%string = Some (fst (cv_fps v)) /\
  forall k, k <> "_DurationNum"%string -> k <> "_DurationDen"%string -> vf_props r k = vf_props src k.
Proof. exact assume_frame. Qed.
Print Assumptions C83_assume_frame.

(** Twelve frames of half size, colours 1, 2 and 3, rate 50/2. *)
Example C83_example : blankClipCreate (mkReg [] 1000) (mkBA None (Some 320) (Some 240) None (Some 12) (Some 50) (Some 2) [num 1; num 2; num 3] None (Some 1)) = Ok (mkCV rgb24 320 240 12 (25, 1), [1; 2; 3], mkCV undefFmt 320 240 12 (25, 1)).
Proof. vm_compute. reflexivity. Qed.
Example C83_example_assume : assumeFPSCreate (mkCV rgb24 320 240 12 (25, 1)) (Some 48000) (Some 1000) None = Ok (mkCV rgb24 320 240 12 (48, 1)).
Proof. vm_compute. reflexivity. Qed.
Example C83_example_colour : [doubleToIntPixelValue (num 255) 8; doubleToIntPixelValue (num 256) 8] = [Ok 255; Err].
Proof. vm_compute. reflexivity. Qed.
