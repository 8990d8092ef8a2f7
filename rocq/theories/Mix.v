(** The mixing matrix of AudioResample: src/core/audioresampling.cpp:322-505.
    Simplifications: the vectors of doubles are functions with a size; reading and writing outside is undefined. *)
From Coq Require Import ZArith List Bool.
From Coq Require Import SpecFloat.
From Verif Require Import Common PlaneMem Soft.
Import ListNotations.
Open Scope Z_scope.

Definition acFrontLeft := 0. Definition acFrontRight := 1. Definition acFrontCenter := 2. Definition acLowFrequency := 3. Definition acBackLeft := 4. Definition acBackRight := 5.
Definition acFrontLeftOFCenter := 6. Definition acFrontRightOFCenter := 7. Definition acBackCenter := 8. Definition acSideLeft := 9. Definition acSideRight := 10. Definition acTopCenter := 11.
Definition acTopFrontLeft := 12. Definition acTopFrontCenter := 13. Definition acTopFrontRight := 14. Definition acTopBackLeft := 15. Definition acTopBackCenter := 16. Definition acTopBackRight := 17.
Definition acStereoLeft := 29. Definition acStereoRight := 30. Definition acWideLeft := 31. Definition acWideRight := 32. Definition acSurroundDirectLeft := 33. Definition acSurroundDirectRight := 34. Definition acLowFrequency2 := 35.

(** lines 325-326: 0.70710678118654752440 as a double *)
Definition mixLevelCenter : fl := S754_finite false 6369051672525773 (-53).
Definition mixLevelSurround : fl := S754_finite false 6369051672525773 (-53).
Definition one : fl := of64 1 0.

(** lines 328-335 *)
Definition layoutChannels (layout : Z) : list Z := filter (fun i => Z.testbit (Z.shiftr layout i) 0) (zseq 64).
(** lines 339-357 *)
Definition groundEquivalent (channel : Z) : Z :=
  if (channel =? acTopFrontLeft) || (channel =? acWideLeft) || (channel =? acStereoLeft) then acFrontLeft
  else if (channel =? acTopFrontRight) || (channel =? acWideRight) || (channel =? acStereoRight) then acFrontRight
  else if (channel =? acTopFrontCenter) || (channel =? acTopCenter) then acFrontCenter
  else if (channel =? acTopBackLeft) || (channel =? acSurroundDirectLeft) then acBackLeft
  else if (channel =? acTopBackRight) || (channel =? acSurroundDirectRight) then acBackRight
  else if channel =? acTopBackCenter then acBackCenter
  else channel.

Definition cells := Z -> fl.
Definition setCell (size : Z) (m : cells) (i : Z) (v : fl) : outcome cells := if (0 <=? i) && (i <? size) then Ok (fun j => if j =? i then v else m j) else UB.
Definition getCell (size : Z) (m : cells) (i : Z) : outcome fl := if (0 <=? i) && (i <? size) then Ok (m i) else UB.

Section Build.
Variables numIn numOut : Z.
Variable outIndex : Z -> Z.
(** lines 382-383 *)
Definition has (channel : Z) : bool := (0 <=? channel) && (channel <? 64) && (0 <=? outIndex channel).
Definition add (channel inIdx : Z) (weight : fl) (m : cells) : outcome cells :=
  let i := outIndex channel * numIn + inIdx in
  obind (getCell (numOut * numIn) m i) (fun v => setCell (numOut * numIn) m i (add64 v weight)).
(** lines 388-395 *)
Definition foldSurround (inIdx alt front : Z) (m : cells) : outcome cells :=
  if has alt then add alt inIdx one m
  else if has front then add front inIdx mixLevelSurround m
  else if has acFrontCenter then add acFrontCenter inIdx (mul64 mixLevelSurround mixLevelCenter) m
  else Ok m.
(** lines 397-484: one input channel *)
Definition feed (inIdx channel : Z) (m : cells) : outcome cells :=
  if has channel then add channel inIdx one m
  else
  let channel := groundEquivalent channel in
  if has channel then add channel inIdx one m
  else if channel =? acFrontCenter then
    if has acFrontLeft && has acFrontRight then obind (add acFrontLeft inIdx mixLevelCenter m) (add acFrontRight inIdx mixLevelCenter)
    else if has acFrontLeft then add acFrontLeft inIdx mixLevelCenter m
    else if has acFrontRight then add acFrontRight inIdx mixLevelCenter m
    else Ok m
  else if (channel =? acFrontLeft) || (channel =? acFrontRight) then
    let other := if channel =? acFrontLeft then acFrontRight else acFrontLeft in
    if has acFrontCenter then add acFrontCenter inIdx mixLevelCenter m
    else if has other then add other inIdx mixLevelCenter m
    else Ok m
  else if (channel =? acBackLeft) || (channel =? acSideLeft) then foldSurround inIdx (if channel =? acBackLeft then acSideLeft else acBackLeft) acFrontLeft m
  else if (channel =? acBackRight) || (channel =? acSideRight) then foldSurround inIdx (if channel =? acBackRight then acSideRight else acBackRight) acFrontRight m
  else if channel =? acBackCenter then
    if has acBackLeft && has acBackRight then obind (add acBackLeft inIdx mixLevelCenter m) (add acBackRight inIdx mixLevelCenter)
    else if has acSideLeft && has acSideRight then obind (add acSideLeft inIdx mixLevelCenter m) (add acSideRight inIdx mixLevelCenter)
    else if has acFrontLeft && has acFrontRight then
      obind (add acFrontLeft inIdx (mul64 mixLevelSurround mixLevelCenter) m) (add acFrontRight inIdx (mul64 mixLevelSurround mixLevelCenter))
    else if has acFrontCenter then add acFrontCenter inIdx mixLevelSurround m
    else Ok m
  else if (channel =? acFrontLeftOFCenter) || (channel =? acFrontRightOFCenter) then
    let side := if channel =? acFrontLeftOFCenter then acFrontLeft else acFrontRight in
    if has side && has acFrontCenter then obind (add side inIdx mixLevelCenter m) (add acFrontCenter inIdx mixLevelCenter)
    else if has side then add side inIdx one m
    else if has acFrontCenter then add acFrontCenter inIdx one m
    else Ok m
  else if (channel =? acLowFrequency) || (channel =? acLowFrequency2) then
    let alt := if channel =? acLowFrequency then acLowFrequency2 else acLowFrequency in
    if has alt then add alt inIdx one m else Ok m
  else Ok m.
(** lines 489-502 *)
Definition peak (m : cells) : outcome fl :=
  forZ numOut (fun o peak =>
    obind (forZ numIn (fun i sum => obind (getCell (numOut * numIn) m (o * numIn + i)) (fun v => Ok (add64 sum (SFabs v)))) (S754_zero false)) (fun sum =>
    Ok (fmax peak sum))) (S754_zero false).
Definition scale (m : cells) : outcome cells := obind (peak m) (fun p => Ok (if SFltb one p then fun i => div64 (m i) p else m)).
Definition silentRow (m : cells) (o : Z) : outcome bool :=
  forZ numIn (fun i silent => obind (getCell (numOut * numIn) m (o * numIn + i)) (fun v => Ok (silent && SFeqb v (S754_zero false)))) true.
End Build.

(** lines 364-516: the weights, numOut rows of numIn, and the silent rows *)
Definition buildMixMatrix (inLayout outLayout : Z) (normalize : bool) : outcome (cells * (Z -> outcome bool)) :=
  let inChannels := layoutChannels inLayout in
  let outChannels := layoutChannels outLayout in
  let numIn := zlength inChannels in
  let numOut := zlength outChannels in
  obind (forZ numOut (fun i (f : Z -> Z) => match nthz outChannels i with Some c => if (0 <=? c) && (c <? 64) then Ok (fun x => if x =? c then i else f x) else UB | None => UB end) (fun _ => -1)) (fun outIndex =>
  obind (forZ numIn (fun i m => match nthz inChannels i with Some c => feed numIn numOut outIndex i c m | None => UB end) (fun _ => S754_zero false)) (fun m =>
  obind (if normalize then scale numIn numOut m else Ok m) (fun m =>
  Ok (fun i => to32 (m i), silentRow numIn numOut m)))).
