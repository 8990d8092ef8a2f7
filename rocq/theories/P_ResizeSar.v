(** Property C89: the sample aspect ratio of resized frames. *)
From Coq Require Import String.
From Coq Require Import ZArith List Lia Bool.
From Coq Require Import SpecFloat.
From Verif Require Import Common FormatSpec Format SMap MapSpec MapAlias PropsSpec Props PropsLemmas ImageSpec PlaneMem Spatial Soft ClipProp Blank ResizeSpec Resize ResizeColour ResizeColour2 ResizeSar.
Import ListNotations.
Local Open Scope string_scope.
Local Open Scope list_scope.
Open Scope Z_scope.

Theorem C89_shape : forall build al g env d src c r c' n e aw ah,
  legal (rf_props src) -> meaningful (rf_props src) -> fmt_valid (rf_fmt src) -> fmt_valid (dstFormat d src) ->
  resizeFrame build al g env d src c = (Ok r, c') -> rd_bob d = false ->
  (interlacedFrame (rf_props src) = true -> isNan (r_height (rd_region d)) = true) ->
  sarOf (rf_props src) n e -> 0 < n -> 0 < e -> Z.gcd n e = 1 ->
  0 < rf_w src -> 0 < rf_h src -> 0 < aw -> 0 < ah ->
  usedPart (r_width (rd_region d)) (rf_w src) aw -> usedPart (r_height (rd_region d)) (rf_h src) ah ->
  n * aw * (16 * rf_h r) <= INT64_MAX -> e * (16 * rf_w r) * ah <= INT64_MAX ->
  exists n' e', sarOf (rf_props r) n' e' /\ 0 < n' /\ 0 < e' /\ Z.gcd n' e' = 1 /\ sameShape n e aw ah n' e' (16 * rf_w r) (16 * rf_h r).
Proof. exact resize_sar. Qed.
Print Assumptions C89_shape.
Example C89_shape_ex :
  match fst (resizeFrame blackZimg 64 (fun _ _ => 0) (fun c => c) thinner (column 4 square) noGraphs) with
  | Ok r => rf_w r = 1 /\ rf_h r = 8 /\ sarOf (rf_props r) 2 1 | _ => False
  end.
Proof. vm_compute. repeat split. Qed.

Theorem C89_bob_refuted : exists d src, rd_bob d = true /\ rf_h src = 2 /\ propOf (rf_props src) "_Field" = Some 1 /\ sarOf (rf_props src) 1 1 /\
  forall build al g env c r c', resizeFrame build al g env d src c = (Ok r, c') -> rf_w r = 1 /\ rf_h r = 4 /\ sarOf (rf_props r) 2 1 /\ propOf (rf_props r) "_Field" = Some 1.
Proof. exists bobbing, (column 2 (fieldProps 1 square)). repeat (split; [reflexivity|]). split; [split; reflexivity|]. exact bob_sar. Qed.
Print Assumptions C89_bob_refuted.

Theorem C89_interlaced_refuted : exists d src, rf_w src = rd_w d /\ rf_h src = rd_h d /\ r_height (rd_region d) = of64 (rf_h src) 0 /\ sarOf (rf_props src) 1 1 /\ interlacedFrame (rf_props src) = true /\
  forall build al g env c r c', resizeFrame build al g env d src c = (Ok r, c') -> rf_w r = rf_w src /\ rf_h r = rf_h src /\ sarOf (rf_props r) 2 1.
Proof. exists wholeHeight, (column 4 (interlaced square)). repeat (split; [reflexivity|]). split; [split; reflexivity|]. split; [reflexivity|]. exact interlaced_sar. Qed.
Print Assumptions C89_interlaced_refuted.

Theorem C89_overflow_refuted : fst (resizeFrame blackZimg 64 (fun _ _ => 0) (fun c => c) thinner (column 4 huge) noGraphs) = UB /\
  fst (resizeFrame blackZimg 64 (fun _ _ => 0) (fun c => c) sliver (column 4 square) noGraphs) = UB.
Proof. exact (conj sar_overflow sar_sliver). Qed.
Print Assumptions C89_overflow_refuted.
