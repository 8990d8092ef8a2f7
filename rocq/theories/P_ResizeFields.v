(** Property C90: which conversion makes which rows of a resized frame. *)
From Coq Require Import String.
From Coq Require Import ZArith List Lia Bool.
From Verif Require Import Common FormatSpec Format Frame FrameSpec FrameLemmas FrameGeom SMap MapSpec MapAlias PropsSpec Props ImageSpec PlaneMem Spatial SpatialLemmas Soft ClipProp Blank ResizeSpec Resize ResizeColour ResizeColour2 ResizeSar ResizeFields.
Import ListNotations.
Local Open Scope string_scope.
Local Open Scope list_scope.
Open Scope Z_scope.

Theorem C90_descriptions : forall d src s t i, legal (rf_props src) -> meaningful (rf_props src) -> fmt_valid (rf_fmt src) -> fmt_valid (dstFormat d src) ->
  describe d src = Ok (s, t, i) ->
  i = interlacedFrame (rf_props src) /\
  z_w s = rf_w src /\ z_h s = rf_h src /\ z_w t = dstW d src /\ z_h t = dstH d src /\
  z_cf s = zfamily (rf_fmt src) /\ z_cf t = zfamily (dstFormat d src) /\
  z_ssw s = f_ssw (rf_fmt src) /\ z_ssh s = f_ssh (rf_fmt src) /\ z_ssw t = f_ssw (dstFormat d src) /\ z_ssh t = f_ssh (dstFormat d src) /\
  z_depth s = f_bits (rf_fmt src) /\ z_depth t = f_bits (dstFormat d src) /\ pixelType (rf_fmt src) = Ok (z_type s) /\ pixelType (dstFormat d src) = Ok (z_type t) /\
  z_parity s = parityOf (rf_props src) 0 /\ z_parity t = (if rd_bob d then 0 else z_parity s) /\
  z_region s = (if i then mkReg (r_left (rd_region d)) (half (r_top (rd_region d))) (r_width (rd_region d)) (half (r_height (rd_region d))) else rd_region d) /\ z_region t = noRegion /\
  z_col s = inputColour (rf_fmt src) (rd_in d) (rf_props src) /\
  z_col t = outputColour (dstFormat d src) (rd_out d) (rf_fmt src) (z_col s) /\
  (rd_bob d = true -> i = false /\ z_parity s <> 0).
Proof. exact describe_ok. Qed.
Print Assumptions C90_descriptions.
Example C90_descriptions_ex : match describe taller (striped (interlaced square)) with Ok (s, t, i) => (z_h s, z_h t, z_parity s, i) = (4, 8, 0, true) | _ => False end.
Proof. vm_compute. reflexivity. Qed.

Theorem C90_fields : forall build al g env d src c r s t, isAl al -> goodZimg build -> built build c -> (forall x, built build x -> built build (env x)) ->
  legal (rf_props src) -> meaningful (rf_props src) -> wfFrame al (asV src) -> fmt_valid (dstFormat d src) ->
  interlacedFrame (rf_props src) = true -> (2 ^ (f_ssh (rf_fmt src) + 1) | rf_h src) -> (2 ^ (f_ssh (dstFormat d src) + 1) | rf_h r) ->
  describe d src = Ok (s, t, true) -> fst (resizeFrame build al g env d src c) = Ok r ->
  copied s t src r \/ exists ct cb, build (halfTop s) (halfTop t) = Some ct /\ build (halfBottom s) (halfBottom t) = Some cb /\ wfFrame al (asV r) /\
    forall i, 0 <= i < f_np (rf_fmt r) -> exists a b, nthz (ct (map topField (pictures src))) i = Some a /\ nthz (cb (map bottomField (pictures src))) i = Some b /\ same (picture r i) (weave a b).
Proof. exact resize_fields. Qed.
Print Assumptions C90_fields.
Example C90_fields_ex : map (resultAt (fun _ _ => 99) taller (striped (interlaced square)) 0) [0; 1; 2; 3; 6; 7] = [Ok 10; Ok 20; Ok 10; Ok 20; Ok 10; Ok 20].
Proof. vm_compute. reflexivity. Qed.

Theorem C90_whole : forall build al g env d src c r s t, isAl al -> goodZimg build -> built build c -> (forall x, built build x -> built build (env x)) ->
  legal (rf_props src) -> meaningful (rf_props src) -> wfFrame al (asV src) -> fmt_valid (dstFormat d src) ->
  describe d src = Ok (s, t, false) -> fst (resizeFrame build al g env d src c) = Ok r ->
  copied s t src r \/ exists conv, build s t = Some conv /\ wfFrame al (asV r) /\
    forall i, 0 <= i < f_np (rf_fmt r) -> exists a, nthz (conv (pictures src)) i = Some a /\ same (picture r i) a.
Proof. exact resize_whole. Qed.
Print Assumptions C90_whole.
Example C90_whole_ex : map (resultAt (fun _ _ => 99) taller (striped square) 0) [0; 1; 2; 3; 6; 7] = [Ok 10; Ok 10; Ok 10; Ok 10; Ok 10; Ok 10].
Proof. vm_compute. reflexivity. Qed.

Theorem C90_history : forall build al g env env' d src c c', goodZimg build -> built build c -> built build c' ->
  (forall x, built build x -> built build (env x)) -> (forall x, built build x -> built build (env' x)) ->
  fst (resizeFrame build al g env d src c) = fst (resizeFrame build al g env' d src c') /\ built build (snd (resizeFrame build al g env d src c)).
Proof. exact resize_history. Qed.
Print Assumptions C90_history.
Example C90_history_ex : goodZimg flatZimg /\ built flatZimg noGraphs.
Proof. split; [exact flat_good|exact (built_none flatZimg)]. Qed.

Theorem C90_odd_height_refuted : exists src d, interlacedFrame (rf_props src) = true /\ rf_h src = 3 /\ rd_h d = 3 /\
  resultAt (fun _ _ => 1) d src 0 2 = Ok 1 /\ resultAt (fun _ _ => 2) d src 0 2 = Ok 2.
Proof. exists (column 3 (interlaced square)), wider. do 3 (split; [reflexivity|]). exact (conj (proj1 odd_rows) (proj1 (proj2 odd_rows))). Qed.
Print Assumptions C90_odd_height_refuted.
