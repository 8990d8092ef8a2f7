(** Property C88: what the resize filters take a frame to be and what they record. *)
From Coq Require Import String.
From Coq Require Import ZArith List Lia Bool.
From Verif Require Import Common FormatSpec Format SMap MapSpec MapAlias PropsSpec Props PropsLemmas ImageSpec PlaneMem Spatial Soft ClipProp Blank ResizeSpec Resize ResizeColour ResizeColour2 ResizeSar.
Import ListNotations.
Local Open Scope string_scope.
Local Open Scope list_scope.
Open Scope Z_scope.

Theorem C88_colours : forall build al g env d src c r c', legal (rf_props src) -> meaningful (rf_props src) -> fmt_valid (rf_fmt src) -> fmt_valid (dstFormat d src) ->
  resizeFrame build al g env d src c = (Ok r, c') ->
  legal (rf_props r) /\
  describes (dstFormat d src) (outputColour (dstFormat d src) (rd_out d) (rf_fmt src) (inputColour (rf_fmt src) (rd_in d) (rf_props src))) (rf_props r) /\
  (forall k, ~ In k colourKeys -> ~ In k sarKeys -> entry (rf_props r) k = entry (rf_props src) k).
Proof. exact resize_describes. Qed.
Print Assumptions C88_colours.
Example C88_colours_ex :
  let m := {| pm := [("_Range", (ptInt, [VInt 1])); ("name", (ptData, [VData 0 "x"]))]; pe := false |} in
  let d := mkRD (mkV cfYUV stInteger 8 1 1 1 3) 0 0 (mkG (Some 1) None None None None) nothing noRegion false in
  match fst (resizeFrame (fun _ t => Some (fun _ => map (fun i => mkI (zPlaneW t i) (zPlaneH t i) (fun _ _ => 0)) [0; 1; 2])) 64 (fun _ _ => 0) (fun c => c) d
          (mkRF (mkV cfRGB stInteger 8 1 0 0 3) 2 2 [mkPl 64 (mkB 128 (fun _ => 0)); mkPl 64 (mkB 128 (fun _ => 0)); mkPl 64 (mkB 128 (fun _ => 0))] m) noGraphs) with
  | Ok r => map (propOf (rf_props r)) colourKeys = [Some 1; Some 2; Some 2; Some 0; Some 0] /\ entry (rf_props r) "name" = Some (ptData, [VData 0 "x"])
  | _ => False
  end.
Proof. vm_compute. split; reflexivity. Qed.

Theorem C88_nothing_to_do : forall build al g env d src c, legal (rf_props src) -> meaningful (rf_props src) -> fmt_valid (rf_fmt src) -> pixelType (rf_fmt src) <> Err ->
  0 <= rf_w src < 2 ^ 32 -> 0 <= rf_h src < 2 ^ 32 -> idle d src ->
  (isRGB (rf_fmt src) = true -> c_matrix (inputColour (rf_fmt src) (rd_in d) (rf_props src)) = 0) ->
  exists m, resizeFrame build al g env d src c = (Ok (mkRF (rf_fmt src) (rf_w src) (rf_h src) (rf_planes src) m), c) /\
    describes (rf_fmt src) (inputColour (rf_fmt src) (rd_in d) (rf_props src)) m /\
    forall k, ~ In k colourKeys -> entry m k = entry (rf_props src) k.
Proof. exact idle_copy. Qed.
Print Assumptions C88_nothing_to_do.
Example C88_nothing_to_do_ex : idle same1 (column 3 square) /\ meaningful square.
Proof.
  split; [repeat split; auto|]. unfold meaningful, intProp.
  repeat split; intros q E; vm_compute in E; try discriminate; injection E as <-; exists [1]; split; reflexivity || (intros; exact I).
Qed.

Theorem C88_bad_range : forall build al g env d src c z l, legal (rf_props src) -> intProp in32 (rf_props src) "_ChromaLocation" -> fmt_valid (rf_fmt src) -> fmt_valid (dstFormat d src) ->
  entry (rf_props src) "_Range" = Some (ptInt, VInt z :: l) -> z <> 0 -> z <> 1 -> resizeFrame build al g env d src c = (Err, c).
Proof. exact bad_range. Qed.
Print Assumptions C88_bad_range.
Example C88_bad_range_ex : fst (resizeFrame blackZimg 64 (fun _ _ => 0) (fun c => c) thinner (column 4 (one "_Range" (ptInt, [VInt 2]))) noGraphs) = Err.
Proof. vm_compute. reflexivity. Qed.

Theorem C88_creation : forall r bob node a d v, resizeCreate r bob node a = Ok (d, v) ->
  rd_bob d = bob /\ rd_region d = ra_region a /\ rd_fmt d = cv_fmt v /\ rd_w d = cv_w v /\ rd_h d = cv_h v /\
  cv_n v = cv_n node /\ cv_fps v = cv_fps node /\
  cv_w v = match ra_width a with Some x => x | None => cv_w node end /\
  cv_h v = (if bob then 2 * cv_h node else match ra_height a with Some x => x | None => cv_h node end) /\
  0 <= cv_w v /\ 0 <= cv_h v /\ lookupAll (ra_out a) = Ok (rd_out d) /\ lookupAll (ra_in a) = Ok (rd_in d) /\
  (fmt_valid (cv_fmt node) -> fmt_valid (cv_fmt v) -> constantInfo (cv_fmt node) (cv_w node) (cv_h node) = true -> constantInfo (cv_fmt v) (cv_w v) (cv_h v) = true ->
   isRGB (cv_fmt node) = true -> isRGB (cv_fmt v) = false -> g_matrix (rd_out d) <> None).
Proof. exact create_inv. Qed.
Print Assumptions C88_creation.
Example C88_creation_ex :
  let e := mkE None None in let es := mkEs e e e e e in let node := mkCV (mkV cfRGB stInteger 8 1 0 0 3) 4 4 10 (25, 1) in
  resizeCreate reg0 false node (mkRA (Some 2) None None es es noRegion) = Ok (mkRD (cv_fmt node) 2 4 nothing nothing noRegion false, mkCV (cv_fmt node) 2 4 10 (25, 1)) /\
  resizeCreate reg0 false node (mkRA (Some (2 ^ 31)) None None es es noRegion) = Err.
Proof. vm_compute. split; reflexivity. Qed.

Theorem C88_names : sameNames matrixTable matrixNames /\ sameNames transferTable transferNames /\ sameNames rangeTable rangeNames /\ sameNames chromaTable chromaNames /\
  (forall s v, findName primariesTable s = Some v -> s <> "ebu3213-e" -> In (s, v) primariesNames) /\
  (forall s v, In (s, v) primariesNames -> s <> "jedec-p22" -> findName primariesTable s = Some v).
Proof. exact names_ok. Qed.
Print Assumptions C88_names.
Example C88_names_ex : findName matrixTable "2020ncl" = Some 9 /\ findName transferTable "2020ncl" = None.
Proof. split; reflexivity. Qed.

Theorem C88_names_refuted : exists s v, In (s, v) primariesNames /\ findName primariesTable s = None.
Proof. exact names_refuted. Qed.
Print Assumptions C88_names_refuted.

Theorem C88_wrong_type_refuted : exists m, legal m /\ entry m "_Matrix" = Some (ptData, [VData 0 "709"]) /\
  forall build al g env c, resizeFrame build al g env same1 (blackGray m) c = (UB, c).
Proof. exact wrong_type. Qed.
Print Assumptions C88_wrong_type_refuted.

(** Options given as numbers arrive as these numbers or the filter is refused; options given as names arrive as what the table says. *)
Theorem C88_options : forall t a r, lookupEnum t a = Ok r ->
  match r with
  | Some v => (e_int a = Some v /\ INT_MIN <= v <= INT_MAX) \/ (e_int a = None /\ exists s, e_name a = Some s /\ findName t s = Some v)
  | None => e_int a = None /\ e_name a = None
  end.
Proof. exact lookup_ok. Qed.
Print Assumptions C88_options.
Example C88_options_ex : lookupEnum matrixTable (mkE (Some 4294967297) None) = Err /\ lookupEnum matrixTable (mkE None (Some "709"%string)) = Ok (Some 1).
Proof. split; reflexivity. Qed.
