(** Properties C29-C33 and C74: the geometric filters. *)
From Coq Require Import String.
From Coq Require Import ZArith List Lia Bool.
From Verif Require Import Common FormatSpec Format FrameSpec Frame FrameGeom FrameFacts ImageSpec PlaneMem Spatial
  SpatialLemmas SpatialFrames SpatialFields SpatialStack SpatialShuffle Transpose TransposeFrames SpatialFacts.
Import ListNotations.
Open Scope Z_scope.

(** A 6 x 5 picture for the examples; sample (x, y) of plane i is 100 i + 10 y + x. *)
Definition pic : vframe := drawn 32 gray8 6 5 (fun i x y => 100 * i + 10 * y + x).
Definition pic420 : vframe := drawn 32 yuv420p8 8 8 (fun i x y => 64 * i + 8 * y + x).
Definition junk (i o : Z) : Z := 200.

(** ** C29 Crop and AddBorders *)
Theorem C29_crop_window : forall al g x y w h src, isAl al -> wfFrame al src ->
  window (vf_fmt src) x y w h (vf_w src) (vf_h src) -> in_int (vf_w src) -> in_int (vf_h src) ->
  exists r, cropGetFrame al g x y w h src = Ok r /\ wfFrame al r /\
    vf_fmt r = vf_fmt src /\ vf_w r = w /\ vf_h r = h /\
    vf_props r = swapFields (Z.odd y) (vf_props src) /\
    planesMap (fun i => crop (planeW (vf_fmt src) x i) (planeH (vf_fmt src) y i)
                             (planeW (vf_fmt src) w i) (planeH (vf_fmt src) h i)) src r.
Proof. exact crop_frame. Qed.
Print Assumptions C29_crop_window.
Example C29_crop_window_ex : sampleOf (cropGetFrame 32 junk 2 1 3 3 pic) 0 1 1 = Ok 23
  /\ sampleOf (cropGetFrame 32 junk 2 4 4 2 pic420) 1 1 0 = Ok 82
  /\ cropGetFrame 32 junk 1 4 4 2 pic420 = Err.
Proof. vm_compute; auto. Qed.

Theorem C29_crop_verify_partial : forall f x y w h sw sh, fmt_valid f -> 1 <= sw -> 1 <= sh ->
  in_int (w + x) -> in_int (h + y) ->
  exists bad, cropVerify x y w h sw sh f = Ok bad /\ (bad = false <-> window f x y w h sw sh).
Proof. exact cropVerify_exact. Qed.
Print Assumptions C29_crop_verify_partial.
Example C29_crop_verify_ex : cropVerify 0 0 6 5 6 5 gray8 = Ok false /\ cropVerify 1 0 6 5 6 5 gray8 = Ok true.
Proof. vm_compute; auto. Qed.

Theorem C29_accepted_windows_are_inside : forall f x y w h sw sh, fmt_valid f -> 1 <= sw -> 1 <= sh ->
  cropVerify x y w h sw sh f = Ok false -> window f x y w h sw sh.
Proof. exact cropVerify_sound. Qed.
Print Assumptions C29_accepted_windows_are_inside.

Theorem C29_add_borders : forall al g l r t b colour src, isAl al -> 4 <= al -> wfFrame al src ->
  borders (vf_fmt src) l r t b ->
  in_int (vf_w src + l + r) -> in_int (vf_h src + t + b) ->
  (forall i, 0 <= i < f_np (vf_fmt src) -> 0 <= colour i < 256 ^ f_bytes (vf_fmt src)) ->
  exists o, addBordersGetFrame al g l r t b colour src = Ok o /\ wfFrame al o /\
    vf_fmt o = vf_fmt src /\ vf_w o = vf_w src + l + r /\ vf_h o = vf_h src + t + b /\
    vf_props o = swapFields (Z.odd t) (vf_props src) /\
    planesMap (fun i => pad (planeW (vf_fmt src) l i) (planeW (vf_fmt src) r i)
                            (planeH (vf_fmt src) t i) (planeH (vf_fmt src) b i) (colour i)) src o.
Proof. exact border_frame. Qed.
Print Assumptions C29_add_borders.
Example C29_add_borders_ex :
  let o := addBordersGetFrame 32 junk 1 2 3 0 (fun _ => 77) pic in
  sampleOf o 0 1 3 = Ok 0 /\ sampleOf o 0 0 3 = Ok 77 /\ sampleOf o 0 7 4 = Ok 77 /\ sampleOf o 0 6 7 = Ok 45 /\
  sampleOf o 0 5 2 = Ok 77.
Proof. vm_compute; auto. Qed.

Theorem C29_border_sizes_accepted : forall f l r t b, fmt_valid f ->
  addBordersVerify l r t b f = false <->
  (2 ^ f_ssw f | l) /\ (2 ^ f_ssw f | r) /\ (2 ^ f_ssh f | t) /\ (2 ^ f_ssh f | b).
Proof. exact addBordersVerify_exact. Qed.
Print Assumptions C29_border_sizes_accepted.

Theorem C29_crop_undoes_borders : forall al g g' l r t b colour src, isAl al -> 4 <= al -> wfFrame al src ->
  borders (vf_fmt src) l r t b ->
  (2 ^ f_ssw (vf_fmt src) | vf_w src) -> (2 ^ f_ssh (vf_fmt src) | vf_h src) ->
  in_int (vf_w src + l + r) -> in_int (vf_h src + t + b) ->
  (forall i, 0 <= i < f_np (vf_fmt src) -> 0 <= colour i < 256 ^ f_bytes (vf_fmt src)) ->
  exists o c, addBordersGetFrame al g l r t b colour src = Ok o /\
    cropGetFrame al g' l t (vf_w src) (vf_h src) o = Ok c /\
    sameFrame src c /\ forall k, vf_props c k = vf_props src k.
Proof. exact crop_borders. Qed.
Print Assumptions C29_crop_undoes_borders.
Example C29_crop_undoes_borders_ex :
  let o := addBordersGetFrame 32 junk 2 2 4 6 (fun _ => 77) pic420 in
  sampleOf (obind o (cropGetFrame 32 junk 2 4 8 8)) 2 3 2 = sampleOf (Ok pic420) 2 3 2.
Proof. vm_compute; auto. Qed.

Theorem C29_relative_crop : forall vi l r t b d vo, fmt_valid (vi_fmt vi) -> cropRelCreate vi l r t b = Ok (d, vo) ->
  let w := vi_w vi - optI l - optI r in let h := vi_h vi - optI t - optI b in
  vi_fmt vo = vi_fmt vi /\ vi_n vo = vi_n vi /\ vi_w vo = w /\ vi_h vo = h /\
  window (vi_fmt vi) (optI l) (optI t) w h (vi_w vi) (vi_h vi) /\
  d = Some (mkCD (optI l) (optI t) w h) \/
  d = None /\ vo = vi /\ optI l = 0 /\ optI t = 0 /\ optI r = 0 /\ optI b = 0.
Proof. exact cropRel_inv. Qed.
Print Assumptions C29_relative_crop.
Example C29_relative_crop_ex :
  cropRelCreate (mkVI yuv420p8 8 8 3) (Some 2) (Some 4) None (Some 6) = Ok (Some (mkCD 2 0 2 2), mkVI yuv420p8 2 2 3) /\
  cropRelCreate (mkVI yuv420p8 8 8 3) (Some 1) (Some 1) None None = Err.
Proof. vm_compute; auto. Qed.

Theorem C29_crop_overflow_refuted : exists vi left w h, in_int left /\ in_int w /\ in_int h /\
  cropAbsCreate vi (Some left) None None None w h = UB /\
  cropVerifyWrap left 0 w h (vi_w vi) (vi_h vi) (vi_fmt vi) = false /\
  ~ window (vi_fmt vi) left 0 w h (vi_w vi) (vi_h vi).
Proof. exists vga, INT_MAX, 640, 480. split; [|split; [|split]]; [vm_compute; intuition discriminate ..|]. exact crop_overflow. Qed.
Print Assumptions C29_crop_overflow_refuted.

Theorem C29_relative_crop_overflow_refuted : exists vi top, in_int top /\ cropRelCreate vi None None (Some top) None = UB.
Proof. exists vga, INT_MIN. split; [vm_compute; intuition discriminate | exact cropRel_overflow]. Qed.
Print Assumptions C29_relative_crop_overflow_refuted.

Theorem C29_border_overflow_refuted : exists vi l r, in_int l /\ in_int r /\
  addBordersCreate vi (Some l) (Some r) None None = UB.
Proof. exists vga, INT_MAX, INT_MAX. split; [|split]; [vm_compute; intuition discriminate ..|]. exact borders_overflow. Qed.
Print Assumptions C29_border_overflow_refuted.

(** ** C30 flips, turns and transposes *)
Theorem C30_flip_vertical : forall al g src, isAl al -> wfFrame al src ->
  exists r, flipVGetFrame al g src = Ok r /\ wfFrame al r /\
    vf_fmt r = vf_fmt src /\ vf_w r = vf_w src /\ vf_h r = vf_h src /\ vf_props r = vf_props src /\
    planesMap (fun _ => flipV) src r.
Proof. exact flipV_frame. Qed.
Print Assumptions C30_flip_vertical.
Example C30_flip_vertical_ex : sampleOf (flipVGetFrame 32 junk pic) 0 1 0 = Ok 41.
Proof. vm_compute; auto. Qed.

Theorem C30_flip_horizontal_and_turn180 : forall al g turn src, isAl al -> wfFrame al src ->
  exists r, flipHGetFrame al g turn src = Ok r /\ wfFrame al r /\
    vf_fmt r = vf_fmt src /\ vf_w r = vf_w src /\ vf_h r = vf_h src /\ vf_props r = vf_props src /\
    planesMap (fun _ => if turn then rot180 else flipH) src r.
Proof. exact flipH_frame. Qed.
Print Assumptions C30_flip_horizontal_and_turn180.
Example C30_flip_horizontal_ex : sampleOf (flipHGetFrame 32 junk false pic) 0 1 0 = Ok 4
  /\ sampleOf (flipHGetFrame 32 junk true pic) 0 1 0 = Ok 44.
Proof. vm_compute; auto. Qed.

Theorem C30_transpose_and_turns : forall al g sse2 mode vi vi' src, alignment al -> wfFrame al src -> matches src vi ->
  transposeCreate vi = Ok vi' ->
  addressable al (vi_fmt vi) (vi_w vi) (vi_h vi) -> addressable al (vi_fmt vi') (vi_w vi') (vi_h vi') ->
  exists r, transposeGetFrame al g sse2 mode vi' src = Ok r /\ wfFrame al r /\ matches r vi' /\
    vf_props r = vf_props src /\ planesMap (fun _ => turnOf mode) src r.
Proof. exact transpose_frame. Qed.
Print Assumptions C30_transpose_and_turns.
Example C30_transpose_ex :
  sampleOf (transposeGetFrame 32 junk true Transpose (mkVI gray8 5 6 1) pic) 0 3 1 = Ok 31 /\
  sampleOf (transposeGetFrame 32 junk true Turn90 (mkVI gray8 5 6 1) pic) 0 3 1 = Ok 11 /\
  sampleOf (transposeGetFrame 32 junk false Turn270 (mkVI gray8 5 6 1) pic) 0 3 1 = Ok 34.
Proof. vm_compute; auto. Qed.

Theorem C30_flip_vertical_involution : forall al g g' src, isAl al -> wfFrame al src -> exists r r',
  flipVGetFrame al g src = Ok r /\ flipVGetFrame al g' r = Ok r' /\ sameFrame src r' /\ vf_props r' = vf_props src.
Proof. exact flipV_twice_frame. Qed.
Print Assumptions C30_flip_vertical_involution.

Theorem C30_flip_horizontal_turn180_involutions : forall al g g' turn src, isAl al -> wfFrame al src -> exists r r',
  flipHGetFrame al g turn src = Ok r /\ flipHGetFrame al g' turn r = Ok r' /\ sameFrame src r' /\ vf_props r' = vf_props src.
Proof. exact flipH_twice_frame. Qed.
Print Assumptions C30_flip_horizontal_turn180_involutions.

Theorem C30_turn180_is_both_flips : forall al g g' g'' src, isAl al -> wfFrame al src -> exists a b c,
  flipHGetFrame al g false src = Ok a /\ flipVGetFrame al g' a = Ok b /\ flipHGetFrame al g'' true src = Ok c /\
  sameFrame b c.
Proof. exact turn180_is_flips. Qed.
Print Assumptions C30_turn180_is_both_flips.

Theorem C30_inverse_turns : forall al g g' sse sse' m vi vi' src, alignment al -> wfFrame al src -> matches src vi ->
  transposeCreate vi = Ok vi' ->
  addressable al (vi_fmt vi) (vi_w vi) (vi_h vi) -> addressable al (vi_fmt vi') (vi_w vi') (vi_h vi') ->
  transposeCreate vi' = Ok vi /\
  exists r r', transposeGetFrame al g sse m vi' src = Ok r /\ transposeGetFrame al g' sse' (undo m) vi r = Ok r' /\
    sameFrame src r' /\ vf_props r' = vf_props src.
Proof. exact turn_undone. Qed.
Print Assumptions C30_inverse_turns.

Theorem C30_turn90_twice_is_turn180 : forall al g g' g'' sse sse' vi vi' src,
  alignment al -> isAl al -> wfFrame al src -> matches src vi -> transposeCreate vi = Ok vi' ->
  addressable al (vi_fmt vi) (vi_w vi) (vi_h vi) -> addressable al (vi_fmt vi') (vi_w vi') (vi_h vi') ->
  exists r r' c, transposeGetFrame al g sse Turn90 vi' src = Ok r /\ transposeGetFrame al g' sse' Turn90 vi r = Ok r' /\
    flipHGetFrame al g'' true src = Ok c /\ sameFrame r' c.
Proof. exact turn90_twice_180. Qed.
Print Assumptions C30_turn90_twice_is_turn180.

Theorem C30_turn90_four_times : forall al g1 g2 g3 g4 s1 s2 s3 s4 vi vi' src,
  alignment al -> wfFrame al src -> matches src vi -> transposeCreate vi = Ok vi' ->
  addressable al (vi_fmt vi) (vi_w vi) (vi_h vi) -> addressable al (vi_fmt vi') (vi_w vi') (vi_h vi') ->
  exists a b c d, transposeGetFrame al g1 s1 Turn90 vi' src = Ok a /\ transposeGetFrame al g2 s2 Turn90 vi a = Ok b /\
    transposeGetFrame al g3 s3 Turn90 vi' b = Ok c /\ transposeGetFrame al g4 s4 Turn90 vi c = Ok d /\
    sameFrame src d /\ vf_props d = vf_props src.
Proof. exact turn90_four. Qed.
Print Assumptions C30_turn90_four_times.

Theorem C30_turns_by_flips : forall al g g' g'' sse sse' vi vi' src,
  alignment al -> isAl al -> wfFrame al src -> matches src vi -> transposeCreate vi = Ok vi' ->
  addressable al (vi_fmt vi) (vi_w vi) (vi_h vi) -> addressable al (vi_fmt vi') (vi_w vi') (vi_h vi') ->
  exists t l r h v, transposeGetFrame al g sse Transpose vi' src = Ok t /\
    transposeGetFrame al g' sse' Turn90 vi' src = Ok r /\ transposeGetFrame al g' sse' Turn270 vi' src = Ok l /\
    flipHGetFrame al g'' false t = Ok h /\ flipVGetFrame al g'' t = Ok v /\ sameFrame r h /\ sameFrame l v.
Proof. exact turn_by_flip. Qed.
Print Assumptions C30_turns_by_flips.

(** ** C31 stacks *)
Theorem C31_stack_vertical : forall al g v rest vi srcs, isAl al ->
  Forall (fun x => fmt_valid (vi_fmt x)) (v :: rest) -> 1 <= vi_w v -> 1 <= vi_h v ->
  stackCreate true (v :: rest) = Ok vi ->
  Forall2 matches srcs (v :: rest) -> Forall (wfFrame al) srcs ->
  Forall (fun x => (2 ^ f_ssh (vi_fmt v) | vi_h x)) (v :: rest) ->
  exists r, stackGetFrame al g true vi srcs = Ok r /\ wfFrame al r /\
    vf_fmt r = vi_fmt v /\ vf_w r = vi_w v /\ vf_h r = sumL (map vi_h (v :: rest)) /\
    stackedFrames stackedV srcs r.
Proof. exact stackV_frame. Qed.
Print Assumptions C31_stack_vertical.

Theorem C31_stack_horizontal : forall al g v rest vi srcs, isAl al ->
  Forall (fun x => fmt_valid (vi_fmt x)) (v :: rest) -> 1 <= vi_w v -> 1 <= vi_h v ->
  stackCreate false (v :: rest) = Ok vi ->
  Forall2 matches srcs (v :: rest) -> Forall (wfFrame al) srcs ->
  Forall (fun x => (2 ^ f_ssw (vi_fmt v) | vi_w x)) (v :: rest) ->
  exists r, stackGetFrame al g false vi srcs = Ok r /\ wfFrame al r /\
    vf_fmt r = vi_fmt v /\ vf_w r = sumL (map vi_w (v :: rest)) /\ vf_h r = vi_h v /\
    stackedFrames stackedH srcs r.
Proof. exact stackH_frame. Qed.
Print Assumptions C31_stack_horizontal.
Example C31_stack_ex :
  let v := mkVI gray8 6 5 1 in
  let st b := obind (stackCreate b [v; v; v]) (fun vi => stackGetFrame 32 junk b vi [pic; pic; pic]) in
  sampleOf (st true) 0 5 12 = Ok 25 /\ sampleOf (st false) 0 16 3 = Ok 34.
Proof. vm_compute; auto. Qed.

(** The divisibility premise is needed; node creation does not enforce it. *)
Theorem C31_odd_rows_left_over : stackCreate true [mkVI yuv420p8 2 3 1; mkVI yuv420p8 2 3 1] = Ok (mkVI yuv420p8 2 6 1) /\
  sampleOf (oddStack 99) 1 0 1 = Ok 8 /\ sampleOf (oddStack 99) 1 0 2 = Ok 99 /\ sampleOf (oddStack 100) 1 0 2 = Ok 100.
Proof. exact stack_odd_rows. Qed.
Print Assumptions C31_odd_rows_left_over.

(** ** C32 fields *)
Theorem C32_separate_fields : forall al g tff vi vo n src, isAl al -> wfFrame al src ->
  vi_fmt vi = vf_fmt src -> vi_w vi = vf_w src -> vi_h vi = vf_h src -> separateCreate vi = Ok vo ->
  let eff := effectiveTFF tff (vf_props src) in eff = 0 \/ eff = 1 ->
  exists r, separateGetFrame al g tff vo n src = Ok r /\ wfFrame al r /\
    vf_fmt r = vf_fmt src /\ vf_w r = vf_w src /\ vf_h r = vf_h src / 2 /\
    vf_props r = delProp fieldBased (setProp fieldProp ((n + eff) mod 2) (vf_props src)) /\
    planesMap (fun _ => fieldOf ((n + eff) mod 2)) src r.
Proof. exact separate_frame. Qed.
Print Assumptions C32_separate_fields.
Example C32_separate_fields_ex :
  let vo := mkVI yuv420p8 8 4 2 in
  separateCreate (mkVI yuv420p8 8 8 1) = Ok vo /\
  sampleOf (separateGetFrame 32 junk 1 vo 0 pic420) 1 2 1 = Ok 82 /\
  sampleOf (separateGetFrame 32 junk 1 vo 1 pic420) 1 2 1 = Ok 90 /\
  separateGetFrame 32 junk (-1) vo 0 pic420 = Err.
Proof. vm_compute; auto. Qed.

Theorem C32_field_order : forall tff p,
  (p fieldBased = Some 1 -> effectiveTFF tff p = 0) /\ (p fieldBased = Some 2 -> effectiveTFF tff p = 1) /\
  (p fieldBased <> Some 1 -> p fieldBased <> Some 2 -> effectiveTFF tff p = tff).
Proof. exact effective_order. Qed.
Print Assumptions C32_field_order.
Example C32_field_order_ex : effectiveTFF (-1) (setProp fieldBased 2 (fun _ => None)) = 1 /\ effectiveTFF 1 (setProp fieldBased 0 (fun _ => None)) = 1.
Proof. vm_compute; auto. Qed.

Theorem C32_separated_clip : forall vi vo, fmt_valid (vi_fmt vi) -> separateCreate vi = Ok vo ->
  1 <= vi_h vi /\ 1 <= vi_w vi /\ (2 ^ (f_ssh (vi_fmt vi) + 1) | vi_h vi) /\ vi_n vi * 2 <= INT_MAX /\
  vo = mkVI (vi_fmt vi) (vi_w vi) (vi_h vi / 2) (2 * vi_n vi).
Proof. exact separateCreate_inv. Qed.
Print Assumptions C32_separated_clip.

Theorem C32_weave : forall al g tff vi vo n s1 s2 first, isAl al -> wfFrame al s1 -> wfFrame al s2 ->
  vf_fmt s1 = vi_fmt vi -> vf_w s1 = vi_w vi -> vf_h s1 = vi_h vi ->
  vf_fmt s2 = vi_fmt vi -> vf_w s2 = vi_w vi -> vf_h s2 = vi_h vi ->
  (2 ^ f_ssh (vi_fmt vi) | vi_h vi) ->
  weaveCreate vi = Ok vo -> weaveOrder tff n (vf_props s1) (vf_props s2) = Ok first ->
  exists r, weaveGetFrame al g tff vo n s1 s2 = Ok r /\ wfFrame al r /\
    vf_fmt r = vi_fmt vi /\ vf_w r = vi_w vi /\ vf_h r = 2 * vi_h vi /\
    vf_props r = setProp fieldBased (if first then 2 else 1) (delProp fieldProp (vf_props s1)) /\
    woven (if first then s1 else s2) (if first then s2 else s1) r.
Proof. exact weave_frame. Qed.
Print Assumptions C32_weave.

Theorem C32_weave_undoes_separate : forall al g1 g2 g3 tff tff' vi vs vw k src, isAl al -> wfFrame al src ->
  vi_fmt vi = vf_fmt src -> vi_w vi = vf_w src -> vi_h vi = vf_h src -> in_int (vi_h vi) ->
  separateCreate vi = Ok vs -> (tff = -1 \/ tff = 0 \/ tff = 1) ->
  let eff := effectiveTFF tff (vf_props src) in eff <> -1 ->
  weaveCreate vs = Ok vw ->
  exists f1 f2 r,
    separateGetFrame al g1 tff vs (2 * k) src = Ok f1 /\
    separateGetFrame al g2 tff vs (2 * k + 1) src = Ok f2 /\
    weaveGetFrame al g3 tff' vw (2 * k) f1 f2 = Ok r /\
    sameFrame src r /\
    vf_props r fieldBased = Some (1 + eff) /\ vf_props r fieldProp = None /\
    (forall key, key <> fieldBased -> key <> fieldProp -> vf_props r key = vf_props src key).
Proof. exact separate_weave. Qed.
Print Assumptions C32_weave_undoes_separate.
Example C32_weave_undoes_separate_ex :
  let vs := mkVI yuv420p8 8 4 2 in
  let f n := separateGetFrame 32 junk 0 vs n pic420 in
  let r := obind (f 0) (fun a => obind (f 1) (fun b => weaveGetFrame 32 junk (-1) (mkVI yuv420p8 8 8 2) 0 a b)) in
  sampleOf r 2 3 1 = sampleOf (Ok pic420) 2 3 1 /\
  obind r (fun fr => Ok (vf_props fr fieldBased)) = Ok (Some 1).
Proof. vm_compute; auto. Qed.

(** The last frame of DoubleWeave pairs the last field with itself, which is an error when
    the order is taken from the properties. *)
Theorem C32_last_weave_frame : forall n p, weaveOrder (-1) n p p = Err.
Proof. exact weave_last. Qed.
Print Assumptions C32_last_weave_frame.

(** ** C33 plane selection *)
Theorem C33_shuffle_planes_partial : forall al clips planes family d frames ps, isAl al ->
  Forall (fun v => fmt_valid (vi_fmt v)) clips -> clips <> [] ->
  shuffleCreate clips planes family = Ok d -> f_np (vi_fmt (sd_vi d)) <> 0 ->
  1 <= vi_w (sd_vi d) -> 1 <= vi_h (sd_vi d) ->
  Forall2 matches frames clips -> Forall (wfFrame al) frames ->
  exists r, shuffleGetFrame d frames ps = Ok r /\ wfFrame al r /\ matches r (sd_vi d) /\ vf_props r = vf_props ps /\
    forall i, 0 <= i < f_np (vf_fmt r) -> exists fr,
      nthz frames (wantedClip (zlength clips) i) = Some fr /\
      planeImg r i = planeImg fr (wantedPlane planes i) /\ planeImg r i <> None.
Proof. exact shuffle_frame. Qed.
Print Assumptions C33_shuffle_planes_partial.
Example C33_shuffle_planes_ex :
  let v := mkVI yuv420p8 8 8 1 in
  let r := obind (shuffleCreate [v] [0; 2; 1] cfYUV) (fun d => shuffleGetFrame d [pic420] pic420) in
  sampleOf r 1 2 1 = sampleOf (Ok pic420) 2 2 1 /\ sampleOf r 2 2 1 = sampleOf (Ok pic420) 1 2 1.
Proof. vm_compute; auto. Qed.

Theorem C33_sizes_partial : forall clips planes family d, Forall (fun v => fmt_valid (vi_fmt v)) clips -> clips <> [] ->
  shuffleCreate clips planes family = Ok d -> f_np (vi_fmt (sd_vi d)) <> 0 ->
  fmt_valid (vi_fmt (sd_vi d)) /\ familyArg (sat32 family) = Some (f_cf (vi_fmt (sd_vi d))) /\
  forall i, 0 <= i < f_np (vi_fmt (sd_vi d)) -> fed clips planes d i.
Proof. exact shuffle_inv. Qed.
Print Assumptions C33_sizes_partial.

Theorem C33_split_then_join : forall al vi, isAl al -> fmt_valid (vi_fmt vi) -> 1 <= vi_w vi -> 1 <= vi_h vi ->
  f_np (vi_fmt vi) <> 1 -> (2 ^ f_ssw (vi_fmt vi) | vi_w vi) -> (2 ^ f_ssh (vi_fmt vi) | vi_h vi) ->
  exists ds dj, splitCreate vi = Ok (Some ds) /\
    shuffleCreate (map sd_vi ds) [0; 0; 0] (f_cf (vi_fmt vi)) = Ok dj /\ sd_vi dj = vi /\
    forall src, wfFrame al src -> matches src vi -> exists parts r,
      Forall2 (fun d part => shuffleGetFrame d [src] src = Ok part) ds parts /\
      (forall first, nthz parts 0 = Some first -> shuffleGetFrame dj parts first = Ok r) /\
      sameFrame src r /\ vf_props r = vf_props src /\ wfFrame al r.
Proof. exact split_join. Qed.
Print Assumptions C33_split_then_join.

Theorem C33_ratio_32_refuted : exists clips planes family d, Forall (fun v => fmt_valid (vi_fmt v)) clips /\
  shuffleCreate clips planes family = Ok d /\
  f_cf (vi_fmt (sd_vi d)) = cfUndefined /\ f_np (vi_fmt (sd_vi d)) = 0.
Proof.
  destruct ratio32 as (d & A & B & C). exists [bigGray; smallGray; smallGray], [0; 0; 0], cfYUV, d.
  split; [|split; [exact A | split; [exact B | exact C]]]. exact ratio32_clips_valid.
Qed.
Print Assumptions C33_ratio_32_refuted.

(** ** C74 the SSE2 transposition kernels *)
Theorem C74_transpose_kernels_agree : forall al g g' mode vi vi' src, alignment al -> wfFrame al src -> matches src vi ->
  transposeCreate vi = Ok vi' ->
  addressable al (vi_fmt vi) (vi_w vi) (vi_h vi) -> addressable al (vi_fmt vi') (vi_w vi') (vi_h vi') ->
  exists r r', transposeGetFrame al g true mode vi' src = Ok r /\ transposeGetFrame al g' false mode vi' src = Ok r' /\
    sameFrame r r' /\ vf_props r = vf_props r'.
Proof. exact kernels_agree. Qed.
Print Assumptions C74_transpose_kernels_agree.
Example C74_transpose_kernels_ex :
  let big := drawn 32 gray8 20 18 (fun _ x y => 7 * x + 3 * y) in
  let t sse := transposeGetFrame 32 junk sse Turn90 (mkVI gray8 18 20 1) big in
  sampleOf (t true) 0 3 17 = Ok 161 /\ sampleOf (t true) 0 17 19 = sampleOf (t false) 0 17 19.
Proof. vm_compute; auto. Qed.
