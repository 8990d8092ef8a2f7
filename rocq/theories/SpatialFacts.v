(** Consequences for whole frames: the group of flips and turns, round trips, and the
    calls that the geometric filters do not survive. *)
From Coq Require Import String.
From Coq Require Import ZArith List Lia Bool.
From Verif Require Import Common FormatSpec Format FormatLemmas FrameSpec Frame FrameLemmas FrameGeom FrameFacts ImageSpec PlaneMem Spatial
  SpatialLemmas SpatialFrames SpatialFields SpatialStack SpatialShuffle Transpose TransposeLemmas TransposeFrames.
Import ListNotations.
Open Scope Z_scope.

(** ** Frames for examples *)

(** A frame whose sample (x, y) of plane [i] has the low byte [v i x y] and other bytes 0. *)
Definition drawn (al : Z) (f : vfmt) (w h : Z) (v : Z -> Z -> Z -> Z) : vframe :=
  mkVF f w h
       (map (fun i => let s := strideOf al f w i in
              mkPl s (mkB (s * planeH f h i)
                     (fun o => if (o mod s) mod f_bytes f =? 0 then v i ((o mod s) / f_bytes f) (o / s) else 0)))
            (zseq (f_np f))) (fun _ => None).

Lemma drawn_wf : forall al f w h v, fmt_valid f -> 1 <= w -> 1 <= h -> wfFrame al (drawn al f w h v).
Proof.
  intros al f w h v V W H. unfold drawn. split; [exact V|]. split; [exact W|]. split; [exact H|]. cbn [vf_planes vf_fmt vf_w vf_h].
  split.
  - rewrite zlength_map, zlength_zseq. destruct V as (_ & _ & _ & _ & V). lia.
  - intros i p E. rewrite nthz_map in E. destruct (nthz (zseq (f_np f)) i) eqn:N; [|discriminate].
    cbn in E. assert (z = i).
    { pose proof (nthz_range _ _ _ _ N) as RR. rewrite zlength_zseq in RR. rewrite nthz_zseq in N by lia. congruence. }
    subst z. injection E as <-. cbn. auto.
Qed.

Definition sampleOf (o : outcome vframe) (i x y : Z) : outcome Z :=
  obind o (fun fr => match planeImg fr i with Some a => Ok (i_at a x y) | None => UB end).

Definition gray8 : vfmt := mkV cfGray stInteger 8 1 0 0 1.
Definition yuv420p8 : vfmt := mkV cfYUV stInteger 8 1 1 1 3.

(** ** Flips and turns *)

Lemma flipV_twice_frame : forall al g g' src, isAl al -> wfFrame al src -> exists r r',
  flipVGetFrame al g src = Ok r /\ flipVGetFrame al g' r = Ok r' /\ sameFrame src r' /\ vf_props r' = vf_props src.
Proof.
  intros al g g' src A WF. destruct (flipV_frame al g src A WF) as (r & E & W & R1 & R2 & R3 & R4 & R5).
  destruct (flipV_frame al g' r A W) as (r' & E' & W' & S1 & S2 & S3 & S4 & S5).
  exists r, r'. split; [exact E|]. split; [exact E'|]. split; [|congruence].
  apply (sameFrame_of (fun _ x => flipV (flipV x))); try congruence.
  - apply (planesMap_comp (fun _ => flipV) (fun _ => flipV)) with r; auto; [intros; apply flipV_proper | congruence].
  - intros. apply flipV_flipV.
Qed.

Lemma flipH_twice_frame : forall al g g' turn src, isAl al -> wfFrame al src -> exists r r',
  flipHGetFrame al g turn src = Ok r /\ flipHGetFrame al g' turn r = Ok r' /\ sameFrame src r' /\ vf_props r' = vf_props src.
Proof.
  intros al g g' turn src A WF. destruct (flipH_frame al g turn src A WF) as (r & E & W & R1 & R2 & R3 & R4 & R5).
  destruct (flipH_frame al g' turn r A W) as (r' & E' & W' & S1 & S2 & S3 & S4 & S5).
  exists r, r'. split; [exact E|]. split; [exact E'|]. split; [|congruence].
  set (R := if turn then rot180 else flipH) in *.
  apply (sameFrame_of (fun _ x => R (R x))); try congruence.
  - apply (planesMap_comp (fun _ => R) (fun _ => R)) with r; auto; [|congruence].
    intros _. subst R. destruct turn; [apply rot180_proper | apply flipH_proper].
  - intros. subst R. destruct turn; [apply rot180_rot180 | apply flipH_flipH].
Qed.

(** Two results obtained along different ways are the same frame. *)
Lemma same_sym : forall a b, same a b -> same b a.
Proof. intros a b (X & Y & Z). split; [auto|]. split; [auto|]. intros x y U V. symmetry. apply Z; lia. Qed.

Lemma same_trans : forall a b c, same a b -> same b c -> same a c.
Proof.
  intros a b c (X & Y & Z) (X' & Y' & Z'). split; [congruence|]. split; [congruence|].
  intros x y U V. rewrite Z by lia. apply Z'; lia.
Qed.

Lemma sameFrame_meet : forall (R S : Z -> image -> image) src a b,
  vf_fmt a = vf_fmt b -> vf_w a = vf_w b -> vf_h a = vf_h b ->
  planesMap R src a -> planesMap S src b -> (forall i x, same (R i x) (S i x)) -> sameFrame a b.
Proof.
  intros R S src a b F W H PA PB RS. split; [exact F|]. split; [exact W|]. split; [exact H|].
  intros i I. destruct (PA i) as (x & y & E1 & E2 & E3); [rewrite F; exact I|].
  destruct (PB i I) as (x' & y' & G1 & G2 & G3). assert (x' = x) by congruence. subst x'.
  exists y, y'. split; [exact E2|]. split; [exact G2|].
  apply same_trans with (S i x); [exact G3|]. apply same_trans with (R i x); [|apply same_sym; exact E3].
  apply same_sym. apply RS.
Qed.

Lemma turn180_is_flips : forall al g g' g'' src, isAl al -> wfFrame al src -> exists a b c,
  flipHGetFrame al g false src = Ok a /\ flipVGetFrame al g' a = Ok b /\ flipHGetFrame al g'' true src = Ok c /\
  sameFrame b c.
Proof.
  intros al g g' g'' src A WF. destruct (flipH_frame al g false src A WF) as (r & E & W & R1 & R2 & R3 & R4 & R5).
  destruct (flipV_frame al g' r A W) as (r' & E' & W' & S1 & S2 & S3 & S4 & S5).
  destruct (flipH_frame al g'' true src A WF) as (r'' & E'' & W'' & T1 & T2 & T3 & T4 & T5).
  exists r, r', r''. split; [exact E|]. split; [exact E'|]. split; [exact E''|].
  apply (sameFrame_meet (fun _ x => flipV (flipH x)) (fun _ => rot180) src); try congruence; auto.
  - apply (planesMap_comp (fun _ => flipH) (fun _ => flipV)) with r; auto; [intros; apply flipV_proper | congruence].
  - intros. apply same_sym, rot180_flips.
Qed.

(** The inverse of each mode. *)
Definition undo (m : tmode) : tmode := match m with Transpose => Transpose | Turn90 => Turn270 | Turn270 => Turn90 end.

Lemma turn_undone : forall al g g' sse sse' m vi vi' src, alignment al -> wfFrame al src -> matches src vi ->
  transposeCreate vi = Ok vi' ->
  addressable al (vi_fmt vi) (vi_w vi) (vi_h vi) -> addressable al (vi_fmt vi') (vi_w vi') (vi_h vi') ->
  transposeCreate vi' = Ok vi /\
  exists r r', transposeGetFrame al g sse m vi' src = Ok r /\ transposeGetFrame al g' sse' (undo m) vi r = Ok r' /\
    sameFrame src r' /\ vf_props r' = vf_props src.
Proof.
  intros al g g' sse sse' m vi vi' src A WF M C D D'.
  destruct (two_turns al g g' sse sse' m (undo m) vi vi' src A WF M C D D') as (C' & r & r' & E & E' & W & R1 & R2 & R3 & R4 & R5).
  split; [exact C'|]. exists r, r'. split; [exact E|]. split; [exact E'|]. split; [|exact R4].
  apply (sameFrame_of (fun _ a => turnOf (undo m) (turnOf m a))); auto.
  intros _ x. destruct m; cbn [undo turnOf]; [apply transposed_twice | apply rot270_rot90 | apply rot90_rot270].
Qed.

Lemma turn90_twice_180 : forall al g g' g'' sse sse' vi vi' src, alignment al -> isAl al -> wfFrame al src -> matches src vi ->
  transposeCreate vi = Ok vi' ->
  addressable al (vi_fmt vi) (vi_w vi) (vi_h vi) -> addressable al (vi_fmt vi') (vi_w vi') (vi_h vi') ->
  exists r r' c, transposeGetFrame al g sse Turn90 vi' src = Ok r /\ transposeGetFrame al g' sse' Turn90 vi r = Ok r' /\
    flipHGetFrame al g'' true src = Ok c /\ sameFrame r' c.
Proof.
  intros al g g' g'' sse sse' vi vi' src A A' WF M C D D'.
  destruct (two_turns al g g' sse sse' Turn90 Turn90 vi vi' src A WF M C D D') as (C' & r & r' & E & E' & W & R1 & R2 & R3 & R4 & R5).
  destruct (flipH_frame al g'' true src A' WF) as (c & F & _ & T1 & T2 & T3 & T4 & T5).
  exists r, r', c. split; [exact E|]. split; [exact E'|]. split; [exact F|].
  apply (sameFrame_meet (fun _ a => turnOf Turn90 (turnOf Turn90 a)) (fun _ => rot180) src); try congruence; auto.
  intros _ x. apply rot90_twice.
Qed.

(** Turning four times. *)
Lemma turn90_four : forall al g1 g2 g3 g4 s1 s2 s3 s4 vi vi' src, alignment al -> wfFrame al src -> matches src vi ->
  transposeCreate vi = Ok vi' ->
  addressable al (vi_fmt vi) (vi_w vi) (vi_h vi) -> addressable al (vi_fmt vi') (vi_w vi') (vi_h vi') ->
  exists a b c d, transposeGetFrame al g1 s1 Turn90 vi' src = Ok a /\ transposeGetFrame al g2 s2 Turn90 vi a = Ok b /\
    transposeGetFrame al g3 s3 Turn90 vi' b = Ok c /\ transposeGetFrame al g4 s4 Turn90 vi c = Ok d /\
    sameFrame src d /\ vf_props d = vf_props src.
Proof.
  intros al g1 g2 g3 g4 s1 s2 s3 s4 vi vi' src A WF M C D D'.
  destruct (two_turns al g1 g2 s1 s2 Turn90 Turn90 vi vi' src A WF M C D D') as (C' & a & b & E1 & E2 & W & R1 & R2 & R3 & R4 & R5).
  assert (M' : matches b vi) by (destruct M as (X & Y & Z); split; [congruence|]; split; congruence).
  destruct (two_turns al g3 g4 s3 s4 Turn90 Turn90 vi vi' b A W M' C D D') as (_ & c & d & E3 & E4 & W' & S1 & S2 & S3 & S4 & S5).
  exists a, b, c, d. split; [exact E1|]. split; [exact E2|]. split; [exact E3|]. split; [exact E4|]. split; [|congruence].
  apply (sameFrame_of (fun _ x => turnOf Turn90 (turnOf Turn90 (turnOf Turn90 (turnOf Turn90 x))))); try congruence.
  - apply (planesMap_comp (fun _ x => turnOf Turn90 (turnOf Turn90 x)) (fun _ x => turnOf Turn90 (turnOf Turn90 x))) with b; auto; [|congruence].
    intros _ x y S. apply turn_proper, turn_proper, S.
  - intros _ x. cbn [turnOf]. apply same_trans with (rot180 (rot90 (rot90 x))); [apply rot90_twice|].
    apply same_trans with (rot180 (rot180 x)); [apply rot180_proper, rot90_twice | apply rot180_rot180].
Qed.

(** A turn is a transposition followed by a flip. *)
Lemma turn_by_flip : forall al g g' g'' sse sse' vi vi' src, alignment al -> isAl al -> wfFrame al src -> matches src vi ->
  transposeCreate vi = Ok vi' ->
  addressable al (vi_fmt vi) (vi_w vi) (vi_h vi) -> addressable al (vi_fmt vi') (vi_w vi') (vi_h vi') ->
  exists t l r h v, transposeGetFrame al g sse Transpose vi' src = Ok t /\
    transposeGetFrame al g' sse' Turn90 vi' src = Ok r /\ transposeGetFrame al g' sse' Turn270 vi' src = Ok l /\
    flipHGetFrame al g'' false t = Ok h /\ flipVGetFrame al g'' t = Ok v /\ sameFrame r h /\ sameFrame l v.
Proof.
  intros al g g' g'' sse sse' vi vi' src A A' WF M C D D'.
  destruct (transpose_frame al g sse Transpose vi vi' src A WF M C D D') as (t & Et & Wt & (T1 & T2 & T3) & T4 & T5).
  destruct (transpose_frame al g' sse' Turn90 vi vi' src A WF M C D D') as (r & Er & Wr & (R1 & R2 & R3) & R4 & R5).
  destruct (transpose_frame al g' sse' Turn270 vi vi' src A WF M C D D') as (l & El & Wl & (L1 & L2 & L3) & L4 & L5).
  destruct (flipH_frame al g'' false t A' Wt) as (h & Eh & _ & H1 & H2 & H3 & H4 & H5).
  destruct (flipV_frame al g'' t A' Wt) as (v & Ev & _ & V1 & V2 & V3 & V4 & V5).
  exists t, l, r, h, v. split; [exact Et|]. split; [exact Er|]. split; [exact El|]. split; [exact Eh|]. split; [exact Ev|].
  split.
  - apply (sameFrame_meet (fun _ => rot90) (fun _ x => flipH (transposed x)) src); try congruence; auto.
    + apply (planesMap_comp (fun _ => transposed) (fun _ => flipH)) with t; auto; [intros; apply flipH_proper | congruence].
    + intros. apply rot90_flipH.
  - apply (sameFrame_meet (fun _ => rot270) (fun _ x => flipV (transposed x)) src); try congruence; auto.
    + apply (planesMap_comp (fun _ => transposed) (fun _ => flipV)) with t; auto; [intros; apply flipV_proper | congruence].
    + intros. apply rot270_flipV.
Qed.

(** ** Calls with extreme arguments *)

Definition vga : vinfo := mkVI gray8 640 480 100.

(** [x + width] is computed in int.  With wrapping arithmetic the window is accepted
    although it starts two thousand million samples to the right of the picture. *)
Lemma crop_overflow : cropAbsCreate vga (Some INT_MAX) None None None 640 480 = UB /\
  cropVerifyWrap INT_MAX 0 640 480 (vi_w vga) (vi_h vga) (vi_fmt vga) = false /\
  ~ window (vi_fmt vga) INT_MAX 0 640 480 (vi_w vga) (vi_h vga).
Proof.
  split; [reflexivity|]. split; [reflexivity|].
  intros (_ & _ & _ & _ & X & _). vm_compute in X. apply X. reflexivity.
Qed.

Lemma cropRel_overflow : cropRelCreate vga None None (Some INT_MIN) None = UB.
Proof. reflexivity. Qed.

Lemma borders_overflow : addBordersCreate vga (Some INT_MAX) (Some INT_MAX) None None = UB.
Proof. reflexivity. Qed.

(** DoubleWeave keeps the number of frames; for the last one the second field requested
    is the last field again. *)
Lemma weave_last : forall n p, weaveOrder (-1) n p p = Err.
Proof.
  intros n p. unfold weaveOrder. destruct (p fieldProp) as [z|]; [|reflexivity].
  destruct (Z.eqb_spec z 0) as [->|]; [reflexivity|]. destruct (Z.eqb_spec z 1) as [->|]; reflexivity.
Qed.

(** Heights that are no multiple of the vertical subsampling leave the last chroma row of a
    stack as the allocator gave it: two frames of three rows have one chroma row each, the
    stack of six rows has three. *)
Definition oddStack (junk : Z) : outcome vframe :=
  stackGetFrame 32 (fun _ _ => junk) true (mkVI yuv420p8 2 6 1)
    [drawn 32 yuv420p8 2 3 (fun _ _ _ => 7); drawn 32 yuv420p8 2 3 (fun _ _ _ => 8)].
Lemma stack_odd_rows : stackCreate true [mkVI yuv420p8 2 3 1; mkVI yuv420p8 2 3 1] = Ok (mkVI yuv420p8 2 6 1) /\
  sampleOf (oddStack 99) 1 0 1 = Ok 8 /\ sampleOf (oddStack 99) 1 0 2 = Ok 99 /\ sampleOf (oddStack 100) 1 0 2 = Ok 100.
Proof. vm_compute. auto. Qed.

Lemma gray8_valid : fmt_valid gray8.
Proof.
  unfold gray8, fmt_valid, storage; cbn.
  split; [left; reflexivity|]. split; [left; split; [reflexivity|lia]|].
  split; [split; [left; reflexivity|]; split; [lia|]; intros b [->|[->| ->]] _; lia|].
  split; [right|left; split; reflexivity]. split; [|split; reflexivity]. intro Q; discriminate Q.
Qed.

Lemma ratio32_clips_valid : Forall (fun v => fmt_valid (vi_fmt v)) [bigGray; smallGray; smallGray].
Proof. repeat (constructor; [exact gray8_valid|]). constructor. Qed.
