(** Transpose, Turn90 and Turn270 on frames; how they combine with the flips. *)
From Coq Require Import String.
From Coq Require Import ZArith List Lia Bool.
From Verif Require Import Common FormatSpec Format FormatLemmas FrameSpec Frame FrameLemmas FrameGeom FrameFacts ImageSpec PlaneMem Spatial
  SpatialLemmas SpatialFrames SpatialStack SpatialShuffle Transpose TransposeLemmas.
Import ListNotations.
Open Scope Z_scope.

Definition turnOf (m : tmode) : image -> image :=
  match m with Transpose => transposed | Turn90 => rot90 | Turn270 => rot270 end.

(** The plane sizes are sizes of C objects. *)
Definition addressable (al : Z) (f : vfmt) (w h : Z) : Prop :=
  forall i, strideOf al f w i * planeH f h i <= INT64_MAX.

(** Subsampling exchanged. *)
Definition swapFmt (f : vfmt) : vfmt := mkV (f_cf f) (f_st f) (f_bits f) (f_bytes f) (f_ssh f) (f_ssw f) (f_np f).
Definition turnedVI (v : vinfo) : vinfo := mkVI (swapFmt (vi_fmt v)) (vi_h v) (vi_w v) (vi_n v).

Lemma swapFmt_valid : forall f, fmt_valid f -> fmt_valid (swapFmt f).
Proof. intros f (A & B & C & D & E). unfold swapFmt. split; cbn; [exact A|]. split; [exact B|]. split; [exact C|]. split; [lia | exact E]. Qed.

Lemma turnedVI_twice : forall v, turnedVI (turnedVI v) = v.
Proof. intros [[a b c e f g k] w h n]. reflexivity. Qed.

Lemma transposeCreate_ok : forall v, fmt_valid (vi_fmt v) -> 1 <= vi_w v -> 1 <= vi_h v -> transposeCreate v = Ok (turnedVI v).
Proof.
  intros v V W H. unfold transposeCreate. rewrite constantFormat_intro by (cbn; assumption). cbn [negb].
  pose proof (query_exact _ (swapFmt_valid _ V)) as Q. cbn in Q. unfold queryFmt. rewrite Q. reflexivity.
Qed.

Lemma transposeCreate_inv : forall v r, fmt_valid (vi_fmt v) -> transposeCreate v = Ok r ->
  1 <= vi_w v /\ 1 <= vi_h v /\ r = turnedVI v.
Proof.
  intros v r V E. assert (C : 1 <= vi_w v /\ 1 <= vi_h v).
  { unfold transposeCreate in E. destruct (constantFormat _) eqn:CF; [|discriminate].
    apply constantFormat_inv in CF. cbn in CF. lia. }
  rewrite transposeCreate_ok in E by (tauto || lia). split; [lia|]. split; [lia|]. congruence.
Qed.

Lemma planes_swap : forall f w h i, planeW (swapFmt f) h i = planeH f h i /\ planeH (swapFmt f) w i = planeW f w i.
Proof. intros. unfold planeW, planeH. destruct (i =? 0); split; reflexivity. Qed.

Lemma stride16 : forall al f w i, alignment al -> (16 | strideOf al f w i).
Proof.
  intros al f w i A. apply Z.divide_trans with al.
  - destruct A as [->| ->]; [exists 2 | exists 4]; reflexivity.
  - unfold strideOf. apply ceilTo_bounds. destruct A as [->| ->]; lia.
Qed.

(** The chosen kernel, with C or SSE2 code. *)
Lemma kernel_good : forall sse2 k src s ss dst d ds w h, k = 1 \/ k = 2 \/ k = 4 -> 0 <= w -> 0 <= h ->
  h * k <= Z.abs ds ->
  (forall x, 0 <= x < w -> 0 <= d + x * ds /\ d + x * ds + h * k <= b_size dst) ->
  (forall y, 0 <= y < h -> 0 <= s + y * ss /\ s + y * ss + w * k <= b_size src) ->
  (16 | d) -> (16 | ds) -> (16 | s) -> (16 | ss) -> b_size src <= INT64_MAX -> b_size dst <= INT64_MAX ->
  exists f m, transposeFunc sse2 k = Some f /\ f src s ss dst d ds w h = Ok m /\ b_size m = b_size dst /\
    forall x y b, 0 <= x < w -> 0 <= y < h -> 0 <= b < k ->
      b_data m (d + x * ds + y * k + b) = b_data src (s + y * ss + x * k + b).
Proof.
  intros sse2 k src s ss dst d ds w h K W H AP DI SI D16 DS16 S16 SS16 SZ DZ.
  assert (G : forall bw bh block, 1 <= bw -> 1 <= bh -> (bh | 64 / k) ->
    (forall P m j ii, good k src s ss (b_size dst) d ds w h P m -> 0 <= j -> j + bw <= w -> 0 <= ii -> ii + bh <= h ->
     (bw | j) -> (bh | ii) ->
     exists m', block m (addOff k d (j * ds) + ii * k) ds src (addOff k s (ii * ss) + j * k) ss = Ok m' /\
       good k src s ss (b_size dst) d ds w h (fun x y => P x y \/ (j <= x < j + bw /\ ii <= y < ii + bh)) m') ->
    exists m, transposePlane k bw bh block src s ss dst d ds w h = Ok m /\ b_size m = b_size dst /\
    forall x y b, 0 <= x < w -> 0 <= y < h -> 0 <= b < k ->
      b_data m (d + x * ds + y * k + b) = b_data src (s + y * ss + x * k + b)).
  { intros bw bh block BW BH BD BG.
    destruct (transposePlane_good k src s ss (b_size dst) d ds w h K W H AP DI SI D16 DS16 S16 SS16 SZ DZ bw bh block BW BH BD BG dst eq_refl)
      as (m & E & G1 & G2). exists m. split; [exact E|]. split; [exact G1|]. intros x y b X Y B. apply (G2 x y b X Y B I). }
  unfold transposeFunc. destruct K as [->|[->| ->]].
  - change (1 =? 1) with true. cbv iota. destruct sse2; eexists.
    + destruct (G 16 8 blockByte) as (m & E & R); [lia | lia | exists 8; reflexivity | |].
      * apply (blockByte_good 1 src s ss (b_size dst) d ds w h); auto.
      * exists m. split; [reflexivity|]. split; [exact E | exact R].
    + destruct (G 1 1 (blockC 1)) as (m & E & R); [lia | lia | apply Z.divide_1_l | |].
      * apply (blockC_good 1 src s ss (b_size dst) d ds w h); auto.
      * exists m. split; [reflexivity|]. split; [exact E | exact R].
  - change (2 =? 1) with false. change (2 =? 2) with true. cbv iota. destruct sse2; eexists.
    + destruct (G 8 8 blockWord) as (m & E & R); [lia | lia | exists 4; reflexivity | |].
      * apply (blockWord_good 2 src s ss (b_size dst) d ds w h); auto.
      * exists m. split; [reflexivity|]. split; [exact E | exact R].
    + destruct (G 1 1 (blockC 2)) as (m & E & R); [lia | lia | apply Z.divide_1_l | |].
      * apply (blockC_good 2 src s ss (b_size dst) d ds w h); auto.
      * exists m. split; [reflexivity|]. split; [exact E | exact R].
  - change (4 =? 1) with false. change (4 =? 2) with false. change (4 =? 4) with true. cbv iota. destruct sse2; eexists.
    + destruct (G 4 4 blockDword) as (m & E & R); [lia | lia | exists 4; reflexivity | |].
      * apply (blockDword_good 4 src s ss (b_size dst) d ds w h); auto.
      * exists m. split; [reflexivity|]. split; [exact E | exact R].
    + destruct (G 1 1 (blockC 4)) as (m & E & R); [lia | lia | apply Z.divide_1_l | |].
      * apply (blockC_good 4 src s ss (b_size dst) d ds w h); auto.
      * exists m. split; [reflexivity|]. split; [exact E | exact R].
Qed.

Lemma mul16 : forall a b, (16 | a) -> (16 | a * b).
Proof. intros. apply Z.divide_mul_l. assumption. Qed.

Lemma transposeOne_spec : forall sse2 mode k w h p q, k = 1 \/ k = 2 \/ k = 4 ->
  wfPlane k p w h -> wfPlane k q h w -> (16 | p_stride p) -> (16 | p_stride q) ->
  b_size (p_buf p) <= INT64_MAX -> b_size (p_buf q) <= INT64_MAX ->
  exists b, transposeOne sse2 mode k w h p q = Ok b /\ b_size b = b_size (p_buf q) /\
    same (imageOf k (mkPl (p_stride q) b) h w) (turnOf mode (imageOf k p w h)).
Proof.
  intros sse2 mode k w h p q K (W & H & PW & PS) (_ & _ & QW & QS) DP DQ SP SQ.
  assert (S0 : 0 <= p_stride p) by nia. assert (Q0 : 0 <= p_stride q) by nia.
  remember (p_stride p) as sp eqn:SPE. remember (p_stride q) as sq eqn:SQE.
  unfold transposeOne. rewrite <- SPE, <- SQE.
  destruct (kernel_good sse2 k (p_buf p)
     (match mode with Turn90 => sp * (h - 1) | _ => 0 end)
     (match mode with Turn90 => - sp | _ => sp end) (p_buf q)
     (match mode with Turn270 => sq * (w - 1) | _ => 0 end)
     (match mode with Turn270 => - sq | _ => sq end) w h K W H) as (f & m & EF & E & M1 & M2).
  - destruct mode; lia.
  - intros x X. rewrite QS. destruct mode; split; nia.
  - intros y Y. rewrite PS. destruct mode; split; nia.
  - destruct mode; try apply Z.divide_0_r. apply mul16. exact DQ.
  - destruct mode; try exact DQ. apply Z.divide_opp_r. exact DQ.
  - destruct mode; try apply Z.divide_0_r. apply mul16. exact DP.
  - destruct mode; try exact DP. apply Z.divide_opp_r. exact DP.
  - exact SP.
  - exact SQ.
  - rewrite EF. cbv zeta. exists m. split; [exact E|]. split; [exact M1|].
    destruct mode; (split; [reflexivity|]); (split; [reflexivity|]);
      cbn [turnOf transposed rot90 rot270 imageOf i_w i_h i_at p_stride p_buf];
      intros u v U V; (apply sample_ext; [lia|]); intros j J; rewrite <- ?SPE.
    + replace (v * sq + u * k + j) with (0 + v * sq + u * k + j) by ring. rewrite M2 by lia. f_equal; ring.
    + replace (v * sq + u * k + j) with (0 + v * sq + u * k + j) by ring. rewrite M2 by lia. f_equal; ring.
    + replace (v * sq + u * k + j) with (sq * (w - 1) + (w - 1 - v) * - sq + u * k + j) by ring.
      rewrite M2 by lia. f_equal; ring.
Qed.

Lemma transpose_frame : forall al g sse2 mode vi vi' src, alignment al -> wfFrame al src -> matches src vi ->
  transposeCreate vi = Ok vi' ->
  addressable al (vi_fmt vi) (vi_w vi) (vi_h vi) -> addressable al (vi_fmt vi') (vi_w vi') (vi_h vi') ->
  exists r, transposeGetFrame al g sse2 mode vi' src = Ok r /\ wfFrame al r /\ matches r vi' /\
    vf_props r = vf_props src /\ planesMap (fun _ => turnOf mode) src r.
Proof.
  intros al g sse2 mode vi vi' src A WS (M1 & M2 & M3) C AD AD'.
  pose proof (alignment_isAl _ A) as IA. pose proof WS as (V & W & H & _).
  rewrite M1 in V. destruct (transposeCreate_inv vi vi' V C) as (CW & CH & ->).
  unfold transposeGetFrame. cbn [turnedVI vi_fmt vi_w vi_h] in *.
  destruct (newFrame_spec al g (swapFmt (vi_fmt vi)) (vi_h vi) (vi_w vi) (vf_props src) IA (swapFmt_valid _ V) CH CW)
    as (dst & En & WD & F1 & F2 & F3 & F4).
  rewrite En. cbn [obind].
  destruct (onPlanes_spec al src dst (fun i p q =>
      transposeOne sse2 mode (f_bytes (swapFmt (vi_fmt vi))) (getWidth (vf_fmt src) (vf_w src) i) (getHeight (vf_fmt src) (vf_h src) i) p q)
      (fun _ => turnOf mode) IA WS WD) as (r & Er & WR & R1 & R2 & R3 & R4 & R5).
  - rewrite F1, M1. reflexivity.
  - rewrite F1, M1. reflexivity.
  - intros i p q I Wp Wq Sp Sq. rewrite M1, M2, M3, F1, F2, F3 in *.
    destruct (planes_swap (vi_fmt vi) (vi_w vi) (vi_h vi) i) as (PS1 & PS2). rewrite PS1, PS2 in *.
    rewrite getWidth_planeW, getHeight_planeH by exact V. cbn [swapFmt f_bytes].
    apply transposeOne_spec; [apply bytes_cases; exact V | exact Wp | exact Wq | | | |].
    + rewrite Sp. apply stride16. exact A.
    + rewrite Sq. apply stride16. exact A.
    + destruct Wp as (_ & _ & _ & B). rewrite B, Sp. apply AD.
    + destruct Wq as (_ & _ & _ & B). rewrite B, Sq. specialize (AD' i). rewrite PS2 in AD'. exact AD'.
  - exists r. rewrite M1 in Er. split; [rewrite M1; exact Er|]. split; [exact WR|].
    split; [split; [cbn; congruence | split; cbn; congruence]|]. split; [congruence | exact R5].
Qed.

(** ** Two turns *)

Lemma turn_proper : forall m, proper (turnOf m).
Proof. intros []; [apply transposed_proper | apply rot90_proper | apply rot270_proper]. Qed.

(** Two turns in a row restore the geometry; the pictures are turned twice. *)
Lemma two_turns : forall al g g' sse sse' m m' vi vi' src, alignment al -> wfFrame al src -> matches src vi ->
  transposeCreate vi = Ok vi' ->
  addressable al (vi_fmt vi) (vi_w vi) (vi_h vi) -> addressable al (vi_fmt vi') (vi_w vi') (vi_h vi') ->
  transposeCreate vi' = Ok vi /\
  exists r r', transposeGetFrame al g sse m vi' src = Ok r /\ transposeGetFrame al g' sse' m' vi r = Ok r' /\
    wfFrame al r' /\ vf_fmt r' = vf_fmt src /\ vf_w r' = vf_w src /\ vf_h r' = vf_h src /\ vf_props r' = vf_props src /\
    planesMap (fun _ a => turnOf m' (turnOf m a)) src r'.
Proof.
  intros al g g' sse sse' m m' vi vi' src A WS M C AD AD'.
  destruct (transpose_frame al g sse m vi vi' src A WS M C AD AD') as (r & Er & WR & MR & PR & IR).
  pose proof WS as (V & W & H & _). pose proof M as (M1 & M2 & M3). rewrite M1 in V.
  destruct (transposeCreate_inv vi vi' V C) as (CW & CH & E').
  assert (C' : transposeCreate vi' = Ok vi).
  { rewrite E', transposeCreate_ok; [rewrite turnedVI_twice; reflexivity | apply swapFmt_valid; exact V | exact CH | exact CW]. }
  split; [exact C'|].
  destruct (transpose_frame al g' sse' m' vi' vi r A WR MR C' AD' AD) as (r' & Er' & WR' & MR' & PR' & IR').
  exists r, r'. split; [exact Er|]. split; [exact Er'|]. split; [exact WR'|].
  destruct MR' as (N1 & N2 & N3). destruct MR as (Q1 & _).
  split; [congruence|]. split; [congruence|]. split; [congruence|]. split; [congruence|].
  apply (planesMap_comp (fun _ => turnOf m) (fun _ => turnOf m') src r r'); auto.
  - intros; apply turn_proper.
  - rewrite Q1, N1, E'. reflexivity.
Qed.

(** The kernels compiled for SSE2 and the portable ones give the same picture. *)
Lemma kernels_agree : forall al g g' mode vi vi' src, alignment al -> wfFrame al src -> matches src vi ->
  transposeCreate vi = Ok vi' ->
  addressable al (vi_fmt vi) (vi_w vi) (vi_h vi) -> addressable al (vi_fmt vi') (vi_w vi') (vi_h vi') ->
  exists r r', transposeGetFrame al g true mode vi' src = Ok r /\ transposeGetFrame al g' false mode vi' src = Ok r' /\
    sameFrame r r' /\ vf_props r = vf_props r'.
Proof.
  intros al g g' mode vi vi' src A WS M C AD AD'.
  destruct (transpose_frame al g true mode vi vi' src A WS M C AD AD') as (r & Er & WR & (M1 & M2 & M3) & PR & IR).
  destruct (transpose_frame al g' false mode vi vi' src A WS M C AD AD') as (r' & Er' & WR' & (M1' & M2' & M3') & PR' & IR').
  exists r, r'. split; [exact Er|]. split; [exact Er'|]. split; [|congruence].
  split; [congruence|]. split; [congruence|]. split; [congruence|].
  intros i I. destruct (IR' i I) as (a & b & Ha & Hb & S). destruct (IR i ltac:(rewrite M1 in *; rewrite M1' in I; exact I)) as (a2 & b2 & Ha2 & Hb2 & S2).
  rewrite Ha in Ha2. injection Ha2 as <-. exists b2, b. split; [exact Hb2|]. split; [exact Hb|].
  apply (same_trans _ _ _ S). apply same_sym. exact S2.
Qed.

Lemma sameFrame_of : forall (R : Z -> image -> image) a b, vf_fmt b = vf_fmt a -> vf_w b = vf_w a -> vf_h b = vf_h a ->
  planesMap R a b -> (forall i x, same (R i x) x) -> sameFrame a b.
Proof.
  intros R a b F W H P E. split; [congruence|]. split; [congruence|]. split; [congruence|].
  eapply planesMap_weaken; [|exact P]. intros i x _. apply E.
Qed.
