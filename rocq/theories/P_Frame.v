(** C05, C06 and C07: frames, planes and their memory. *)
From Coq Require Import ZArith List Lia.
From Verif Require Import Common Sums Memory MemoryLemmas FormatSpec FrameSpec Frame FrameLemmas FrameGeom FrameOps FrameSim FrameFacts.
Import ListNotations.
Open Scope Z_scope.

Theorem C05_frames_own_their_planes : forall al limit rng l, alignment al -> sallowed al sinit l ->
  fst (run al (finit limit rng) l) = fst (srun sinit l) /\
  match snd (run al (finit limit rng) l) with
  | Finished _ => snd (srun sinit l) = true
  | Fatal => snd (srun sinit l) = false
  | Undefined => False
  end.
Proof. exact frames_refine. Qed.
Print Assumptions C05_frames_own_their_planes.

Theorem C05_write_is_local : forall s g plane off v s' b, sstep s (OWrite g plane off v) = Some (s', b) ->
  forall h fr, s_frames s h = Some fr -> exists fr', s_frames s' h = Some fr' /\ sf_kind fr' = sf_kind fr /\
    forall i x, sf_cont fr' i x = if (Nat.eqb h g && (i =? plane) && (x =? off))%bool then Some v else sf_cont fr i x.
Proof. exact spec_write_local. Qed.
Print Assumptions C05_write_is_local.

Definition ex_ops : list op :=
  [ONewVideo yuv420 64 32; OWrite 0 1 7 3; OCopy 0; OWrite 1 1 7 5; ORead 0 1 7; ORead 1 1 7; ORead 1 2 0;
   ONewVideo2 yuv420 64 32 [None; Some (1%nat, 1); Some (0%nat, 1)]; OWrite 2 2 7 9; ORead 2 1 7; ORead 0 1 7; ORead 2 2 7;
   OFree 1; ORead 2 1 7; OFree 0; OFree 2; OCoreFree].

Example C05_frames_own_their_planes_ex :
  sallowed 32 sinit ex_ops /\
  fst (srun sinit ex_ops) =
    [RHandle 0; RNone; RHandle 1; RNone; RByte (Some 3); RByte (Some 5); RByte None;
     RHandle 2; RNone; RByte (Some 5); RByte (Some 3); RByte (Some 9); RNone; RByte (Some 5); RNone; RNone; RNone] /\
  fst (run 32 (finit 1000000 []) ex_ops) = fst (srun sinit ex_ops).
Proof.
  split; [|split; vm_compute; reflexivity].
  assert (P : forall i, 0 <= i < 3 -> 0 <= 7 < planeBytes 32 (Video yuv420 64 32) i /\ 0 <= 0 < planeBytes 32 (Video yuv420 64 32) i).
  { intros i Hi. assert (i = 0 \/ i = 1 \/ i = 2) as [->|[->| ->]] by lia; vm_compute; repeat split; congruence. }
  assert (R : forall s g fr i off, s_frames s g = Some fr -> sf_kind fr = Video yuv420 64 32 -> 0 <= i < 3 -> off = 7 \/ off = 0 -> inRange 32 s g i off).
  { intros s g fr i off H1 H2 H3 H4. exists fr. rewrite H2. split; [exact H1|]. split; [exact H3|].
    destruct H4 as [->| ->]; apply P; exact H3. }
  assert (St : forall s o r s' b, allowed 32 s o -> sstep s o = Some (s', b) -> sallowed 32 s' r -> sallowed 32 s (o :: r)).
  { intros s o r s' b H1 H2 H3. cbn [sallowed]. rewrite H2. split; assumption. }
  unfold ex_ops.
  repeat match goal with
  | |- sallowed _ _ [] => exact I
  | |- sallowed _ _ (_ :: _) => eapply St; [cbn [allowed]|lazy; reflexivity|]
  | |- inRange _ _ _ _ _ => eapply R; [reflexivity|reflexivity|lia|lia]
  | |- fmt_valid _ => exact yuv420_valid
  | |- Forall _ [] => apply Forall_nil
  | |- Forall _ (_ :: _) => apply Forall_cons
  | |- videoSrcAllowed _ _ None => exact I
  | |- videoSrcAllowed _ _ (Some _) => do 5 eexists; split; reflexivity
  | |- addressable _ _ _ _ => vm_compute; discriminate
  | |- _ /\ _ => split
  | |- _ <> None => discriminate
  | |- _ <= _ => vm_compute; discriminate
  | |- _ = _ => reflexivity
  end.
Qed.

Theorem C05_write_pointer_is_exclusive : forall al limit rng l bs s g i s' p b, alignment al -> Forall op_valid l ->
  run al (finit limit rng) l = (bs, Finished s) -> getWritePtr s g i = Ok (s', Some (p, b)) ->
  exists fr sl, frames s' g = Some fr /\ nth_error (fr_data fr) sl = Some p /\
    forall h fr' j, frames s' h = Some fr' -> nth_error (fr_data fr') j = Some p -> h = g /\ j = sl.
Proof. exact write_pointer_exclusive. Qed.
Print Assumptions C05_write_pointer_is_exclusive.

Theorem C05_kept_write_pointer_refuted : exists s s1 p s2 s3,
  snd (run 32 (finit 1000000 []) [ONewVideo gray8 64 2; OWrite 0 0 5 1]) = Finished s /\
  getWritePtr s 0 0 = Ok (s1, Some (p, 0)) /\
  copyFrame s1 0 = Ok (s2, 1%nat) /\ readByte s2 1 0 5 = Ok (Some 1) /\
  poke s2 p 5 9 = Ok s3 /\ readByte s3 1 0 5 = Ok (Some 9).
Proof. exact stale_write_pointer. Qed.
Print Assumptions C05_kept_write_pointer_refuted.

Theorem C06_planes_live_while_used : forall al limit rng l bs s, alignment al -> Forall op_valid l ->
  run al (finit limit rng) l = (bs, Finished s) ->
  (forall p, planes s p <> None <-> exists g fr, frames s g = Some fr /\ In p (fr_data fr)) /\
  (forall p x, planes s p = Some x -> p_ref x = cntP s p) /\
  (forall b sz, liveB (mm s) b = Some sz -> exists p x, planes s p = Some x /\ p_blk x = b).
Proof. exact plane_lifetime. Qed.
Print Assumptions C06_planes_live_while_used.

Theorem C06_memory_accounting : forall al limit rng l bs s, alignment al -> Forall op_valid l ->
  run al (finit limit rng) l = (bs, Finished s) ->
  m_alloc (mm s) = sumto (nP s) (psz s) /\
  (forall p x, planes s p = Some x -> (p < nP s)%nat /\ p_size x + 64 <= psz s p) /\
  ((forall g, frames s g = None) -> m_alloc (mm s) = 0) /\
  (m_deleted (mm s) = true <-> core s = false /\ m_alloc (mm s) = 0).
Proof. exact memory_accounted. Qed.
Print Assumptions C06_memory_accounting.

Example C06_memory_accounting_ex :
  let used l := match run 32 (finit 1000000 []) l with (_, Finished s) => Some (m_alloc (mm s), m_deleted (mm s)) | _ => None end in
  used [ONewVideo yuv420 64 32] = Some (2048 + 64 + 2 * (512 + 64), false) /\
  used [ONewVideo yuv420 64 32; OCopy 0; OFree 0] = Some (2048 + 64 + 2 * (512 + 64), false) /\
  used [ONewVideo yuv420 64 32; OCopy 0; OFree 0; OWrite 1 0 0 1; OCoreFree] = Some (2048 + 64 + 2 * (512 + 64), false) /\
  used [ONewVideo yuv420 64 32; OCopy 0; OFree 0; OCoreFree; OFree 1] = Some (0, true).
Proof. vm_compute. repeat split; reflexivity. Qed.

Theorem C06_allocation_is_fresh_and_large_enough : forall m size, minv m -> m_deleted m = false -> 0 <= size ->
  exists m' b s, allocate m size = Ok (m', b) /\ minv m' /\ liveB m b = None /\
    live_upd m m' b (Some s) /\ m_alloc m' = m_alloc m + s /\ size + 64 <= s /\
    request_size size s /\ m_deleted m' = false /\ m_cfreed m' = m_cfreed m.
Proof. exact allocate_ok. Qed.
Print Assumptions C06_allocation_is_fresh_and_large_enough.

Theorem C06_release_keeps_the_limit : forall m b s, minv m -> liveB m b = Some s ->
  exists m', deallocate m b = Ok m' /\ minv m' /\ live_upd m m' b None /\
    m_alloc m' = m_alloc m - s /\ m_cfreed m' = m_cfreed m /\
    m_deleted m' = (m_cfreed m && (m_alloc m - s =? 0))%bool /\
    (THRESHOLD < s -> m_alloc m' + m_fsize m' <= m_limit m \/ m_free m' = []).
Proof. exact deallocate_ok. Qed.
Print Assumptions C06_release_keeps_the_limit.

Theorem C06_reuse_is_best_fit : forall m size m' b, minv m -> m_deleted m = false ->
  allocate_from_freelist m size = Some (m', b) ->
  minv m' /\ liveB m b = None /\ (exists s, size <= s /\ s - size <= size / 8 /\
    live_upd m m' b (Some s) /\ m_alloc m' = m_alloc m + s /\ In (s, b) (m_free m) /\
    (forall x, In x (m_free m) -> size <= fst x -> s <= fst x)) /\
  m_deleted m' = false /\ m_cfreed m' = m_cfreed m.
Proof. exact from_freelist_ok. Qed.
Print Assumptions C06_reuse_is_best_fit.

Theorem C07_stride_is_minimal : forall al f w, alignment al -> fmt_valid f -> 0 < w ->
  let ok st row := (al | st) /\ row <= st /\ (forall st', (al | st') -> row <= st' -> st <= st') in
  ok (stride0 al f w) (w * f_bytes f) /\
  ok (stride12 al f w) (getWidth f w 1 * f_bytes f).
Proof. exact stride_minimal. Qed.
Print Assumptions C07_stride_is_minimal.

Example C07_stride_is_minimal_ex :
  stride0 32 yuv420 66 = 96 /\ stride12 32 yuv420 66 = 64 /\ stride0 64 gray16 33 = 128.
Proof. repeat split; vm_compute; reflexivity. Qed.

Theorem C07_pixels_are_inside_the_buffer : forall al limit rng l bs s g fr f w h i p, alignment al -> sallowed al sinit l ->
  run al (finit limit rng) l = (bs, Finished s) -> frames s g = Some fr -> fr_kind fr = Video f w h ->
  nthz (fr_data fr) i = Some p ->
  exists st x, nthz (fr_stride fr) i = Some st /\ planes s p = Some x /\
    forall px py, 0 <= px < getWidth f w i -> 0 <= py < getHeight f h i ->
      0 <= py * st + px * f_bytes f /\ py * st + px * f_bytes f + f_bytes f <= p_size x.
Proof. exact pixel_in_buffer. Qed.
Print Assumptions C07_pixels_are_inside_the_buffer.

Theorem C07_equal_format_equal_stride : forall al limit rng l bs s g g' fr fr' f w h h', alignment al -> sallowed al sinit l ->
  run al (finit limit rng) l = (bs, Finished s) -> frames s g = Some fr -> frames s g' = Some fr' ->
  fr_kind fr = Video f w h -> fr_kind fr' = Video f w h' -> fr_stride fr = fr_stride fr'.
Proof. exact strides_agree. Qed.
Print Assumptions C07_equal_format_equal_stride.

Theorem C07_plane_of_smaller_samples_refuted : exists l bs s s',
  Forall op_valid l /\ run 32 (finit 1000000 []) l = (bs, Finished s) /\
  frames s 1 = Some s' /\ fr_kind s' = Video gray16 64 2 /\
  step 32 s (OWrite 1 0 (1 * strideOf 32 gray16 64 0 + 10 * 2) 7) = UB.
Proof. exact short_plane_shared. Qed.
Print Assumptions C07_plane_of_smaller_samples_refuted.

Theorem C07_long_audio_frame_refuted : exists l bs s fr,
  Forall op_valid l /\ run 32 (finit 1000000 []) l = (bs, Finished s) /\
  frames s 0 = Some fr /\ fr_kind fr = Audio mono16 3073 /\
  step 32 s (OWrite 0 0 (3072 * 2) 7) = UB.
Proof. exact long_audio_frame. Qed.
Print Assumptions C07_long_audio_frame_refuted.
