(** Consequences of the frame model, in the form the properties are stated. *)
From Coq Require Import ZArith List Lia Bool.
From Verif Require Import Common Sums Memory MemoryLemmas FormatSpec FrameSpec Frame FrameLemmas FrameGeom FrameOps FrameSim.
Import ListNotations.
Open Scope Z_scope.

(** VSFrame::alignment: 32 or, with AVX-512, 64 bytes (vscore.cpp, VSCore::VSCore). *)
Definition alignment (al : Z) : Prop := al = 32 \/ al = 64.

Lemma alignment_isAl : forall al, alignment al -> isAl al.
Proof. intros al [->| ->]; [exists 5|exists 6]; split; reflexivity || lia. Qed.

Lemma frames_refine : forall al limit rng l, alignment al -> sallowed al sinit l ->
  fst (run al (finit limit rng) l) = fst (srun sinit l) /\
  match snd (run al (finit limit rng) l) with
  | Finished _ => snd (srun sinit l) = true
  | Fatal => snd (srun sinit l) = false
  | Undefined => False
  end.
Proof.
  intros al limit rng l A L. apply run_sim; [apply alignment_isAl; auto|apply init_inv|apply sim_init|exact L].
Qed.

Lemma reach_inv : forall al limit rng l bs s, alignment al -> Forall op_valid l ->
  run al (finit limit rng) l = (bs, Finished s) -> inv s zero.
Proof. intros. eapply run_inv; eauto using alignment_isAl, init_inv. Qed.

Lemma run_reach : forall al l s t bs s', isAl al -> inv s zero -> sim al s t -> sallowed al t l ->
  run al s l = (bs, Finished s') -> inv s' zero /\ exists t', sim al s' t'.
Proof.
  intros al l. induction l as [|o r IH]; intros s t bs s' A I S L E; cbn [run] in E.
  - injection E as _ <-. eauto.
  - cbn [sallowed] in L. destruct L as (L1 & L2). pose proof (step_sim al s t o A I S L1) as Q.
    destruct (sstep t o) as [(t', b)|]; cbn [agrees] in Q.
    + destruct Q as (s1 & E1 & I1 & S1). rewrite E1 in E. destruct (run al s1 r) as (bs1, e) eqn:E2.
      injection E as _ ->. eapply IH; eauto.
    + rewrite Q in E. discriminate.
Qed.

(** A write pointer leads to a plane that no other slot of any frame uses. *)
Lemma write_pointer_exclusive : forall al limit rng l bs s g i s' p b, alignment al -> Forall op_valid l ->
  run al (finit limit rng) l = (bs, Finished s) -> getWritePtr s g i = Ok (s', Some (p, b)) ->
  exists fr sl, frames s' g = Some fr /\ nth_error (fr_data fr) sl = Some p /\
    forall h fr' j, frames s' h = Some fr' -> nth_error (fr_data fr') j = Some p -> h = g /\ j = sl.
Proof.
  intros al limit rng l bs s g i s' p b A V R E. pose proof (reach_inv _ _ _ _ _ _ A V R) as I.
  pose proof E as E0. unfold getWritePtr in E.
  destruct (frames s g) as [fr|] eqn:Hf; [|discriminate].
  destruct ((i <? 0) || (k_np (fr_kind fr) <=? i)) eqn:B; [discriminate|].
  apply orb_false_iff in B. cbv zeta in E. fold (slot (fr_kind fr) i) in E.
  destruct (nth_error (fr_data fr) (slot (fr_kind fr) i)) eqn:N; [|discriminate].
  assert (Hl : (slot (fr_kind fr) i < length (fr_data fr))%nat) by (apply nth_error_Some; congruence).
  destruct (getWritePtr_ok s g fr i I Hf ltac:(lia) Hl) as (s2 & q & p' & E2 & _ & I2 & _ & _ & F2 & C2 & _).
  rewrite E2 in E0. injection E0 as <- <- _.
  exists (mkF (fr_ref fr) (fr_kind fr) (fr_stride fr) (upd (fr_data fr) (slot (fr_kind fr) i) p')), (slot (fr_kind fr) i).
  assert (Hg : frames s2 g = Some (mkF (fr_ref fr) (fr_kind fr) (fr_stride fr) (upd (fr_data fr) (slot (fr_kind fr) i) p')))
    by (rewrite F2; apply fset_same).
  assert (Sl : nth_error (upd (fr_data fr) (slot (fr_kind fr) i) p') (slot (fr_kind fr) i) = Some p') by (apply upd_nth_same; exact Hl).
  split; [exact Hg|]. split; [exact Sl|].
  intros h fr' j Hh Hj. exact (cntP_unique s2 zero h g _ _ j _ p' I2 ltac:(lia) Hh Hg Hj Sl).
Qed.

(** The specification itself: a write is seen nowhere else. *)
Lemma spec_write_local : forall s g plane off v s' b, sstep s (OWrite g plane off v) = Some (s', b) ->
  forall h fr, s_frames s h = Some fr -> exists fr', s_frames s' h = Some fr' /\ sf_kind fr' = sf_kind fr /\
    forall i x, sf_cont fr' i x = if (Nat.eqb h g && (i =? plane) && (x =? off))%bool then Some v else sf_cont fr i x.
Proof.
  intros s g plane off v s' b E h fr Hf. cbn [sstep] in E. destruct (s_frames s g) as [fg|] eqn:Hg; [|discriminate].
  injection E as <- <-. cbn [sput s_frames]. destruct (Nat.eqb_spec h g) as [->|N].
  - eexists. split; [reflexivity|]. assert (fg = fr) by congruence. subst. split; [reflexivity|]. intros. reflexivity.
  - exists fr. split; [exact Hf|]. split; [reflexivity|]. intros. reflexivity.
Qed.

(** ** C06 *)
Lemma plane_lifetime : forall al limit rng l bs s, alignment al -> Forall op_valid l ->
  run al (finit limit rng) l = (bs, Finished s) ->
  (forall p, planes s p <> None <-> exists g fr, frames s g = Some fr /\ In p (fr_data fr)) /\
  (forall p x, planes s p = Some x -> p_ref x = cntP s p) /\
  (forall b sz, liveB (mm s) b = Some sz -> exists p x, planes s p = Some x /\ p_blk x = b).
Proof.
  intros al limit rng l bs s A V R. pose proof (reach_inv _ _ _ _ _ _ A V R) as I. split; [|split].
  - intro p. split.
    + intro H. pose proof (iP _ _ I p) as Q. destruct (planes s p) as [x|]; [|congruence]. unfold zero in Q.
      destruct Q as (Q1 & Q2 & _). assert (Q3 : 0 < cntP s p) by lia. unfold cntP in Q3. clear - Q3.
      induction (nF s) as [|n IH]; cbn [sumto] in Q3; [lia|].
      destruct (Z_lt_dec 0 (sumto n (fun g => wF (frames s g) p))); [auto|].
      unfold wF at 2 in Q3. destruct (frames s n) as [fr|] eqn:Hf; [|lia].
      exists n, fr. split; [exact Hf|]. destruct (in_dec Nat.eq_dec p (fr_data fr)); [auto|].
      rewrite cntl_notin in Q3 by auto. lia.
    + intros (g & fr & Hf & Hp). destruct (frame_plane_alive s zero g fr p I ltac:(intro; unfold zero; lia) Hf Hp) as (x & ->).
      discriminate.
  - intros p x Hx. pose proof (iP _ _ I p) as Q. rewrite Hx in Q. unfold zero in Q. lia.
  - apply (iOwn _ _ I).
Qed.

Lemma memory_accounted : forall al limit rng l bs s, alignment al -> Forall op_valid l ->
  run al (finit limit rng) l = (bs, Finished s) ->
  m_alloc (mm s) = sumto (nP s) (psz s) /\
  (forall p x, planes s p = Some x -> (p < nP s)%nat /\ p_size x + 64 <= psz s p) /\
  ((forall g, frames s g = None) -> m_alloc (mm s) = 0) /\
  (m_deleted (mm s) = true <-> core s = false /\ m_alloc (mm s) = 0).
Proof.
  intros al limit rng l bs s A V R. pose proof (reach_inv _ _ _ _ _ _ A V R) as I.
  split; [apply (iSum _ _ I)|]. split; [|split].
  - intros p x Hx. split; [eapply plane_lt; eauto|]. pose proof (iP _ _ I p) as Q. rewrite Hx in Q.
    destruct Q as (_ & _ & _ & bsz & L & B). unfold psz. rewrite Hx, L. exact B.
  - intro N. rewrite (iSum _ _ I). apply sumto_zero. intros p _. unfold psz.
    destruct (planes s p) as [x|] eqn:Hx; [|reflexivity]. exfalso.
    destruct (proj1 (proj1 (plane_lifetime _ _ _ _ _ _ A V R) p)) as (g & fr & Hf & _); [congruence|].
    rewrite N in Hf. discriminate.
  - split.
    + intro D. destruct (mi_del _ (iMem _ _ I) D) as (D1 & D2 & _). split; [|exact D2].
      rewrite (iCf _ _ I) in D1. destruct (core s); [discriminate|reflexivity].
    + intros (C & Z0). apply (iCore _ _ I); [rewrite (iCf _ _ I), C; reflexivity|exact Z0].
Qed.

(** ** C07 *)
Lemma stride_minimal : forall al f w, alignment al -> fmt_valid f -> 0 < w ->
  let ok st row := (al | st) /\ row <= st /\ (forall st', (al | st') -> row <= st' -> st <= st') in
  ok (stride0 al f w) (w * f_bytes f) /\
  ok (stride12 al f w) (getWidth f w 1 * f_bytes f).
Proof.
  intros al f w A V W ok. apply alignment_isAl in A. pose proof (isAl_pos _ A) as P.
  assert (G : forall x, (al | ceilTo al x) /\ x <= ceilTo al x /\ forall st', (al | st') -> x <= st' -> ceilTo al x <= st').
  { intro x. pose proof (ceilTo_bounds al x P) as (B1 & B2). split; [exact B2|]. split; [lia|].
    intros st' (k & ->) Hx. destruct B2 as (j & B2). rewrite B2 in B1. rewrite B2. assert (Q : j * al < (k + 1) * al) by lia. apply Z.mul_lt_mono_pos_r in Q; [|exact P]. apply Z.mul_le_mono_nonneg_r; lia. }
  split.
  - rewrite (stride0_spec al f w A V) by lia. unfold strideOf, planeW. cbn [Z.eqb]. apply G.
  - rewrite (stride12_spec al f w 1 A V), getWidth_planeW by (auto; lia). apply G.
Qed.

Lemma pixel_in_buffer : forall al limit rng l bs s g fr f w h i p, alignment al -> sallowed al sinit l ->
  run al (finit limit rng) l = (bs, Finished s) -> frames s g = Some fr -> fr_kind fr = Video f w h ->
  nthz (fr_data fr) i = Some p ->
  exists st x, nthz (fr_stride fr) i = Some st /\ planes s p = Some x /\
    forall px py, 0 <= px < getWidth f w i -> 0 <= py < getHeight f h i ->
      0 <= py * st + px * f_bytes f /\ py * st + px * f_bytes f + f_bytes f <= p_size x.
Proof.
  intros al limit rng l bs s g fr f w h i p A L R Hf K Hp. apply alignment_isAl in A.
  destruct (run_reach al l _ _ bs s A (init_inv limit rng) (sim_init al limit rng) L R) as (I & t & S).
  destruct (sim_fr _ _ _ _ _ S Hf) as (sf & _ & (_ & _ & M)). rewrite K in M.
  destruct M as ((V & W & H & _) & M2 & M3 & M4). destruct (M4 i p Hp) as (dat & D & _).
  unfold pdat in D. destruct (planes s p) as [x|]; [|discriminate].
  assert (Xs : p_size x = strideOf al f w i * planeH f h i) by (cbn [planeBytes] in D; congruence).
  pose proof (nthz_range _ _ _ _ Hp) as Ri.
  exists (strideOf al f w i), x. split.
  - rewrite M2. unfold strides. destruct (valid_np f V) as [N|N]; rewrite N; cbn [Z.eqb].
    + assert (i = 0) by lia. subst i. rewrite stride0_spec by (auto; lia). reflexivity.
    + rewrite stride0_spec by (auto; lia). assert (i = 0 \/ i = 1 \/ i = 2) as [->|[->| ->]] by lia.
      * reflexivity.
      * rewrite (stride12_spec al f w 1) by (auto; lia). reflexivity.
      * rewrite (stride12_spec al f w 2) by (auto; lia). reflexivity.
  - split; [reflexivity|]. rewrite getWidth_planeW, getHeight_planeH by exact V. intros px py Hx Hy.
    pose proof (ceilTo_bounds al (planeW f w i * f_bytes f) (isAl_pos _ A)) as (B & _).
    fold (strideOf al f w i) in B. pose proof (valid_bytes f V). rewrite Xs.
    assert (px * f_bytes f + f_bytes f <= strideOf al f w i) by nia. split; nia.
Qed.

Lemma strides_agree : forall al limit rng l bs s g g' fr fr' f w h h', alignment al -> sallowed al sinit l ->
  run al (finit limit rng) l = (bs, Finished s) -> frames s g = Some fr -> frames s g' = Some fr' ->
  fr_kind fr = Video f w h -> fr_kind fr' = Video f w h' -> fr_stride fr = fr_stride fr'.
Proof.
  intros al limit rng l bs s g g' fr fr' f w h h' A L R Hf Hf' K K'. apply alignment_isAl in A.
  destruct (run_reach al l _ _ bs s A (init_inv limit rng) (sim_init al limit rng) L R) as (I & t & S).
  destruct (sim_fr _ _ _ _ _ S Hf) as (sf & _ & (_ & _ & M)). rewrite K in M.
  destruct (sim_fr _ _ _ _ _ S Hf') as (sf' & _ & (_ & _ & M')). rewrite K' in M'.
  destruct M as (_ & -> & _), M' as (_ & -> & _). reflexivity.
Qed.

(** ** Witnesses *)
Definition gray8 : vfmt := mkV cfGray stInteger 8 1 0 0 1.
Definition gray16 : vfmt := mkV cfGray stInteger 16 2 0 0 1.
Definition yuv420 : vfmt := mkV cfYUV stInteger 8 1 1 1 3.
Definition mono16 : afmt := mkA stInteger 16 2 1 4.

Lemma gray8_valid : fmt_valid gray8.
Proof. unfold fmt_valid, storage, gray8, cfGray, cfRGB, cfYUV, stInteger, stFloat; cbn -[Z.mul].
  split; [lia|]. split; [lia|]. split; [split; [lia|]; split; [lia|intros; lia]|]. split; lia. Qed.
Lemma gray16_valid : fmt_valid gray16.
Proof. unfold fmt_valid, storage, gray16, cfGray, cfRGB, cfYUV, stInteger, stFloat; cbn -[Z.mul].
  split; [lia|]. split; [lia|]. split; [split; [lia|]; split; [lia|intros; lia]|]. split; lia. Qed.
Lemma yuv420_valid : fmt_valid yuv420.
Proof. unfold fmt_valid, storage, yuv420, cfGray, cfRGB, cfYUV, stInteger, stFloat; cbn -[Z.mul].
  split; [lia|]. split; [lia|]. split; [split; [lia|]; split; [lia|intros; lia]|]. split; lia. Qed.
Lemma mono16_valid : afmt_valid mono16.
Proof. unfold afmt_valid, mono16, stInteger, stFloat. cbn -[popcount]. split; [lia|]. split; [lia|]. split; [lia|reflexivity]. Qed.

(** A write pointer kept across copyFrame writes into the copy as well. *)
Lemma stale_write_pointer : exists s s1 p s2 s3,
  snd (run 32 (finit 1000000 []) [ONewVideo gray8 64 2; OWrite 0 0 5 1]) = Finished s /\
  getWritePtr s 0 0 = Ok (s1, Some (p, 0)) /\
  copyFrame s1 0 = Ok (s2, 1%nat) /\ readByte s2 1 0 5 = Ok (Some 1) /\
  poke s2 p 5 9 = Ok s3 /\ readByte s3 1 0 5 = Ok (Some 9).
Proof.
  do 5 eexists. split; [vm_compute; reflexivity|].
  split; [vm_compute; reflexivity|]. split; [vm_compute; reflexivity|]. split; [vm_compute; reflexivity|].
  split; [vm_compute; reflexivity|]. vm_compute. reflexivity.
Qed.

(** Sharing an 8 bit plane into a 16 bit frame of the same dimensions is accepted. *)
Lemma short_plane_shared : exists l bs s s',
  Forall op_valid l /\ run 32 (finit 1000000 []) l = (bs, Finished s) /\
  frames s 1 = Some s' /\ fr_kind s' = Video gray16 64 2 /\
  step 32 s (OWrite 1 0 (1 * strideOf 32 gray16 64 0 + 10 * 2) 7) = UB.
Proof.
  exists [ONewVideo gray8 64 2; ONewVideo2 gray16 64 2 [Some (0%nat, 0)]]. do 3 eexists.
  split; [apply Forall_cons; [exact gray8_valid|]; apply Forall_cons; [exact gray16_valid|]; apply Forall_nil|].
  split; [vm_compute; reflexivity|]. split; [reflexivity|]. split; [reflexivity|]. vm_compute. reflexivity.
Qed.

(** An audio frame of more than 3072 samples is accepted. *)
Lemma long_audio_frame : exists l bs s fr,
  Forall op_valid l /\ run 32 (finit 1000000 []) l = (bs, Finished s) /\
  frames s 0 = Some fr /\ fr_kind fr = Audio mono16 3073 /\
  step 32 s (OWrite 0 0 (3072 * 2) 7) = UB.
Proof.
  exists [ONewAudio mono16 3073]. do 3 eexists.
  split; [apply Forall_cons; [exact mono16_valid|]; apply Forall_nil|].
  split; [vm_compute; reflexivity|]. split; [reflexivity|]. split; [reflexivity|]. vm_compute. reflexivity.
Qed.
