(** The frame heap behaves like frames that own their planes. *)
From Coq Require Import ZArith List Lia Bool.
From Verif Require Import Common Sums Memory MemoryLemmas FormatSpec FrameSpec Frame FrameLemmas FrameGeom FrameOps.
Import ListNotations.
Open Scope Z_scope.

(** ** The invariant survives every operation *)
Definition op_valid (o : op) : Prop :=
  match o with
  | ONewVideo f _ _ | ONewVideo2 f _ _ _ => fmt_valid f
  | ONewAudio a _ | ONewAudio2 a _ _ => afmt_valid a
  | _ => True
  end.

Lemma withMem_inv : forall s m c, inv s zero -> minv m -> mcore m -> m_cfreed m = negb c ->
  m_alloc m = m_alloc (mm s) -> (forall x, liveB m x = liveB (mm s) x) -> inv (withMem s m c) zero.
Proof.
  intros s m c I M C F A L. constructor; cbn [withMem planes nP nF frames mm core]; try apply I.
  - intro p. pose proof (iP _ _ I p) as H. change (cntP _ p) with (cntP s p).
    destruct (planes s p) as [x|]; [|exact H]. rewrite L. exact H.
  - intros b sz. rewrite L. apply (iOwn _ _ I).
  - exact M.
  - exact C.
  - exact F.
  - rewrite A, (iSum _ _ I). apply sumto_ext. intros p _. unfold psz; cbn [withMem planes mm].
    destruct (planes s p); [|reflexivity]. rewrite L. reflexivity.
Qed.

Lemma limit_ok : forall s l, inv s zero -> core s = true ->
  exists m, set_limit (mm s) l = Ok m /\ inv (withMem s m true) zero.
Proof.
  intros s l I C. destruct (set_limit_ok (mm s) l (iMem _ _ I) (core_not_deleted _ _ I C))
    as (m & E & M & L & A & F & D & _).
  exists m. split; [exact E|]. apply withMem_inv; auto.
  - unfold mcore. rewrite F, (iCf _ _ I), C. discriminate.
  - rewrite F, (iCf _ _ I), C. reflexivity.
Qed.

Lemma coreFree_ok : forall s, inv s zero -> core s = true ->
  exists m, on_core_freed (mm s) = Ok m /\ inv (withMem s m false) zero.
Proof.
  intros s I C. destruct (core_freed_ok (mm s) (iMem _ _ I) (core_not_deleted _ _ I C))
    as (m & E & M & L & A & F & D).
  exists m. split; [exact E|]. apply withMem_inv; auto.
  unfold mcore. intros _ A0. rewrite A in A0. rewrite D, A0. reflexivity.
Qed.

Lemma getWritePtr_inv : forall s g i s' r, inv s zero -> getWritePtr s g i = Ok (s', r) ->
  inv s' zero /\ nF s' = nF s /\ core s' = core s.
Proof.
  intros s g i s' r I E. pose proof E as E0. unfold getWritePtr in E.
  destruct (frames s g) as [fr|] eqn:Hf; [|discriminate].
  destruct ((i <? 0) || (k_np (fr_kind fr) <=? i)) eqn:B; [injection E as <- <-; auto|].
  apply orb_false_iff in B. cbv zeta in E. fold (slot (fr_kind fr) i) in E.
  destruct (nth_error (fr_data fr) (slot (fr_kind fr) i)) eqn:N; [|discriminate].
  destruct (getWritePtr_ok s g fr i I Hf) as (s2 & p & p' & E2 & _ & I2 & A2 & A3 & _); [lia| |].
  { apply nth_error_Some. congruence. }
  rewrite E2 in E0. injection E0 as <- _. auto.
Qed.

Lemma poke_inv : forall s p off v s', inv s zero -> poke s p off v = Ok s' -> inv s' zero.
Proof.
  intros s p off v s' I E. pose proof E as E0. unfold poke in E. destruct (planes s p) as [x|] eqn:Hx; [|discriminate].
  destruct ((0 <=? off) && (off <? p_size x)) eqn:B; [|discriminate].
  destruct (poke_ok s p off v (p_size x) (p_data x) I) as (s2 & E2 & I2 & _).
  { unfold pdat. rewrite Hx. reflexivity. } { apply andb_true_iff in B. lia. }
  congruence.
Qed.

Lemma step_inv : forall al s o s' b, isAl al -> op_valid o -> inv s zero -> step al s o = Ok (s', b) -> inv s' zero.
Proof.
  intros al s o s' b A V I E. destruct o; cbn [step op_valid] in *.
  - unfold handle in E. apply obind_ok in E. destruct E as ((s1 & g) & E & E'). cbn [fst snd] in E'. injection E' as <- <-.
    rewrite newVideo_newVideo2 in E by exact V. destruct (newVideo2_ok _ _ _ _ _ _ _ _ A V I E) as (l & Q). tauto.
  - unfold handle in E. apply obind_ok in E. destruct E as ((s1 & g) & E & E'). cbn [fst snd] in E'. injection E' as <- <-.
    destruct (newVideo2_ok _ _ _ _ _ _ _ _ A V I E) as (l & Q). tauto.
  - unfold handle in E. apply obind_ok in E. destruct E as ((s1 & g) & E & E'). cbn [fst snd] in E'. injection E' as <- <-.
    rewrite newAudio_newAudio2 in E by exact V. destruct (newAudio2_ok _ _ _ _ _ _ V I E) as (p & dd & Q). tauto.
  - unfold handle in E. apply obind_ok in E. destruct E as ((s1 & g) & E & E'). cbn [fst snd] in E'. injection E' as <- <-.
    destruct (newAudio2_ok _ _ _ _ _ _ V I E) as (p & dd & Q). tauto.
  - unfold handle in E. apply obind_ok in E. destruct E as ((s1 & h) & E & E'). cbn [fst snd] in E'. injection E' as <- <-.
    destruct (copyFrame_ok _ _ _ _ I E) as (fr & Q). tauto.
  - apply obind_ok in E. destruct E as (s1 & E & E'). injection E' as <- <-.
    unfold addrefF in E. destruct (frames s g) as [fr|] eqn:Hf; [|discriminate].
    destruct (addrefF_ok s g fr I Hf) as (E2 & I2). unfold addrefF in E2. rewrite Hf in E2. congruence.
  - apply obind_ok in E. destruct E as (s1 & E & E'). injection E' as <- <-.
    destruct (frames s g) as [fr|] eqn:Hf; [|unfold releaseF in E; rewrite Hf in E; discriminate].
    destruct (releaseF_ok s g fr I Hf) as (s2 & E2 & I2 & _). congruence.
  - apply obind_ok in E. destruct E as (s1 & E & E'). injection E' as <- <-.
    unfold writeByte in E. apply obind_ok in E. destruct E as ((s2 & r) & E1 & E2). cbn [fst snd] in E2.
    destruct r as [(p, bs)|]; [|discriminate].
    destruct (getWritePtr_inv _ _ _ _ _ I E1) as (I2 & _). eapply poke_inv; eauto.
  - apply obind_ok in E. destruct E as (s1 & E & E'). injection E' as <- <-. exact I.
  - apply obind_ok in E. destruct E as ((s1 & r) & E & E'). cbn [fst snd] in E'. injection E' as <- <-.
    eapply getWritePtr_inv; eauto.
  - destruct (core s) eqn:C; [cbn [negb] in E|discriminate].
    destruct (limit_ok s bytes I C) as (m & E1 & I1). rewrite E1 in E. cbn [obind] in E. congruence.
  - destruct (core s) eqn:C; [cbn [negb] in E|discriminate].
    destruct (coreFree_ok s I C) as (m & E1 & I1). rewrite E1 in E. cbn [obind] in E. congruence.
Qed.

Lemma run_inv : forall al l s bs s', isAl al -> Forall op_valid l -> inv s zero ->
  run al s l = (bs, Finished s') -> inv s' zero.
Proof.
  intros al l. induction l as [|o r IH]; intros s bs s' A V I E; cbn [run] in E; [congruence|].
  inversion V as [|? ? V1 V2]. subst.
  destruct (step al s o) as [(s1, b)| |] eqn:E1; try discriminate.
  destruct (run al s1 r) as (bs1, e) eqn:E2. injection E as _ ->.
  exact (IH s1 bs1 s' A V2 (step_inv al s o s1 b A V1 I E1) E2).
Qed.

(** ** Simulation *)
Definition vidOk (al : Z) (f : vfmt) (w h : Z) : Prop :=
  fmt_valid f /\ 0 < w <= INT_MAX /\ 0 < h <= INT_MAX /\ addressable al f w h.

Definition fmatch (al : Z) (s : fst_) (fr : frame) (sf : sframe) : Prop :=
  fr_ref fr = sf_ref sf /\ fr_kind fr = sf_kind sf /\
  match fr_kind fr with
  | Video f w h =>
      vidOk al f w h /\ fr_stride fr = strides al f w /\ zlength (fr_data fr) = f_np f /\
      forall i p, nthz (fr_data fr) i = Some p ->
        exists dat, pdat s p = Some (planeBytes al (Video f w h) i, dat) /\
          forall off, 0 <= off < planeBytes al (Video f w h) i -> dat off = sf_cont sf i off
  | Audio a n =>
      afmt_valid a /\ 0 < n <= AUDIO_FRAME_SAMPLES /\ fr_stride fr = [a_bytes a * AUDIO_FRAME_SAMPLES; 0; 0] /\
      exists p dat, fr_data fr = [p] /\ pdat s p = Some (a_bytes a * AUDIO_FRAME_SAMPLES * a_nch a, dat) /\
        forall i off, 0 <= i < a_nch a -> 0 <= off < n * a_bytes a ->
          dat (i * (a_bytes a * AUDIO_FRAME_SAMPLES) + off) = sf_cont sf i off
  end.

Record sim (al : Z) (s : fst_) (t : sst) : Prop := {
  smNext : s_next t = nF s;
  smCore : s_core t = core s;
  smFr : forall g, match frames s g, s_frames t g with
                   | Some fr, Some sf => fmatch al s fr sf
                   | None, None => True
                   | _, _ => False
                   end
}.

Lemma sim_fr : forall al s t g fr, sim al s t -> frames s g = Some fr ->
  exists sf, s_frames t g = Some sf /\ fmatch al s fr sf.
Proof.
  intros al s t g fr S H. pose proof (smFr _ _ _ S g) as Q. rewrite H in Q.
  destruct (s_frames t g) as [sf|]; [|tauto]. eauto.
Qed.
Lemma sim_sf : forall al s t g sf, sim al s t -> s_frames t g = Some sf ->
  exists fr, frames s g = Some fr /\ fmatch al s fr sf.
Proof.
  intros al s t g sf S H. pose proof (smFr _ _ _ S g) as Q. rewrite H in Q.
  destruct (frames s g) as [fr|]; [|tauto]. eauto.
Qed.

Lemma sim_init : forall al limit rng, sim al (finit limit rng) sinit.
Proof. intros. constructor; cbn; auto. Qed.

(** A frame still matches when its planes are untouched. *)
Lemma fmatch_pdat : forall al s s' fr sf, (forall p, In p (fr_data fr) -> pdat s' p = pdat s p) ->
  fmatch al s fr sf -> fmatch al s' fr sf.
Proof.
  intros al s s' fr sf H (R & K & M). split; [exact R|]. split; [exact K|]. destruct (fr_kind fr) as [f w h|a n].
  - destruct M as (M1 & M2 & M3 & M4). do 3 (split; [assumption|]). intros i p Hp.
    destruct (M4 i p Hp) as (dat & D1 & D2). exists dat. split; [|exact D2]. rewrite H; [exact D1|]. eapply nthz_In; eauto.
  - destruct M as (M1 & M2 & M3 & p & dat & D1 & D2 & D3). do 3 (split; [assumption|]).
    exists p, dat. split; [exact D1|]. split; [|exact D3]. rewrite H; [exact D2|]. rewrite D1. left; reflexivity.
Qed.

(** Adding a frame on both sides. *)
Lemma sim_new : forall al s t s' fr sf, inv s zero -> sim al s t ->
  nF s' = S (nF s) -> core s' = core s -> (forall g, frames s' g = fset (frames s) (nF s) (Some fr) g) ->
  (forall q, 0 < cntP s q -> pdat s' q = pdat s q) -> fmatch al s' fr sf ->
  sim al s' (fst (snew t sf)) /\ snd (snew t sf) = RHandle (nF s).
Proof.
  intros al s t s' fr sf I S N C F P M. split; [|cbn; rewrite (smNext _ _ _ S); reflexivity].
  constructor; cbn [snew fst s_next s_core s_frames].
  - rewrite (smNext _ _ _ S). congruence.
  - rewrite (smCore _ _ _ S). congruence.
  - intro g. rewrite F, (smNext _ _ _ S). unfold fset. destruct (Nat.eqb g (nF s)); [exact M|].
    pose proof (smFr _ _ _ S g) as Q. destruct (frames s g) as [fr1|] eqn:Hf; [|exact Q].
    destruct (s_frames t g) as [sf1|]; [|exact Q]. eapply fmatch_pdat; [|exact Q].
    intros p Hp. apply P. pose proof (cntP_in s zero g fr1 p I Hf Hp). lia.
Qed.

(** *** Creation *)
Lemma nthz_cons_pos : forall A (a : A) l i, 0 <= i -> nthz (a :: l) (i + 1) = nthz l i.
Proof. intros. rewrite nthz_cons_S by lia. f_equal. lia. Qed.

(** Under the caller's contract every source is a live video frame of the same
    sample size. *)
Lemma sharePlanes_total : forall al f w h t, isAl al -> vidOk al f w h ->
  forall src s0 s e i, sim al s0 t -> inv s e -> (forall q, 0 <= e q) -> core s = true -> 0 <= i ->
  frames s = frames s0 -> Forall (videoSrcAllowed t f) src ->
  (if anyBad (badVideoSrc t f w h) i src then sharePlanes al s f w h i src = Err
   else exists s' l, sharePlanes al s f w h i src = Ok (s', l)).
Proof.
  intros al f w h t A (V & W & H & Ad). induction src as [|o rest IH]; intros s0 s e i S I En C Hi F Al;
    cbn [sharePlanes anyBad]; [eauto|].
  inversion Al as [|? ? Al1 Al2]. subst.
  assert (Next : forall s1 p, inv s1 (fun q => e q + d q p) -> keepsF s s1 ->
    if anyBad (badVideoSrc t f w h) (i + 1) rest
    then obind (sharePlanes al s1 f w h (i + 1) rest) (fun q => Ok (fst q, p :: snd q)) = Err
    else exists s' l, obind (sharePlanes al s1 f w h (i + 1) rest) (fun q => Ok (fst q, p :: snd q)) = Ok (s', l)).
  { intros s1 p I1 (K1 & K2 & K3).
    assert (IH1 := IH s0 s1 _ (i + 1) S I1). cbn beta in IH1.
    assert (E1 : forall q, 0 <= e q + d q p) by (intro q; pose proof (d_nonneg q p); specialize (En q); lia).
    specialize (IH1 E1 ltac:(congruence) ltac:(lia) ltac:(congruence) Al2).
    destruct (anyBad (badVideoSrc t f w h) (i + 1) rest).
    - rewrite IH1. reflexivity.
    - destruct IH1 as (s' & l & ->). cbn [obind fst snd]. eauto. }
  destruct o as [(g, k)|].
  - destruct Al1 as (r & f' & w' & h' & c & Hs & Hb). unfold badVideoSrc at 1. rewrite Hs.
    destruct (sim_sf _ _ _ _ _ S Hs) as (fr & Hf & M). rewrite F, Hf.
    destruct fr as [r0 kd st data]. destruct M as (_ & Mk & M). cbn [fr_kind sf_kind fr_stride fr_data] in Mk, M. subst kd.
    destruct M as ((V' & _) & _ & Ml & Mp).
    destruct ((k <? 0) || (f_np f' <=? k)) eqn:B; [reflexivity|]. cbn [orb].
    rewrite (getHeight_planeH f' h' k V'), (getHeight_planeH f h i V), (getWidth_planeW f' w' k V'), (getWidth_planeW f w i V).
    destruct (negb (planeH f' h' k =? planeH f h i) || negb (planeW f' w' k =? planeW f w i)) eqn:G; [reflexivity|].
    cbn [orb]. apply orb_false_iff in B.
    destruct (proj2 (nthz_Some_iff _ data k)) as (p & Hp); [lia|]. rewrite Hp.
    assert (exists x, planes s p = Some x) as (x & Hx).
    { eapply (frame_plane_alive s e g (mkF r0 (Video f' w' h') st data)); eauto; [rewrite F; exact Hf|].
      cbn. eapply nthz_In; eauto. }
    destruct (addrefP_ok s e p x I Hx) as (s1 & E1 & I1 & K1 & _). rewrite E1. cbn [obind fst snd].
    apply (Next s1 p I1 K1).
  - cbn [badVideoSrc orb].
    replace (if i =? 0 then obind (mul64 (stride0 al f w) h) (newPlane s)
             else obind (mul64 (stride12 al f w) (Z.shiftr h (f_ssh f))) (newPlane s))
      with (newPlane s (planeBytes al (Video f w h) i)).
    2:{ destruct (Z.eqb_spec i 0) as [->|N].
        - rewrite size_plane0 by (auto; lia). reflexivity.
        - rewrite (size_plane12 al f w h i) by (auto; lia). reflexivity. }
    pose proof (planeBytes_bounds al f w h i (isAl_pos _ A) V ltac:(lia) ltac:(lia)) as (B & _).
    destruct (newPlane_ok s e _ I (core_not_deleted _ _ I C) B) as (s1 & E1 & I1 & K1 & _).
    rewrite E1. cbn [obind fst snd]. apply (Next s1 (nP s) I1 K1).
Qed.

Lemma shared_match : forall al f w h t s s' src l i, sim al s t -> inv s zero -> fmt_valid f ->
  (forall q, 0 < cntP s q -> pdat s' q = pdat s q) -> Forall (videoSrcAllowed t f) src ->
  shared al s s' f w h i src l -> 0 <= i ->
  forall j p, nthz l j = Some p ->
    exists dat, pdat s' p = Some (planeBytes al (Video f w h) (i + j), dat) /\
      forall off, 0 <= off < planeBytes al (Video f w h) (i + j) -> dat off = srcCont t src j off.
Proof.
  intros al f w h t s s' src l i S I V P Al Sh. induction Sh; intros Hi j p0 Hj.
  - unfold nthz in Hj. destruct (j <? 0); [discriminate|]. destruct (Z.to_nat j); discriminate.
  - inversion Al as [|? ? Al1 Al2]. subst. pose proof (nthz_range _ _ _ _ Hj) as Rj.
    destruct (Z.eq_dec j 0) as [->|N].
    + rewrite nthz_cons_0 in Hj. injection Hj as <-. rewrite Z.add_0_r.
      destruct Al1 as (r & f2 & w2 & h2 & c & Hs & Hb).
      destruct (sim_fr _ _ _ _ _ S H) as (sf & Hs' & M). rewrite Hs in Hs'. injection Hs' as <-.
      destruct M as (_ & Mk & M). cbn [sf_kind sf_cont] in Mk, M. rewrite H0 in Mk. injection Mk as <- <- <-.
      rewrite H0 in M. destruct M as ((V' & _) & _ & _ & Mp).
      destruct (Mp k p H4) as (dat & D1 & D2). exists dat.
      rewrite (getHeight_planeH f' h' k V'), (getHeight_planeH f h i V) in H2.
      rewrite (getWidth_planeW f' w' k V'), (getWidth_planeW f w i V) in H3.
      rewrite (planeBytes_eq al f w h i f' w' h' k Hb H3 H2) in D1, D2.
      split.
      * rewrite P; [exact D1|]. pose proof (cntP_in s zero g fr p I H (nthz_In _ _ _ _ H4)). lia.
      * intros off Ho. rewrite D2 by exact Ho. unfold srcCont. rewrite nthz_cons_0, Hs. reflexivity.
    + rewrite nthz_cons_S in Hj by lia. destruct (IHSh Al2 ltac:(lia) (j - 1) p0 Hj) as (dat & D1 & D2).
      replace (i + 1 + (j - 1)) with (i + j) in * by lia. exists dat. split; [exact D1|].
      intros off Ho. rewrite D2 by exact Ho. unfold srcCont. rewrite nthz_cons_S by lia. reflexivity.
  - inversion Al as [|? ? Al1 Al2]. subst. pose proof (nthz_range _ _ _ _ Hj) as Rj.
    destruct (Z.eq_dec j 0) as [->|N].
    + rewrite nthz_cons_0 in Hj. injection Hj as <-. rewrite Z.add_0_r.
      eexists. split; [exact H|]. intros off Ho. reflexivity.
    + rewrite nthz_cons_S in Hj by lia. destruct (IHSh Al2 ltac:(lia) (j - 1) p0 Hj) as (dat & D1 & D2).
      replace (i + 1 + (j - 1)) with (i + j) in * by lia. exists dat. split; [exact D1|].
      intros off Ho. rewrite D2 by exact Ho. unfold srcCont. rewrite nthz_cons_S by lia. reflexivity.
Qed.

(** The result of one step agrees with the specification. *)
Definition agrees (al : Z) (r : outcome (fst_ * obs)) (q : option (sst * obs)) : Prop :=
  match q with
  | None => r = Err
  | Some (t', b) => exists s', r = Ok (s', b) /\ inv s' zero /\ sim al s' t'
  end.

Lemma video2_sim : forall al s t f w h src, isAl al -> inv s zero -> sim al s t ->
  allowed al t (ONewVideo2 f w h src) ->
  agrees al (handle (newVideoFrame2 al s f w h src)) (sstep t (ONewVideo2 f w h src)).
Proof.
  intros al s t f w h src A I S (C & V & W & H & Ad & L & Al). cbn [sstep]. rewrite (smCore _ _ _ S) in C.
  destruct ((w <=? 0) || (h <=? 0)) eqn:WH.
  { unfold newVideoFrame2. rewrite C, WH. reflexivity. }
  pose proof WH as WH'. apply orb_false_iff in WH'.
  assert (VO : vidOk al f w h) by (unfold vidOk; split; [exact V|]; split; [lia|]; split; [lia|exact Ad]).
  pose proof (sharePlanes_total al f w h t A VO src s s zero 0 S I ltac:(intro; unfold zero; lia) C ltac:(lia) eq_refl Al) as T.
  assert (NP : negb (f_np f =? 3) && negb (f_np f =? 1) = false) by (destruct (valid_np f V) as [->| ->]; reflexivity).
  assert (E0 : newVideoFrame2 al s f w h src = obind (sharePlanes al s f w h 0 src) (fun r =>
       Ok (addFrame (fst r) (mkF 1 (Video f w h) (strides al f w) (snd r))))).
  { unfold newVideoFrame2. rewrite C, WH, L, Z.eqb_refl, NP. reflexivity. }
  destruct (anyBad (badVideoSrc t f w h) 0 src).
  - cbn [agrees]. rewrite E0, T. reflexivity.
  - destruct T as (s1 & l & T). rewrite T in E0. cbn [obind fst snd] in E0.
    destruct (addFrame s1 (mkF 1 (Video f w h) (strides al f w) l)) as (s', g').
    destruct (newVideo2_ok al s f w h src _ _ A V I E0) as (l' & _ & _ & _ & Q1 & Q2 & Q3 & Q4 & Q5 & Q6 & Q7 & Q8).
    destruct (sim_new al s t s' (mkF 1 (Video f w h) (strides al f w) l') (mkSF 1 (Video f w h) (srcCont t src)) I S Q2 Q3)
      as (S' & R).
    + intro g. rewrite Q4. reflexivity.
    + exact Q6.
    + split; [reflexivity|]. split; [reflexivity|]. cbn [fr_kind fr_stride fr_data].
      split; [exact VO|]. split; [reflexivity|]. split; [rewrite (shared_length _ _ _ _ _ _ _ _ _ Q8); exact L|].
      intros i p Hp. apply (shared_match al f w h t s s' src l' 0 S I V Q6 Al Q8 ltac:(lia) i p Hp).
    + destruct (snew t (mkSF 1 (Video f w h) (srcCont t src))) as (t', b) eqn:SN. cbn [fst snd] in S', R.
      cbn [agrees]. exists s'. rewrite E0. unfold handle. cbn [obind fst snd]. rewrite R, Q1. auto.
Qed.

Lemma anyBad_none : forall bad m i, (forall j, bad j None = false) -> anyBad bad i (repeat None m) = false.
Proof. intros bad m. induction m; intros i H; cbn [repeat anyBad]; [reflexivity|]. rewrite H. apply IHm; auto. Qed.

Lemma srcCont_none : forall t m i off, srcCont t (repeat None m) i off = None.
Proof.
  intros. unfold srcCont. destruct (nthz (repeat None m) i) as [o|] eqn:E; [|reflexivity].
  apply nthz_In, repeat_spec in E. subst. reflexivity.
Qed.

Lemma sim_ext : forall al s t t', s_next t' = s_next t -> s_core t' = s_core t ->
  (forall g, match s_frames t g, s_frames t' g with
             | Some a, Some b => sf_ref b = sf_ref a /\ sf_kind b = sf_kind a /\ (forall i off, sf_cont b i off = sf_cont a i off)
             | None, None => True
             | _, _ => False
             end) -> sim al s t -> sim al s t'.
Proof.
  intros al s t t' N C F S. constructor; [rewrite N; apply S|rewrite C; apply S|].
  intro g. pose proof (smFr _ _ _ S g) as Q. specialize (F g).
  destruct (frames s g) as [fr|].
  - destruct (s_frames t g) as [a|]; [|tauto]. destruct (s_frames t' g) as [b|]; [|tauto].
    destruct F as (F1 & F2 & F3). destruct Q as (Q1 & Q2 & Q3). split; [congruence|]. split; [congruence|].
    destruct (fr_kind fr) as [f w h|x n].
    + destruct Q3 as (M1 & M2 & M3 & M4). do 3 (split; [assumption|]). intros i p Hp.
      destruct (M4 i p Hp) as (dat & D1 & D2). exists dat. split; [exact D1|]. intros. rewrite F3. auto.
    + destruct Q3 as (M1 & M2 & M3 & p & dat & D1 & D2 & D3). do 3 (split; [assumption|]).
      exists p, dat. do 2 (split; [assumption|]). intros. rewrite F3. auto.
  - destruct (s_frames t g); [tauto|]. destruct (s_frames t' g); tauto.
Qed.

Lemma video_sim : forall al s t f w h, isAl al -> inv s zero -> sim al s t ->
  allowed al t (ONewVideo f w h) ->
  agrees al (handle (newVideoFrame al s f w h)) (sstep t (ONewVideo f w h)).
Proof.
  intros al s t f w h A I S (C & V & W & H & Ad). rewrite newVideo_newVideo2 by exact V.
  set (src := repeat (@None (nat * Z)) (Z.to_nat (f_np f))).
  assert (Alw : allowed al t (ONewVideo2 f w h src)).
  { cbn [allowed]. do 5 (split; [assumption|]). split.
    - unfold src, zlength. rewrite repeat_length. destruct (valid_np f V); lia.
    - apply Forall_forall. intros o Ho. apply repeat_spec in Ho. subst. exact Logic.I. }
  pose proof (video2_sim al s t f w h src A I S Alw) as Q. cbn [sstep] in *.
  destruct ((w <=? 0) || (h <=? 0)); [exact Q|].
  unfold src in Q at 2. rewrite anyBad_none in Q by reflexivity. cbn [agrees snew] in *.
  destruct Q as (s' & E & I' & S'). exists s'. split; [exact E|]. split; [exact I'|].
  eapply sim_ext; [| | |exact S']; [reflexivity|reflexivity|].
  intro g. cbn [s_frames]. destruct (Nat.eqb g (s_next t)).
  - cbn. split; [reflexivity|]. split; [reflexivity|]. intros. unfold src. rewrite srcCont_none. reflexivity.
  - destruct (s_frames t g); auto.
Qed.

Lemma audio_sizes : forall a i, afmt_valid a -> 0 <= i < a_nch a ->
  i * (a_bytes a * AUDIO_FRAME_SAMPLES) + a_bytes a * AUDIO_FRAME_SAMPLES <= a_bytes a * AUDIO_FRAME_SAMPLES * a_nch a.
Proof.
  intros a i V Hi. destruct (valid_a a V) as (B & _). unfold AUDIO_FRAME_SAMPLES.
  assert (i + 1 <= a_nch a) by lia. nia.
Qed.

Lemma copyChannels_total : forall al a n t p, afmt_valid a -> 0 < n <= AUDIO_FRAME_SAMPLES ->
  forall src s0 s e i dat, sim al s0 t -> inv s e -> (forall q, 0 <= e q) -> cntP s p = 0 -> cntP s0 p = 0 ->
  pdat s p = Some (a_bytes a * AUDIO_FRAME_SAMPLES * a_nch a, dat) ->
  frames s = frames s0 -> (forall q, 0 < cntP s0 q -> pdat s q = pdat s0 q) -> inv s0 zero ->
  0 <= i -> i + zlength src <= a_nch a -> Forall (audioSrcAllowed t a) src ->
  (if anyBad (fun _ => badAudioSrc t n) i src then copyChannels s a n i p src = Err
   else exists s', copyChannels s a n i p src = Ok s').
Proof.
  intros al a n t p V Hn. induction src as [|o rest IH]; intros s0 s e i dat S I En Cp Cp0 Hp F P I0 Hi Hl Al;
    cbn [copyChannels anyBad]; [eauto|].
  inversion Al as [|? ? Al1 Al2]. subst. rewrite zlength_cons in Hl. pose proof (zlength_nonneg _ rest) as Zr.
  destruct (valid_a a V) as (Vb & Vn).
  destruct o as [(g, k)|].
  - destruct Al1 as (r & a' & n' & c & Hs & Hb). cbn [badAudioSrc]. rewrite Hs.
    destruct (sim_sf _ _ _ _ _ S Hs) as (fr & Hf & M). rewrite F, Hf.
    destruct fr as [r0 kd st data]. destruct M as (_ & Mk & M). cbn [fr_kind sf_kind fr_stride fr_data] in Mk, M. subst kd.
    destruct M as (V' & Hn' & -> & q & dq & -> & Dq & _).
    destruct ((k <? 0) || (a_nch a' <=? k)) eqn:B; [reflexivity|]. cbn [orb].
    destruct (negb (n' =? n)) eqn:G; [reflexivity|]. cbn [orb].
    apply orb_false_iff in B. apply negb_false_iff, Z.eqb_eq in G. subst n'.
    assert (Cq : 0 < cntP s0 q).
    { pose proof (cntP_in s0 zero g _ q I0 Hf ltac:(left; reflexivity)). lia. }
    assert (Hq : pdat s q = Some (a_bytes a * AUDIO_FRAME_SAMPLES * a_nch a', dq)) by (rewrite P, Dq, Hb by auto; reflexivity).
    pose proof (audio_sizes a i V ltac:(lia)) as Z1. pose proof (audio_sizes a' k V' ltac:(lia)) as Z2. rewrite Hb in Z2.
    assert (Z3 : 0 <= n * a_bytes a <= a_bytes a * AUDIO_FRAME_SAMPLES) by (unfold AUDIO_FRAME_SAMPLES in *; nia).
    assert (exists s1, copyBytes s p (i * (a_bytes a * AUDIO_FRAME_SAMPLES)) q (k * (a_bytes a' * AUDIO_FRAME_SAMPLES)) (n * a_bytes a) = Ok s1) as (s1 & E1).
    { unfold copyBytes. unfold pdat in Hp, Hq. destruct (planes s p) as [x|]; [|discriminate].
      destruct (planes s q) as [y|]; [|discriminate]. injection Hp as Xs _. injection Hq as Ys _. rewrite Xs, Ys, Hb.
      match goal with |- exists _, (if ?b then _ else _) = _ => assert (Q : b = true) end.
      { assert (0 <= i * (a_bytes a * AUDIO_FRAME_SAMPLES)) by (unfold AUDIO_FRAME_SAMPLES; nia).
        assert (0 <= k * (a_bytes a * AUDIO_FRAME_SAMPLES)) by (unfold AUDIO_FRAME_SAMPLES; nia).
        rewrite !andb_true_iff. lia. }
      rewrite Q. eauto. }
    rewrite E1. cbn [obind].
    assert (exists x, planes s p = Some x /\ p_size x = a_bytes a * AUDIO_FRAME_SAMPLES * a_nch a) as (x & Hx & Xs).
    { unfold pdat in Hp. destruct (planes s p) as [x|]; [|discriminate]. injection Hp as E3 E4. eauto. }
    assert (exists y, planes s q = Some y) as (y & Hy).
    { unfold pdat in Hq. destruct (planes s q) as [y|]; [eauto|discriminate]. }
    destruct (copyBytes_ok s e p x q y _ _ _ s1 I Hx Hy E1) as (I1 & K1 & P1 & P2 & _). rewrite Xs in P2.
    refine (IH s0 s1 e (i + 1) _ S I1 En _ Cp0 P2 _ _ I0 _ _ Al2).
    + rewrite (keepsF_cntP _ _ _ K1). exact Cp.
    + rewrite (proj1 (proj2 K1)). exact F.
    + intros z Hz. rewrite P1; [apply P; exact Hz|]. intros ->. lia.
    + lia.
    + lia.
  - cbn [badAudioSrc orb obind].
    refine (IH s0 s e (i + 1) dat S I En Cp Cp0 Hp F P I0 _ _ Al2); lia.
Qed.

Lemma audio2_sim : forall al s t a n src, inv s zero -> sim al s t ->
  allowed al t (ONewAudio2 a n src) ->
  agrees al (handle (newAudioFrame2 s a n src)) (sstep t (ONewAudio2 a n src)).
Proof.
  intros al s t a n src I S (C & V & Hn & L & Al). cbn [sstep]. rewrite (smCore _ _ _ S) in C.
  destruct (n <=? 0) eqn:N0.
  { unfold newAudioFrame2. rewrite C, N0. reflexivity. }
  destruct (valid_a a V) as (Vb & Vn).
  assert (Sz : 0 <= a_bytes a * AUDIO_FRAME_SAMPLES * a_nch a) by (unfold AUDIO_FRAME_SAMPLES; nia).
  destruct (newPlane_ok s zero _ I (core_not_deleted _ _ I C) Sz) as (s1 & E1 & I1 & K1 & P1 & P1' & P2 & _).
  assert (Cp : cntP s (nP s) = 0).
  { pose proof (iP _ _ I (nP s)) as Z0. rewrite (iPn _ _ I (nP s) (le_n _)) in Z0. unfold zero in Z0. lia. }
  assert (T := copyChannels_total al a n t (nP s) V ltac:(lia) src s s1 (fun q => zero q + d q (nP s)) 0 (fun _ => None) S I1).
  specialize (T ltac:(intro q; unfold zero; pose proof (d_nonneg q (nP s)); lia)).
  specialize (T ltac:(rewrite (keepsF_cntP _ _ _ K1); exact Cp) Cp P1 (proj1 (proj2 K1))).
  specialize (T ltac:(intros q Hq; apply P2; intros ->; lia) I ltac:(lia) ltac:(lia) Al).
  assert (E0 : newAudioFrame2 s a n src = obind (copyChannels s1 a n 0 (nP s) src) (fun s' =>
    Ok (addFrame s' (mkF 1 (Audio a n) [a_bytes a * AUDIO_FRAME_SAMPLES; 0; 0] [nP s])))).
  { unfold newAudioFrame2. rewrite C, N0, L, Z.eqb_refl. cbn [negb]. rewrite E1. reflexivity. }
  destruct (anyBad (fun _ => badAudioSrc t n) 0 src) eqn:Bd.
  - cbn [agrees]. rewrite E0, T. reflexivity.
  - destruct T as (s2 & T). rewrite T in E0. cbn [obind] in E0.
    destruct (addFrame s2 _) as (s', g').
    destruct (newAudio2_ok s a n src s' g' V I E0) as (p & dat & _ & Q0 & Q1 & Q2 & Q3 & Q4 & Q5 & Q6 & Q7 & Q8 & Q9).
    destruct (sim_new al s t s' (mkF 1 (Audio a n) [a_bytes a * AUDIO_FRAME_SAMPLES; 0; 0] [p]) (mkSF 1 (Audio a n) (srcCont t src)) I S Q2 Q3)
      as (S' & R).
    + intro g. rewrite Q4. reflexivity.
    + exact Q6.
    + split; [reflexivity|]. split; [reflexivity|]. cbn [fr_kind fr_stride fr_data].
      split; [exact V|]. split; [lia|]. split; [reflexivity|]. exists p, dat.
      split; [reflexivity|]. split; [exact Q8|]. intros i off Hi Ho. rewrite (Q9 Hn i off Hi Ho).
      cbn [sf_cont]. unfold srcCont. destruct (nthz src i) as [o|] eqn:Eo; [|reflexivity].
      destruct o as [(g, k)|]; [|reflexivity]. cbn [chanOf].
      pose proof (proj1 (Forall_forall _ _) Al _ (nthz_In _ _ _ _ Eo)) as (r & a' & n' & c & Hs & Hb).
      rewrite Hs. destruct (sim_sf _ _ _ _ _ S Hs) as (fr & Hf & M). rewrite Hf.
      destruct fr as [r0 kd st data]. destruct M as (_ & Mk & M). cbn [fr_kind sf_kind fr_stride fr_data sf_cont] in *. subst kd.
      destruct M as (V' & Hn' & -> & q & dq & -> & Dq & Mq). rewrite Dq. apply Mq.
      * assert (Bz : badAudioSrc t n (Some (g, k)) = false).
        { clear - Bd Eo. revert Bd Eo. generalize 0 at 1 as j. revert i. induction src as [|x l IH]; intros i j Bd Eo.
          - unfold nthz in Eo. destruct (i <? 0); [discriminate|]. destruct (Z.to_nat i); discriminate.
          - cbn [anyBad] in Bd. apply orb_false_iff in Bd. destruct (Z.eq_dec i 0) as [->|N].
            + rewrite nthz_cons_0 in Eo. injection Eo as ->. apply Bd.
            + pose proof (nthz_range _ _ _ _ Eo). rewrite nthz_cons_S in Eo by lia. eapply IH; [apply Bd|exact Eo]. }
        cbn [badAudioSrc] in Bz. rewrite Hs in Bz. rewrite !orb_false_iff in Bz. lia.
      * assert (Bz : badAudioSrc t n (Some (g, k)) = false).
        { clear - Bd Eo. revert Bd Eo. generalize 0 at 1 as j. revert i. induction src as [|x l IH]; intros i j Bd Eo.
          - unfold nthz in Eo. destruct (i <? 0); [discriminate|]. destruct (Z.to_nat i); discriminate.
          - cbn [anyBad] in Bd. apply orb_false_iff in Bd. destruct (Z.eq_dec i 0) as [->|N].
            + rewrite nthz_cons_0 in Eo. injection Eo as ->. apply Bd.
            + pose proof (nthz_range _ _ _ _ Eo). rewrite nthz_cons_S in Eo by lia. eapply IH; [apply Bd|exact Eo]. }
        cbn [badAudioSrc] in Bz. rewrite Hs in Bz. rewrite !orb_false_iff, negb_false_iff, Z.eqb_eq in Bz.
        rewrite Hb. destruct Bz as (_ & ->). exact Ho.
    + destruct (snew t (mkSF 1 (Audio a n) (srcCont t src))) as (t', b) eqn:SN. cbn [fst snd] in S', R.
      cbn [agrees]. exists s'. rewrite E0. unfold handle. cbn [obind fst snd]. rewrite R, Q1. auto.
Qed.

Lemma audio_sim : forall al s t a n, inv s zero -> sim al s t ->
  allowed al t (ONewAudio a n) ->
  agrees al (handle (newAudioFrame s a n)) (sstep t (ONewAudio a n)).
Proof.
  intros al s t a n I S (C & V & Hn). rewrite newAudio_newAudio2 by exact V.
  set (src := repeat (@None (nat * Z)) (Z.to_nat (a_nch a))).
  assert (Alw : allowed al t (ONewAudio2 a n src)).
  { cbn [allowed]. do 3 (split; [assumption|]). split.
    - unfold src, zlength. rewrite repeat_length. destruct (valid_a a V). lia.
    - apply Forall_forall. intros o Ho. apply repeat_spec in Ho. subst. exact Logic.I. }
  pose proof (audio2_sim al s t a n src I S Alw) as Q. cbn [sstep] in *.
  destruct (n <=? 0); [exact Q|].
  unfold src in Q at 2. rewrite anyBad_none in Q by reflexivity. cbn [agrees snew] in *.
  destruct Q as (s' & E & I' & S'). exists s'. split; [exact E|]. split; [exact I'|].
  eapply sim_ext; [| | |exact S']; [reflexivity|reflexivity|].
  intro g. cbn [s_frames]. destruct (Nat.eqb g (s_next t)).
  - cbn. split; [reflexivity|]. split; [reflexivity|]. intros. unfold src. rewrite srcCont_none. reflexivity.
  - destruct (s_frames t g); auto.
Qed.

(** *** Copies and references *)
Lemma copy_sim : forall al s t g, inv s zero -> sim al s t -> allowed al t (OCopy g) ->
  agrees al (handle (copyFrame s g)) (sstep t (OCopy g)).
Proof.
  intros al s t g I S (C & L). cbn [sstep]. rewrite (smCore _ _ _ S) in C.
  destruct (s_frames t g) as [sf|] eqn:Hs; [|congruence]. destruct (sim_sf _ _ _ _ _ S Hs) as (fr & Hf & M).
  destruct (copyFrame_total s g fr I C Hf) as (s' & h & E).
  destruct (copyFrame_ok s g s' h I E) as (fr' & _ & Hf' & Q1 & Q2 & Q3 & Q4 & Q5 & Q6).
  assert (fr' = fr) by congruence. subst fr'.
  destruct (sim_new al s t s' (mkF 1 (fr_kind fr) (fr_stride fr) (fr_data fr)) (mkSF 1 (sf_kind sf) (sf_cont sf)) I S Q2 Q3)
      as (S' & R).
  - intro y. rewrite Q4. reflexivity.
  - intros; apply Q6.
  - destruct M as (M1 & M2 & M3). eapply fmatch_pdat; [intros; apply Q6|].
    split; [reflexivity|]. split; [exact M2|exact M3].
  - cbn [agrees snew]. exists s'. rewrite E. unfold handle. cbn [obind fst snd]. rewrite Q1.
    cbn [snew snd] in R. rewrite R. auto.
Qed.

(** Changing one frame on both sides. *)
Lemma sim_put : forall al s t s' g fr sf o, sim al s t -> frames s g = Some fr -> s_frames t g = Some sf ->
  nF s' = nF s -> core s' = core s ->
  (forall y, frames s' y = fset (frames s) g (match o with Some (fr', _) => Some fr' | None => None end) y) ->
  (forall y fr1, y <> g -> frames s y = Some fr1 -> forall p, In p (fr_data fr1) -> pdat s' p = pdat s p) ->
  match o with Some (fr', sf') => fmatch al s' fr' sf' | None => True end ->
  sim al s' (sput t g (match o with Some (_, sf') => Some sf' | None => None end)).
Proof.
  intros al s t s' g fr sf o S Hf Hs N C F P M. constructor; cbn [sput s_next s_core s_frames].
  - rewrite (smNext _ _ _ S). congruence.
  - rewrite (smCore _ _ _ S). congruence.
  - intro y. rewrite F. unfold fset. destruct (Nat.eqb_spec y g) as [->|Ny].
    + destruct o as [(fr', sf')|]; [exact M|exact Logic.I].
    + pose proof (smFr _ _ _ S y) as Q. destruct (frames s y) as [fr1|] eqn:Hy; [|exact Q].
      destruct (s_frames t y) as [sf1|]; [|exact Q]. eapply fmatch_pdat; [|exact Q]. intros p Hp. eapply P; eauto.
Qed.

Lemma addref_sim : forall al s t g, inv s zero -> sim al s t -> allowed al t (OAddRef g) ->
  agrees al (obind (addrefF s g) (fun s' => Ok (s', RNone))) (sstep t (OAddRef g)).
Proof.
  intros al s t g I S L. cbn [sstep allowed] in *.
  destruct (s_frames t g) as [sf|] eqn:Hs; [|congruence]. destruct (sim_sf _ _ _ _ _ S Hs) as (fr & Hf & M).
  destruct (addrefF_ok s g fr I Hf) as (E & I'). cbn [agrees]. rewrite E. cbn [obind].
  eexists. split; [reflexivity|]. split; [exact I'|].
  apply (sim_put al s t _ g fr sf (Some (mkF (fr_ref fr + 1) (fr_kind fr) (fr_stride fr) (fr_data fr),
                                        mkSF (sf_ref sf + 1) (sf_kind sf) (sf_cont sf))) S Hf Hs); auto.
  destruct M as (M1 & M2 & M3). eapply fmatch_pdat; [reflexivity|].
  split; [cbn; congruence|]. split; [exact M2|exact M3].
Qed.

Lemma free_sim : forall al s t g, inv s zero -> sim al s t -> allowed al t (OFree g) ->
  agrees al (obind (releaseF s g) (fun s' => Ok (s', RNone))) (sstep t (OFree g)).
Proof.
  intros al s t g I S L. cbn [sstep allowed] in *.
  destruct (s_frames t g) as [sf|] eqn:Hs; [|congruence]. destruct (sim_sf _ _ _ _ _ S Hs) as (fr & Hf & M).
  destruct (releaseF_ok s g fr I Hf) as (s' & E & I' & Q1 & Q2 & Q3 & Q4). cbn [agrees]. rewrite E. cbn [obind].
  eexists. split; [reflexivity|]. split; [exact I'|].
  destruct M as (M1 & M2 & M3). rewrite <- M1.
  assert (Pr : forall y fr1, y <> g -> frames s y = Some fr1 -> forall p, In p (fr_data fr1) -> pdat s' p = pdat s p).
  { intros y fr1 Ny Hy p Hp. apply Q4. pose proof (cntP_in s' zero y fr1 p I') as Z0.
    rewrite Q3, fset_other in Z0 by auto. specialize (Z0 Hy Hp). lia. }
  destruct (Z.eqb_spec (fr_ref fr) 1) as [R|R].
  - apply (sim_put al s t s' g fr sf None S Hf Hs Q1 Q2); [intro y; rewrite Q3; reflexivity|exact Pr|exact Logic.I].
  - assert (Hg : frames s' g = Some (mkF (fr_ref fr - 1) (fr_kind fr) (fr_stride fr) (fr_data fr))) by (rewrite Q3; apply fset_same).
    apply (sim_put al s t s' g fr sf (Some (mkF (fr_ref fr - 1) (fr_kind fr) (fr_stride fr) (fr_data fr),
                                        mkSF (fr_ref fr - 1) (sf_kind sf) (sf_cont sf))) S Hf Hs Q1 Q2);
      [intro y; rewrite Q3; reflexivity|exact Pr|].
    eapply fmatch_pdat; [|split; [reflexivity|]; split; [exact M2|exact M3]].
    intros p Hp. apply Q4. pose proof (cntP_in s' zero g _ p I' Hg Hp). lia.
Qed.

(** *** Access *)
Lemma nth_error_nthz : forall A (l : list A) i, 0 <= i -> nth_error l (Z.to_nat i) = nthz l i.
Proof. intros. unfold nthz. destruct (Z.ltb_spec i 0); [lia|reflexivity]. Qed.

Lemma fmatch_slot : forall al s fr sf i, fmatch al s fr sf -> 0 <= i < k_np (fr_kind fr) ->
  (slot (fr_kind fr) i < length (fr_data fr))%nat.
Proof.
  intros al s fr sf i (_ & _ & M) Hi. destruct (fr_kind fr) as [f w h|a n]; cbn [slot k_np] in *.
  - destruct M as (_ & _ & L & _). unfold zlength in L. lia.
  - destruct M as (_ & _ & _ & p & dat & -> & _). cbn. lia.
Qed.

(** After obtaining a write pointer: same frames, and the plane is exclusive. *)
Lemma write_ptr_sim : forall al s t g fr sf i, inv s zero -> sim al s t -> frames s g = Some fr ->
  s_frames t g = Some sf -> fmatch al s fr sf -> 0 <= i < k_np (fr_kind fr) ->
  exists s' p' fr', getWritePtr s g i = Ok (s', Some (p', base (fr_kind fr) (fr_stride fr) i)) /\
    inv s' zero /\ sim al s' t /\ cntP s' p' = 1 /\
    frames s' g = Some fr' /\ fr_kind fr' = fr_kind fr /\ fr_stride fr' = fr_stride fr /\
    nth_error (fr_data fr') (slot (fr_kind fr) i) = Some p'.
Proof.
  intros al s t g fr sf i I S Hf Hs M Hi. pose proof (fmatch_slot _ _ _ _ _ M Hi) as Hl.
  destruct (getWritePtr_ok s g fr i I Hf Hi Hl) as (s' & p & p' & E & Np & I' & Q1 & Q2 & Q3 & Q4 & Q5 & Q6).
  set (sl := slot (fr_kind fr) i) in *.
  set (fr' := mkF (fr_ref fr) (fr_kind fr) (fr_stride fr) (upd (fr_data fr) sl p')) in *.
  assert (Hg : frames s' g = Some fr') by (rewrite Q3; apply fset_same).
  exists s', p', fr'. split; [exact E|]. split; [exact I'|].
  assert (Sl : nth_error (fr_data fr') sl = Some p') by (apply upd_nth_same; exact Hl).
  split; [|split; [exact Q4|]; split; [exact Hg|]; split; [reflexivity|]; split; [reflexivity|exact Sl]].
  assert (Q7 : forall j q, nth_error (fr_data fr') j = Some q ->
               exists q0, nth_error (fr_data fr) j = Some q0 /\ pdat s' q = pdat s q0).
  { intros j q Hj. destruct (Nat.eq_dec j sl) as [->|Nj].
    - rewrite Sl in Hj. injection Hj as <-. exists p. auto.
    - exists q. unfold fr' in Hj; cbn [fr_data] in Hj. rewrite upd_nth_other in Hj by auto. split; [exact Hj|].
      apply Q6.
      + intros ->. assert (Hj2 : nth_error (fr_data fr') j = Some p') by (unfold fr'; cbn [fr_data]; rewrite upd_nth_other by auto; exact Hj).
        destruct (cntP_unique s' zero g g fr' fr' j sl p' I' ltac:(lia) Hg Hg Hj2 Sl) as (_ & Z0). auto.
      + pose proof (cntP_in s' zero g fr' q I' Hg) as Z0. cbn [fr_data fr'] in Z0.
        assert (In q (fr_data fr')). { eapply nth_error_In with (n := j). unfold fr'; cbn [fr_data]. rewrite upd_nth_other by auto. exact Hj. }
        specialize (Z0 H). lia. }
  assert (S1 : sim al s' (sput t g (Some sf))).
  { apply (sim_put al s t s' g fr sf (Some (fr', sf)) S Hf Hs Q1 Q2 Q3).
    - intros y fr1 Ny Hy q Hq. assert (Hy' : frames s' y = Some fr1) by (rewrite Q3, fset_other by auto; exact Hy).
      apply Q6.
      + intros ->. destruct (In_nth_error _ _ Hq) as (j & Hj).
        destruct (cntP_unique s' zero y g fr1 fr' j sl p' I' ltac:(lia) Hy' Hg Hj Sl) as (Z0 & _). auto.
      + pose proof (cntP_in s' zero y fr1 q I' Hy' Hq). lia.
    - destruct M as (M1 & M2 & M3). split; [exact M1|]. split; [exact M2|]. cbn [fr_kind fr' fr_stride fr_data].
      change (fr_kind fr') with (fr_kind fr). change (fr_stride fr') with (fr_stride fr).
      destruct (fr_kind fr) as [f w h|a n].
      + destruct M3 as (A1 & A2 & A3 & A4). do 2 (split; [assumption|]). split.
        { unfold zlength, fr'; cbn [fr_data]. rewrite upd_length. exact A3. }
        intros j q Hj. pose proof (nthz_range _ _ _ _ Hj) as Rj. rewrite <- nth_error_nthz in Hj by lia.
        destruct (Q7 _ _ Hj) as (q0 & Hq0 & Pq). rewrite nth_error_nthz in Hq0 by lia. rewrite Pq. apply A4. exact Hq0.
      + destruct M3 as (A1 & A2 & A3 & q0 & dat & A4 & A5 & A6). do 3 (split; [assumption|]).
        assert (sl = O) by (unfold sl; reflexivity). exists p', dat. split.
        { unfold fr'; cbn [fr_data]. rewrite A4, H. reflexivity. }
        split; [|exact A6]. rewrite Q5. rewrite A4, H in Np. cbn in Np. injection Np as <-. exact A5. }
  eapply sim_ext; [| | |exact S1]; [reflexivity|reflexivity|].
  intro y. cbn [sput s_frames]. destruct (Nat.eqb_spec y g) as [->|_]; [rewrite Hs; auto|].
  destruct (s_frames t y); auto.
Qed.

Lemma getwrite_sim : forall al s t g i, inv s zero -> sim al s t -> allowed al t (OGetWrite g i) ->
  agrees al (obind (getWritePtr s g i) (fun r =>
      Ok (fst r, RPtr (match snd r with Some _ => true | None => false end)))) (sstep t (OGetWrite g i)).
Proof.
  intros al s t g i I S L. cbn [sstep allowed] in *.
  destruct (s_frames t g) as [sf|] eqn:Hs; [|congruence]. destruct (sim_sf _ _ _ _ _ S Hs) as (fr & Hf & M).
  cbn [agrees]. pose proof (proj1 (proj2 M)) as K. rewrite <- K.
  destruct ((0 <=? i) && (i <? k_np (fr_kind fr))) eqn:B.
  - apply andb_true_iff in B.
    destruct (write_ptr_sim al s t g fr sf i I S Hf Hs M ltac:(lia)) as (s' & p' & fr' & E & I' & S' & _).
    rewrite E. cbn [obind fst snd]. exists s'. auto.
  - unfold getWritePtr. rewrite Hf. apply andb_false_iff in B.
    destruct ((i <? 0) || (k_np (fr_kind fr) <=? i)) eqn:B2; [|apply orb_false_iff in B2; lia].
    cbn [obind fst snd]. exists s. auto.
Qed.

Lemma read_sim : forall al s t g i off, isAl al -> inv s zero -> sim al s t -> allowed al t (ORead g i off) ->
  agrees al (obind (readByte s g i off) (fun b => Ok (s, RByte b))) (sstep t (ORead g i off)).
Proof.
  intros al s t g i off A I S (sf & Hs & Hi & Ho). cbn [sstep]. rewrite Hs.
  destruct (sim_sf _ _ _ _ _ S Hs) as (fr & Hf & M). cbn [agrees].
  unfold readByte. rewrite Hf. unfold readPtr. destruct M as (M1 & M2 & M3). rewrite <- M2 in Hi, Ho.
  destruct ((i <? 0) || (k_np (fr_kind fr) <=? i)) eqn:B; [apply orb_true_iff in B; lia|].
  exists s. split; [|auto]. destruct (fr_kind fr) as [f w h|a n].
  - destruct M3 as ((V & W & H & Ad) & A2 & A3 & A4). cbn [k_np] in Hi.
    destruct (proj2 (nthz_Some_iff _ (fr_data fr) i)) as (p & Hp); [lia|]. rewrite Hp.
    destruct (A4 i p Hp) as (dat & D1 & D2). unfold peek. unfold pdat in D1.
    destruct (planes s p) as [x|]; [|discriminate].
    assert (Xs : p_size x = planeBytes al (Video f w h) i) by congruence. assert (Xd : p_data x = dat) by congruence.
    rewrite Xs, Z.add_0_l.
    destruct ((0 <=? off) && (off <? planeBytes al (Video f w h) i)) eqn:B2; [|apply andb_false_iff in B2; lia].
    cbn [obind]. rewrite Xd, D2 by lia. reflexivity.
  - destruct M3 as (V & Hn & -> & p & dat & -> & D1 & D2). cbn [k_np planeBytes] in *.
    unfold peek. unfold pdat in D1.
    destruct (planes s p) as [x|]; [|discriminate]. injection D1 as Xs Xd. rewrite Xs.
    pose proof (audio_sizes a i V Hi) as Z1. destruct (valid_a a V) as (Vb & _).
    match goal with |- context [if ?b then _ else _] => assert (Q : b = true) end.
    { rewrite andb_true_iff. unfold AUDIO_FRAME_SAMPLES in *. nia. }
    rewrite Q. cbn [obind]. rewrite Xd, D2 by lia. reflexivity.
Qed.

Lemma write_sim : forall al s t g i off v, isAl al -> inv s zero -> sim al s t -> allowed al t (OWrite g i off v) ->
  agrees al (obind (writeByte s g i off v) (fun s' => Ok (s', RNone))) (sstep t (OWrite g i off v)).
Proof.
  intros al s0 t g i off v A I0 S0 (sf & Hs & Hi & Ho). cbn [sstep]. rewrite Hs.
  destruct (sim_sf _ _ _ _ _ S0 Hs) as (fr0 & Hf0 & M0). pose proof (proj1 (proj2 M0)) as K0. rewrite <- K0 in Hi, Ho. cbn [agrees].
  destruct (write_ptr_sim al s0 t g fr0 sf i I0 S0 Hf0 Hs M0 Hi) as (s & p & fr & E1 & I & S & Cp & Hf & Kf & Ks & Sl).
  unfold writeByte. rewrite E1. cbn [obind fst snd]. rewrite <- Kf in *. rewrite <- Ks.
  destruct (sim_fr _ _ _ _ _ S Hf) as (sf1 & Hs1 & M). rewrite Hs in Hs1. injection Hs1 as <-.
  assert (X : exists s', poke s p (base (fr_kind fr) (fr_stride fr) i + off) v = Ok s' /\ inv s' zero /\ keepsF s s' /\
     (forall q, q <> p -> pdat s' q = pdat s q) /\
     fmatch al s' fr (mkSF (sf_ref sf) (sf_kind sf) (fun j x => if (j =? i) && (x =? off) then Some v else sf_cont sf j x))).
  { destruct M as (M1 & M2 & M3). unfold fmatch. destruct (fr_kind fr) as [f w h|a n]; cbn [slot base k_np] in *.
    - destruct M3 as (A1 & A2 & A3 & A4). rewrite nth_error_nthz in Sl by lia.
      destruct (A4 i p Sl) as (dat & D1 & D2). rewrite Z.add_0_l.
      destruct (poke_ok s p off v _ dat I D1 Ho) as (s' & E & I' & K' & P1 & P2).
      exists s'. do 4 (split; [assumption|]). split; [exact M1|]. split; [exact M2|]. do 3 (split; [assumption|]).
      intros j q Hj. pose proof (nthz_range _ _ _ _ Hj) as Rj. destruct (Z.eq_dec j i) as [->|Nj].
      + assert (q = p) by congruence. subst q. eexists. split; [exact P1|]. intros o Hoo. cbn [sf_cont].
        rewrite Z.eqb_refl. cbn [andb]. destruct (o =? off); [reflexivity|]. apply D2. exact Hoo.
      + destruct (A4 j q Hj) as (dq & D3 & D4). exists dq. split.
        * rewrite P2; [exact D3|]. intros ->. rewrite <- nth_error_nthz in Hj, Sl by lia.
          destruct (cntP_unique s zero g g fr fr _ _ p I ltac:(lia) Hf Hf Hj Sl) as (_ & Z0). lia.
        * intros o Hoo. cbn [sf_cont]. apply Z.eqb_neq in Nj. rewrite Nj. cbn [andb]. apply D4. exact Hoo.
    - destruct M3 as (V & Hn & A2 & q & dat & A3 & D1 & D2). rewrite A2. cbn [hd].
      assert (q = p). { rewrite A3 in Sl. cbn in Sl. congruence. } subst q.
      pose proof (audio_sizes a i V Hi) as Z1. destruct (valid_a a V) as (Vb & _).
      cbn [planeBytes] in Ho. set (T := a_bytes a * AUDIO_FRAME_SAMPLES) in *.
      assert (ZT : n * a_bytes a <= T) by (unfold T, AUDIO_FRAME_SAMPLES in *; nia).
      assert (0 <= i * T) by nia.
      destruct (poke_ok s p (i * T + off) v _ dat I D1 ltac:(lia)) as (s' & E & I' & K' & P1 & P2).
      exists s'. do 4 (split; [assumption|]). split; [exact M1|]. split; [exact M2|]. do 3 (split; [first [assumption|reflexivity]|]).
      exists p. eexists. split; [exact A3|]. split; [exact P1|]. intros j o Hj Hoo. cbn [sf_cont].
      destruct (Z.eqb_spec j i) as [->|Nj]; cbn [andb].
      + destruct (Z.eqb_spec o off) as [->|No].
        * rewrite Z.eqb_refl. reflexivity.
        * destruct (Z.eqb_spec (i * T + o) (i * T + off)); [lia|]. apply D2; assumption.
      + destruct (Z.eqb_spec (j * T + o) (i * T + off)) as [Q|_]; [|apply D2; assumption].
        exfalso. assert (j < i \/ i < j) as [L|L] by lia; nia. }
  destruct X as (s' & E & I' & (K1 & K2 & K3) & P & M').
  exists s'. rewrite E. cbn [obind]. split; [reflexivity|]. split; [exact I'|].
  apply (sim_put al s t s' g fr sf (Some (fr, mkSF (sf_ref sf) (sf_kind sf)
     (fun j x => if (j =? i) && (x =? off) then Some v else sf_cont sf j x))) S Hf Hs K1 K3).
  - intro y. rewrite K2. unfold fset. destruct (Nat.eqb_spec y g) as [->|]; auto.
  - intros y fr1 Ny Hy q Hq. apply P. intros ->. destruct (In_nth_error _ _ Hq) as (j & Hj).
    destruct (cntP_unique s zero y g fr1 fr j _ p I ltac:(lia) Hy Hf Hj Sl) as (Z0 & _). auto.
  - exact M'.
Qed.

Lemma step_sim : forall al s t o, isAl al -> inv s zero -> sim al s t -> allowed al t o ->
  agrees al (step al s o) (sstep t o).
Proof.
  intros al s t o A I S L. destruct o; cbn [step].
  - apply video_sim; auto.
  - apply video2_sim; auto.
  - apply audio_sim; auto.
  - apply audio2_sim; auto.
  - apply copy_sim; auto.
  - apply addref_sim; auto.
  - apply free_sim; auto.
  - apply write_sim; auto.
  - apply read_sim; auto.
  - apply getwrite_sim; auto.
  - cbn [allowed] in L. rewrite (smCore _ _ _ S) in L. rewrite L. cbn [negb sstep agrees].
    destruct (limit_ok s bytes I L) as (m & E & I'). rewrite E. cbn [obind]. eexists. split; [reflexivity|].
    split; [exact I'|]. destruct S as [S1 S2 S3]. constructor; cbn [withMem nF core frames]; auto.
    congruence.
  - cbn [allowed] in L. rewrite (smCore _ _ _ S) in L. rewrite L. cbn [negb sstep agrees].
    destruct (coreFree_ok s I L) as (m & E & I'). rewrite E. cbn [obind]. eexists. split; [reflexivity|].
    split; [exact I'|]. destruct S as [S1 S2 S3]. constructor; cbn [withMem nF core frames s_next s_core s_frames]; auto.
Qed.

Lemma run_sim : forall al l s t, isAl al -> inv s zero -> sim al s t -> sallowed al t l ->
  fst (run al s l) = fst (srun t l) /\
  match snd (run al s l) with
  | Finished s' => snd (srun t l) = true
  | Fatal => snd (srun t l) = false
  | Undefined => False
  end.
Proof.
  intros al l. induction l as [|o r IH]; intros s t A I S L; cbn [run srun]; [cbn; auto|].
  cbn [sallowed] in L. destruct L as (L1 & L2). pose proof (step_sim al s t o A I S L1) as Q.
  destruct (sstep t o) as [(t', b)|]; cbn [agrees] in Q.
  - destruct Q as (s' & E & I' & S'). rewrite E. specialize (IH s' t' A I' S' L2).
    destruct (run al s' r) as (bs, e), (srun t' r) as (bs', e'). cbn [fst snd] in *. destruct IH as (-> & IH).
    auto.
  - rewrite Q. cbn. auto.
Qed.
