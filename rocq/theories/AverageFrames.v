(** AverageFrames on whole frames. *)
From Coq Require Import String.
From Coq Require Import ZArith List Lia Bool SpecFloat.
From Verif Require Import Common FormatSpec Format FormatLemmas Frame FrameSpec FrameGeom FrameFacts ImageSpec PlaneMem Spatial SpatialLemmas SpatialStack SpatialFacts.
From Verif Require Import PixelSpec Pixel PixelLemmas Soft Generic Lut LutLemmas LutFrames LutFacts AverageSpec Average AverageNear AverageLemmas.
Import ListNotations.
Open Scope Z_scope.

Definition biasOf (f : vfmt) (i : Z) : Z := if ((i =? 1) || (i =? 2)) && (f_cf f =? cfYUV) then 2 ^ (f_bits f - 1) else 0.

Lemma pixel_spec : forall k scale top bias str ws srcs vs x y, 1 <= scale <= INT_MAX -> 0 <= bias <= 32768 -> 0 <= top ->
  Forall2 (fun s v => loadS k s (y * str + x * k) = Ok v) srcs vs -> length ws = length vs -> Forall (fun v => 0 <= v < 65536) vs -> absSum ws <= 31713 ->
  exists v, averagePixel k scale top bias str ws srcs x y = Ok v /\ average bias top scale ws vs v /\ 0 <= v <= top.
Proof.
  intros k scale top bias str ws srcs vs x y S B T F L V A. unfold averagePixel. pose proof (absSum_nonneg ws).
  destruct (accum_spec k bias (y * str + x * k) 65535 ws srcs vs 0 ltac:(lia) F L) as (E & AB); try (unfold INT_MAX; lia).
  { eapply Forall_impl; [|exact V]. intros a Ha. cbv beta in *. lia. }
  rewrite E, Z.add_0_l. cbn [obind]. destruct (rounded_near (weighted bias ws vs) scale ltac:(lia) ltac:(unfold INT_MAX in *; lia)) as (r & R & Q & RB).
  rewrite R. cbn [obind]. rewrite chk32_ok by (unfold INT_MAX; lia). cbn [obind]. eexists. split; [reflexivity|]. split; [|lia].
  exists r. split; [exact Q | lia].
Qed.

(** Equal samples whose weights add up to the scale. *)
Lemma average_equal : forall bias top scale ws vs v w, 1 <= scale -> 0 <= bias <= 32768 -> length ws = length vs -> Forall (fun x => x = v) vs -> 0 <= v <= top -> v < 65536 ->
  total ws = scale -> average bias top scale ws vs w -> w = v.
Proof.
  intros bias top scale ws vs v w S B L F V V' T (r & Q & ->). rewrite (weighted_const bias v ws vs L F), T in Q.
  apply exact_quotient in Q; [lia | lia | lia].
Qed.

Lemma planesOf_spec : forall al frames i f w h, isAl al -> Forall (wfFrame al) frames -> Forall (fun s => vf_fmt s = f /\ vf_w s = w /\ vf_h s = h) frames -> Forall byteFrame frames -> 0 <= i < f_np f ->
  exists bufs imgs, planesOf frames i = Ok bufs /\ partsOf frames i imgs /\ length imgs = length frames /\
    forall x y, 0 <= x < planeW f w i -> 0 <= y < planeH f h i ->
      Forall2 (fun s v => loadS (f_bytes f) s (y * strideOf al f w i + x * f_bytes f) = Ok v) bufs (map (fun a => i_at a x y) imgs) /\
      Forall (fun v => 0 <= v < 256 ^ f_bytes f) (map (fun a => i_at a x y) imgs).
Proof.
  intros al frames i f w h A. induction frames as [|fr r IH]; intros W M B I.
  - exists [], []. split; [reflexivity|]. split; [constructor|]. split; [reflexivity|]. intros; split; constructor.
  - inversion W as [|? ? W1 W2]; inversion M as [|? ? (M1 & M2 & M3) M']; inversion B as [|? ? B1 B2]; subst x x0 x1 l l0 l1.
    destruct (IH W2 M' B2 I) as (bufs & imgs & E & P & L & Q).
    destruct (wf_plane al fr i A W1 ltac:(rewrite M1; lia)) as (p & N & WP). rewrite M1, M2, M3 in WP.
    cbn [planesOf]. rewrite N, E. cbn [obind]. exists (p_buf p :: bufs), (imageOf (f_bytes f) p (planeW f w i) (planeH f h i) :: imgs).
    split; [reflexivity|]. split; [constructor; [unfold planeImg; rewrite N, M1, M2, M3; reflexivity | exact P]|]. split; [cbn [length]; lia|].
    intros u v U V. destruct (Q u v U V) as (Q1 & Q2).
    assert (VB : 1 <= f_bytes f <= 4) by (destruct W1 as (FV & _); rewrite M1 in FV; apply valid_bytes; exact FV).
    cbn [map]. split.
    + constructor; [|exact Q1]. destruct W1 as (_ & _ & _ & _ & SP). destruct (SP i p N) as (SP1 & _). rewrite M1, M2 in SP1. rewrite <- SP1. apply loadS_at; auto. lia.
    + constructor; [|exact Q2]. apply image_range; [lia|]. exact (B1 i p N).
Qed.

(** ** The arguments *)
Definition avgOk (d : avgData) : Prop :=
  1 <= av_scale d <= INT_MAX /\ Forall (fun w => Z.abs w <= 1023) (av_weights d) /\ 1 <= zlength (av_weights d) <= 31 /\
  (av_single d = true -> Z.odd (zlength (av_weights d)) = true) /\ (av_scenes d = true -> av_single d = true) /\
  f_st (vi_fmt (av_vi d)) = stInteger /\ f_bits (vi_fmt (av_vi d)) <= 16.

Lemma avgWeights_spec : forall l ws, avgWeights l = Ok ws -> length ws = length l /\ Forall (fun w => Z.abs w <= 1023) ws /\ ws = map roundZ l /\ Forall (fun x => isFin x = true) l.
Proof.
  induction l as [|x l IH]; intros ws E; cbn [avgWeights] in E.
  - injection E as <-. repeat split; constructor.
  - unfold avgWeight in E. destruct (isFin x) eqn:FX; cbn [negb] in E; [|discriminate].
    destruct ((roundZ x <? -1023) || (1023 <? roundZ x)) eqn:R; cbn [obind] in E; [discriminate|]. apply orb_false_elim in R. destruct R as (R1 & R2).
    apply Z.ltb_ge in R1. apply Z.ltb_ge in R2.
    destruct (avgWeights l) as [ws'| |] eqn:E2; cbn [obind] in E; try discriminate. injection E as <-. destruct (IH ws' eq_refl) as (L & F & M & G).
    split; [cbn [length]; lia|]. split; [constructor; [lia | exact F]|]. split; [cbn [map]; congruence | constructor; assumption].
Qed.

Lemma fold_left_total : forall ws a, fold_left Z.add ws a = a + total ws.
Proof. induction ws as [|w ws IH]; intros a; [cbn; lia|]. cbn [fold_left]. rewrite IH, total_cons. lia. Qed.

Lemma wrap32_range : forall x, INT_MIN <= wrap32 x <= INT_MAX.
Proof. intros x. unfold wrap32, INT_MIN, INT_MAX. pose proof (Z.mod_pos_bound (x + 2147483648) 4294967296 ltac:(lia)). lia. Qed.
Lemma avgScale_spec : forall ws o s, avgScale ws o = Ok s -> absSum ws <= INT_MAX -> 1 <= s <= INT_MAX /\ (o = None -> 1 <= total ws -> s = total ws).
Proof.
  intros ws o s E A. unfold avgScale in E. destruct o as [x|].
  - destruct (isFin (to32 x)); cbn [negb] in E; [|discriminate]. destruct (floatToIntS (to32 x)) as [v| |] eqn:F; cbn [obind] in E; try discriminate.
    destruct (Z.ltb_spec v 1); [discriminate|]. injection E as <-. split; [|discriminate]. split; [lia|].
    unfold floatToIntS in F. destruct (SFltb (of32 INT_MAX 0) (to32 x)); [injection F as <-; lia|]. destruct (SFltb (to32 x) (of32 INT_MIN 0)); [injection F as <-; unfold INT_MIN, INT_MAX; lia|].
    destruct (llround (to32 x)) as [zz| |]; cbn [obind] in F; try discriminate. injection F as <-. pose proof (wrap32_range zz). unfold in_int in *. lia.
  - injection E as <-. rewrite fold_left_total, Z.add_0_l. pose proof (total_abs ws). destruct (Z.ltb_spec (total ws) 1); split; intros; unfold INT_MAX in *; lia.
Qed.

Theorem create_facts : forall clips weights scale scenes planes d, avgCreate clips weights scale scenes planes = Ok d ->
  avgOk d /\ av_weights d = map roundZ weights /\ getPlanesArg planes = Some (av_process d) /\
  (av_single d = true <-> zlength clips = 1) /\ (av_single d = false -> zlength (av_weights d) = zlength clips) /\
  (scale = None -> 1 <= total (av_weights d) -> av_scale d = total (av_weights d)) /\
  exists vi rest, clips = vi :: rest /\ vi_fmt (av_vi d) = vi_fmt vi /\ vi_w (av_vi d) = vi_w vi /\ vi_h (av_vi d) = vi_h vi /\ Forall (fun v => sameInfo vi v = true) rest.
Proof.
  intros clips weights scale scenes planes d E. unfold avgCreate in E.
  destruct (if zlength clips =? 1 then _ else _) eqn:C1 in E; [discriminate|].
  destruct ((31 <? zlength weights) || (31 <? zlength clips)) eqn:C2; [discriminate|]. apply orb_false_elim in C2. destruct C2 as (C2 & C2').
  apply Z.ltb_ge in C2. apply Z.ltb_ge in C2'.
  destruct (negb (zlength clips =? 1) && negb (scenes =? 0)) eqn:C3; [discriminate|].
  destruct clips as [|vi rest]; [discriminate|].
  destruct (f_cf (vi_fmt vi) =? cfUndefined); [discriminate|]. destruct (Z.eqb_spec (f_st (vi_fmt vi)) stInteger) as [ST|]; cbn [negb] in E; [|discriminate].
  destruct (Z.ltb_spec 16 (f_bits (vi_fmt vi))) as [|B16]; [discriminate|]. destruct ((vi_w vi =? 0) || (vi_h vi =? 0)); [discriminate|].
  destruct (forallb (sameInfo vi) rest) eqn:FA; cbn [negb] in E; [|discriminate].
  destruct (avgWeights weights) as [ws| |] eqn:EW; cbn [obind] in E; try discriminate. destruct (avgWeights_spec _ _ EW) as (LW & FW & MW & _).
  destruct (avgScale ws scale) as [s| |] eqn:ES; cbn [obind] in E; try discriminate. destruct (getPlanesArg planes) as [pr|] eqn:GP; [|discriminate].
  apply Ok_inj in E. subst d. cbn [av_weights av_scale av_scenes av_single av_process av_vi vi_fmt vi_w vi_h].
  assert (LW' : zlength ws = zlength weights) by (unfold zlength; congruence).
  assert (C0 : 1 <= zlength (vi :: rest)) by (unfold zlength; cbn [length]; lia). assert (W0 : 0 <= zlength weights) by (unfold zlength; lia).
  assert (W1 : 1 <= zlength weights).
  { destruct (zlength (vi :: rest) =? 1).
    - destruct (Z.eq_dec (zlength weights) 0) as [Z0|]; [rewrite Z0 in C1; discriminate | lia].
    - apply negb_false_iff, Z.eqb_eq in C1. lia. }
  assert (AS : absSum ws <= INT_MAX) by (pose proof (absSum_bound 1023 ws ltac:(lia) FW); unfold INT_MAX; lia).
  destruct (avgScale_spec _ _ _ ES AS) as (S1 & S2).
  split; [|split; [exact MW|split; [reflexivity|split; [exact (Z.eqb_eq (zlength (vi :: rest)) 1)|split; [|split; [exact S2|]]]]]].
  - unfold avgOk. cbn [av_weights av_scale av_scenes av_single av_process av_vi vi_fmt vi_w vi_h].
    split; [exact S1|]. split; [exact FW|]. split; [lia|]. split; [|split; [|split; [exact ST | exact B16]]].
    + intros SG. rewrite SG in C1. apply negb_false_iff, Z.eqb_eq in C1. rewrite LW'. rewrite Z.rem_mod_nonneg in C1 by lia. rewrite Zmod_odd in C1. destruct (Z.odd (zlength weights)); [reflexivity | discriminate].
    + intros SC. rewrite SC, andb_true_r in C3. apply negb_false_iff in C3. exact C3.
  - intros SG. rewrite SG in C1. apply negb_false_iff, Z.eqb_eq in C1. lia.
  - exists vi, rest. split; [reflexivity|]. do 3 (split; [reflexivity|]). rewrite Forall_forall. rewrite forallb_forall in FA. exact FA.
Qed.

(** ** Whole frames *)
Theorem average_frame : forall al g d frames vi, alignment al -> avgOk d -> fmt_valid (vi_fmt vi) -> f_st (vi_fmt vi) = stInteger -> f_bits (vi_fmt vi) <= 16 ->
  zlength frames = zlength (av_weights d) -> Forall (wfFrame al) frames -> Forall (fun s => matches s vi) frames -> Forall byteFrame frames ->
  exists center r ws, nthz frames (if av_single d then zlength frames / 2 else 0) = Some center /\ averageGetFrame al g d frames = Ok r /\ wfFrame al r /\
    vf_fmt r = vi_fmt vi /\ vf_w r = vi_w vi /\ vf_h r = vi_h vi /\ vf_props r = vf_props center /\
    (if av_scenes d then sceneWeights (flagAt "_SceneChangePrev" frames) (flagAt "_SceneChangeNext" frames) (zlength frames / 2) (av_weights d) ws else ws = av_weights d) /\
    forall i, 0 <= i < f_np (vi_fmt vi) -> exists b, planeImg r i = Some b /\
      if av_process d i then exists imgs, partsOf frames i imgs /\ i_w b = planeW (vi_fmt vi) (vi_w vi) i /\ i_h b = planeH (vi_fmt vi) (vi_h vi) i /\
          averageImg (biasOf (vi_fmt vi) i) (2 ^ f_bits (vi_fmt vi) - 1) (av_scale d) ws imgs b
      else exists a, planeImg center i = Some a /\ same a b.
Proof.
  intros al g d frames vi AL (SC & FW & LW & OD & SS & _) V ST B16 LF WF MA BF. pose proof (alignment_isAl _ AL) as A.
  assert (CI : 0 <= (if av_single d then zlength frames / 2 else 0) < zlength frames).
  { destruct (av_single d); [split; [apply Z.div_pos; lia | apply Z.div_lt_upper_bound; lia] | lia]. }
  assert (CX : exists center, nthz frames (if av_single d then zlength frames / 2 else 0) = Some center).
  { set (c := if av_single d then zlength frames / 2 else 0) in *. unfold nthz. destruct (Z.ltb_spec c 0); [lia|].
    destruct (nth_error frames (Z.to_nat c)) eqn:N; [eauto|]. apply nth_error_None in N. unfold zlength in CI. lia. }
  destruct CX as (center & CN). pose proof CN as CM. unfold nthz in CM. destruct (_ <? 0) in CM; [discriminate|]. apply nth_error_In in CM.
  assert (CW : wfFrame al center) by (rewrite Forall_forall in WF; auto). assert (CV : matches center vi) by (rewrite Forall_forall in MA; auto).
  pose proof CV as (C1 & C2 & C3). pose proof CW as (_ & CW1 & CW2 & _).
  assert (AS : absSum (av_weights d) <= 31713) by (pose proof (absSum_bound 1023 _ ltac:(lia) FW); lia).
  assert (WS : exists ws, (if av_scenes d then redistribute (flagAt "_SceneChangePrev" frames) (flagAt "_SceneChangeNext" frames) (av_weights d) else Ok (av_weights d)) = Ok ws /\
     (if av_scenes d then sceneWeights (flagAt "_SceneChangePrev" frames) (flagAt "_SceneChangeNext" frames) (zlength frames / 2) (av_weights d) ws else ws = av_weights d) /\
     absSum ws <= 31713 /\ zlength ws = zlength frames).
  { destruct (av_scenes d).
    - destruct (redistribute_spec (flagAt "_SceneChangePrev" frames) (flagAt "_SceneChangeNext" frames) (av_weights d)) as (ws & E & S & B).
      + intros C. rewrite C in LW. unfold zlength in LW. cbn in LW. lia.
      + unfold INT_MAX. lia.
      + exists ws. rewrite LF. split; [exact E|]. split; [exact S|]. split; [lia|]. destruct S as (S & _). lia.
    - eexists. split; [reflexivity|]. split; [reflexivity|]. split; [exact AS | lia]. }
  destruct WS as (ws & EW & HW & AW & ZW).
  destruct (bytes_of _ V) as (BY1 & BY2 & BY3 & BY4).
  set (f := vi_fmt vi) in *.
  assert (VB : 8 <= f_bits f) by (destruct V as (_ & VL & _); lia).
  assert (KK : 256 ^ f_bytes f <= 65536) by (assert (f_bytes f = 1 \/ f_bytes f = 2) as [-> | ->] by lia; lia).
  assert (TOP : 0 <= 2 ^ f_bits f - 1 < 256 ^ f_bytes f).
  { pose proof (Z.pow_pos_nonneg 2 (f_bits f) ltac:(lia) ltac:(lia)). change 256 with (2 ^ 8). rewrite <- Z.pow_mul_r by lia.
    pose proof (Z.pow_le_mono_r 2 (f_bits f) (8 * f_bytes f) ltac:(lia) ltac:(lia)). lia. }
  assert (BIAS : forall i, 0 <= biasOf f i <= 32768).
  { intros i. unfold biasOf. destruct (_ && _); [|lia]. pose proof (Z.pow_le_mono_r 2 (f_bits f - 1) 15 ltac:(lia) ltac:(lia)).
    pose proof (Z.pow_pos_nonneg 2 (f_bits f - 1) ltac:(lia) ltac:(lia)). lia. }
  assert (M' : Forall (fun s => vf_fmt s = f /\ vf_w s = vi_w vi /\ vf_h s = vi_h vi) frames) by exact MA.
  unfold averageGetFrame. rewrite CN. cbv zeta. rewrite EW. cbn [obind]. rewrite C1, C2, C3. fold f.
  set (val := fun i bufs => averagePixel (f_bytes f) (av_scale d) (2 ^ f_bits f - 1) (biasOf f i) (strideOf al f (vi_w vi) i) ws bufs).
  set (img := fun i => if av_process d i then mkI (planeW f (vi_w vi) i) (planeH f (vi_h vi) i)
      (fun x y => match planesOf frames i with Ok bufs => match val i bufs x y with Ok v => v | _ => 0 end | _ => 0 end)
    else match planeImg center i with Some a => a | None => mkI 0 0 (fun _ _ => 0) end).
  assert (PX : forall i, 0 <= i < f_np f -> exists bufs imgs, planesOf frames i = Ok bufs /\ partsOf frames i imgs /\
     forall x y, 0 <= x < planeW f (vi_w vi) i -> 0 <= y < planeH f (vi_h vi) i -> exists v, val i bufs x y = Ok v /\
       average (biasOf f i) (2 ^ f_bits f - 1) (av_scale d) ws (map (fun a => i_at a x y) imgs) v /\ 0 <= v <= 2 ^ f_bits f - 1).
  { intros i I. destruct (planesOf_spec al frames i f (vi_w vi) (vi_h vi) A WF M' BF I) as (bufs & imgs & E & P & L & Q).
    exists bufs, imgs. split; [exact E|]. split; [exact P|]. intros x y X Y. destruct (Q x y X Y) as (Q1 & Q2).
    apply pixel_spec; auto; [lia | |].
    - rewrite map_length, L. unfold zlength in ZW. lia.
    - eapply Forall_impl; [|exact Q2]. intros a Ha. cbv beta in *. lia. }
  destruct (filterFrame_spec al g f (vi_w vi) (vi_h vi) (av_process d) center
    (fun i q => obind (planesOf frames i) (fun srcs => averagePlane (f_bytes f) (f_bits f) (av_scale d) (((i =? 1) || (i =? 2)) && (f_cf f =? cfYUV)) ws srcs
          (getWidth f (vi_w vi) i) (getHeight f (vi_h vi) i) q)) img A V) as (r & R1 & R2 & R3 & R4 & R5 & R6 & R7); auto; try lia.
  - intros i I PR q WQ SQ. destruct (PX i I) as (bufs & imgs & E & P & Q). rewrite E. cbn [obind]. unfold averagePlane. fold (biasOf f i).
    rewrite getWidth_planeW, getHeight_planeH by auto. rewrite SQ.
    unfold img. rewrite PR, E. fold (val i bufs).
    destruct (drawPlane_spec (f_bytes f) (planeW f (vi_w vi) i) (planeH f (vi_h vi) i) (fun x y => match val i bufs x y with Ok v => v | _ => 0 end) ltac:(lia) (val i bufs) q WQ) as (m & D1 & D2 & D3).
    + intros x y X Y. destruct (Q x y X Y) as (v & EV & _ & RV). rewrite EV. split; [reflexivity | lia].
    + exists m. rewrite <- SQ. auto.
  - intros i I PR. rewrite C1, C2, C3. fold f. split; [lia|]. do 3 (split; [reflexivity|]). unfold img. rewrite PR.
    assert (IC : 0 <= i < f_np (vf_fmt center)) by (rewrite C1; exact I). destruct (wf_plane al center i A CW IC) as (p & N & _). unfold planeImg. rewrite N. eexists. split; [reflexivity | apply same_refl].
  - exists center, r, ws. split; [reflexivity|]. split; [exact R1|]. split; [exact R2|]. do 4 (split; [assumption|]). split; [exact HW|].
    intros i I. destruct (R7 i ltac:(rewrite R3; exact I)) as (b & B1 & B2 & B3 & B4). exists b. split; [exact B1|]. unfold img in B2, B3, B4.
    destruct (av_process d i).
    + destruct (PX i I) as (bufs & imgs & E & P & Q). cbn [i_w i_h i_at] in B2, B3, B4. rewrite E in B4. exists imgs. split; [exact P|]. split; [exact B2|]. split; [exact B3|].
      intros x y X Y. rewrite (B4 x y X Y). rewrite B2 in X. rewrite B3 in Y. destruct (Q x y X Y) as (v & EV & AV & _). rewrite EV. exact AV.
    + assert (IC : 0 <= i < f_np (vf_fmt center)) by (rewrite C1; exact I). destruct (wf_plane al center i A CW IC) as (p & N & _). unfold planeImg in *. rewrite N in *. eexists. split; [reflexivity|].
      apply same_sym. split; [exact B2|]. split; [exact B3 | exact B4].
Qed.
