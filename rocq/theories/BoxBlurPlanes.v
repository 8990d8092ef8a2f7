(** Whole planes and single plane frames of BoxBlur. *)
From Coq Require Import ZArith List Lia Bool.
From Verif Require Import Common FormatSpec Format FormatLemmas FrameSpec Frame FrameLemmas FrameGeom FrameFacts ImageSpec PlaneMem Spatial
  SpatialLemmas SpatialFrames SpatialStack SpatialShuffle Pixel PixelLemmas Transpose TransposeLemmas TransposeFrames
  LutFrames GenericSpec Generic BoxBlurSpec BoxBlur BoxBlurDiv BoxBlurRows.
Import ListNotations.
Open Scope Z_scope.

Definition inRange (k : Z) (a : image) : Prop := forall x y, 0 <= x < i_w a -> 0 <= y < i_h a -> 0 <= i_at a x y < 256 ^ k.

Lemma passes_dims : forall n r p a, i_w (boxPasses n r p a) = i_w a /\ i_h (boxPasses n r p a) = i_h a.
Proof. induction n as [|n IH]; intros r p a; [split; reflexivity|]. cbn [boxPasses]. destruct (IH r (p + 1) (boxH r (rounding r p) a)) as (A & B). rewrite A, B. split; reflexivity. Qed.

Lemma passes_snoc : forall n r p a, boxPasses (S n) r p a = boxH r (rounding r (p + Z.of_nat n)) (boxPasses n r p a).
Proof.
  induction n as [|n IH]; intros r p a; [cbn [boxPasses]; rewrite Z.add_0_r; reflexivity|].
  change (boxPasses (S (S n)) r p a) with (boxPasses (S n) r (p + 1) (boxH r (rounding r p) a)). rewrite IH.
  change (boxPasses (S n) r p a) with (boxPasses n r (p + 1) (boxH r (rounding r p) a)). do 2 f_equal. lia.
Qed.

Lemma rounding_range : forall r p, 0 <= r -> 0 <= rounding r p <= 2 * r.
Proof. intros r p R. unfold rounding. destruct (Z.odd p); lia. Qed.

Lemma passes_range : forall k r a, 1 <= k <= 2 -> 1 <= r <= 30000 -> inRange k a -> forall n, inRange k (boxPasses n r 0 a).
Proof.
  intros k r a K R A. induction n as [|n IH]; [exact A|]. rewrite passes_snoc. intros x y X Y. cbn [boxH i_w i_h i_at] in *.
  apply (mean_range k (i_w (boxPasses n r 0 a)) r _ (fun u => i_at (boxPasses n r 0 a) u y) K); [lia | exact R | apply rounding_range; lia |].
  intros u U. apply IH; [exact U | lia].
Qed.

Lemma rowSum_ext : forall r w f g x, 1 <= w -> (forall u, 0 <= u < w -> f u = g u) -> rowSum r w f x = rowSum r w g x.
Proof. intros r w f g x W E. unfold rowSum. f_equal. apply map_ext. intros d. apply E. apply edge_range. exact W. Qed.
Lemma boxH_proper : forall r q, proper (boxH r q).
Proof.
  intros r q a b (W & H & E). split; [exact W|]. split; [exact H|]. cbn [boxH i_w i_h i_at]. intros x y X Y. unfold rowMean. rewrite W.
  rewrite (rowSum_ext r (i_w b) (fun u => i_at a u y) (fun u => i_at b u y)); [reflexivity | lia |]. intros u U. apply E; lia.
Qed.
Lemma passes_proper : forall n r p, proper (boxPasses n r p).
Proof. induction n as [|n IH]; intros r p a b S; [exact S|]. cbn [boxPasses]. apply IH. apply boxH_proper. exact S. Qed.

Lemma wrote_trans : forall k d g g' m0 m1 m2 w, 0 <= w -> wrote k d g m0 w m1 -> wrote k d g' m1 w m2 -> wrote k d g' m0 w m2.
Proof. intros k d g g' m0 m1 m2 w W (A & B & C) (A' & B' & C'). split; [lia|]. split; [exact B'|]. intros a I. rewrite C' by exact I. apply C. exact I. Qed.

(** Rows written one after the other. *)
Definition rowsDone (k str : Z) (a : image) (y : Z) (m : pbuf) : Prop :=
  forall u v, 0 <= u < i_w a -> 0 <= v < y -> leval (Z.to_nat k) (b_data m) (v * str + u * k) = i_at a u v.

Lemma rows_step : forall k str a y m m', 1 <= k -> 0 <= y -> i_w a * k <= str -> rowsDone k str a y m ->
  wrote k (y * str) (fun u => i_at a u y) m (i_w a) m' -> rowsDone k str a (y + 1) m'.
Proof.
  intros k str a y m m' K Y S D (W1 & W2 & W3) u v U V. destruct (Z.eq_dec v y) as [->|N]; [apply W2; exact U|].
  rewrite <- (D u v U) by lia. apply leval_ext. intros j J. rewrite Z2Nat.id in J by lia. apply W3. left.
  assert (u * k + k <= i_w a * k) by nia. assert (v * str + str <= y * str) by nia. lia.
Qed.

Lemma rows_image : forall k str a m w h, i_w a = w -> i_h a = h -> rowsDone k str a h m -> same (imageOf k (mkPl str m) w h) a.
Proof. intros k str a m w h W H D. split; [cbn; auto|]. split; [cbn; auto|]. cbn [imageOf i_w i_h i_at p_stride p_buf]. intros x y X Y. apply D; lia. Qed.

Section Plane.
Variables (k w h passes r : Z) (src dst : plane).
Hypothesis HK : 1 <= k <= 2.
Hypothesis HW : 1 <= w.
Hypothesis HR : 1 <= r <= 30000.
Hypothesis HP : 1 <= passes.
Hypothesis WS : wfPlane k src w h.
Hypothesis WD : wfPlane k dst w h.
Hypothesis ST : p_stride src = p_stride dst.
Let a := imageOf k src w h.
Hypothesis RNG : inRange k a.
Let img (p : Z) : image := boxPasses (Z.to_nat p) r 0 a.

Lemma img_w : forall p, i_w (img p) = w /\ i_h (img p) = h.
Proof. intros p. destruct (passes_dims (Z.to_nat p) r 0 a) as (A & B). unfold img. rewrite A, B. split; reflexivity. Qed.
Lemma img_next : forall p u y, 0 <= p -> i_at (img (p + 1)) u y = rowMean r (rounding r p) w (fun v => i_at (img p) v y) u.
Proof.
  intros p u y P. unfold img. replace (Z.to_nat (p + 1)) with (S (Z.to_nat p)) by lia. rewrite passes_snoc. cbn [boxH i_at].
  destruct (img_w p) as (A & _). unfold img in A. rewrite A. rewrite Z2Nat.id by lia. reflexivity.
Qed.
Lemma img_range : forall p u y, 0 <= u < w -> 0 <= y < h -> 0 <= i_at (img p) u y < 256 ^ k.
Proof. intros p u y U Y. destruct (img_w p) as (A & B). apply passes_range; auto; fold (img p); lia. Qed.
Lemma room : forall y, 0 <= y < h -> 0 <= y * p_stride src /\ y * p_stride src + w * k <= b_size (p_buf dst).
Proof. intros y Y. destruct WD as (_ & _ & S & B). rewrite ST, B. nia. Qed.

Lemma wrote_ext : forall d g g' m0 m, (forall u, 0 <= u < w -> g u = g' u) -> wrote k d g m0 w m -> wrote k d g' m0 w m.
Proof. intros d g g' m0 m E (A & B & C). split; [exact A|]. split; [|exact C]. intros u U. rewrite B by exact U. apply E. exact U. Qed.

Lemma processPlane_spec : forall ring, w + r <= INT_MAX -> (1 < passes -> b_size ring = k * Z.min (r + 1) w) ->
  exists m, processPlane k w h passes r src ring dst = Ok m /\ b_size m = b_size (p_buf dst) /\
    same (imageOf k (mkPl (p_stride dst) m) w h) (img passes).
Proof.
  intros ring WI RG. unfold processPlane. cbv zeta.
  assert (DV : wrapu32 (r * 2 + 1) = 2 * r + 1) by (rewrite u32_id by (change (2 ^ 32) with 4294967296; lia); lia).
  rewrite DV. replace (2 * r + 1 - 1) with (2 * r) by lia. rewrite (u32_id (2 * r)) by (change (2 ^ 32) with 4294967296; lia).
  pose proof WD as (_ & H0 & SD & BD). destruct (img_w passes) as (IW & IH). assert (W0 : 0 <= w) by lia.
  set (body := fun (y : Z) (mr : pbuf * pbuf) => _).
  destruct (forZ_inv (fun y (mr : pbuf * pbuf) => b_size (fst mr) = b_size (p_buf dst) /\ (1 < passes -> b_size (snd mr) = k * Z.min (r + 1) w) /\
     rowsDone k (p_stride dst) (img passes) y (fst mr)) body h (p_buf dst, ring) H0) as (st & E & S & _ & D).
  - cbn [fst snd]. split; [reflexivity|]. split; [exact RG|]. intros u v _ V. lia.
  - intros y (m & rg) Y (S & RGS & D). cbn [fst snd] in *. unfold body. cbn [fst snd]. destruct (room y Y) as (R1 & R2).
    destruct (blurH_spec k w r (rounding r 0) (fun u => i_at (img 0) u y) HK HW HR WI (rounding_range r 0 ltac:(lia)) (fun u U => img_range 0 u y U Y)
      (p_buf src) (y * p_stride src) (y * p_stride src) m) as (m1 & E1 & W1).
    + intros i I. apply (loadS_at k src w h i y ltac:(lia) WS I Y).
    + exact R1.
    + rewrite S. exact R2.
    + change (rounding r 0) with (2 * r) in E1. rewrite E1. unfold obind at 1.
      destruct (forFrom_inv (fun p (mr : pbuf * pbuf) => wrote k (y * p_stride src) (fun u => i_at (img p) u y) m w (fst mr) /\ (1 < passes -> b_size (snd mr) = k * Z.min (r + 1) w))
        (fun p mr => blurRing k w r (makeFastDiv (2 * r + 1)) (if Z.odd p then 0 else 2 * r) (y * p_stride src) mr) 1 passes (m1, rg) HP) as ((m2 & rg2) & E2 & W2 & G2).
      * cbn [fst snd]. split; [|exact RGS]. apply (wrote_ext _ (fun x => rowMean r (rounding r 0) w (fun u => i_at (img 0) u y) x)); [|exact W1].
        intros u _. symmetry. apply (img_next 0 u y). lia.
      * intros p (m2 & rg2) P (W2 & G2). cbn [fst snd] in *. specialize (G2 ltac:(lia)). pose proof W2 as (W2S & W2G & _).
        destruct (blurRing_spec k w r (rounding r p) (fun u => i_at (img p) u y) HK HW HR WI (rounding_range r p ltac:(lia)) (fun u U => img_range p u y U Y)
          (y * p_stride src) m2 rg2 R1 ltac:(rewrite W2S, S; exact R2) W2G G2) as (m3 & rg3 & E3 & W3 & G3).
        exists (m3, rg3). split; [exact E3|]. cbn [fst snd]. split; [|intros _; rewrite G3; exact G2].
        apply (wrote_trans _ _ _ _ _ m2 _ _ W0 W2). apply (wrote_ext _ (fun x => rowMean r (rounding r p) w (fun u => i_at (img p) u y) x)); [|exact W3].
        intros u _. symmetry. apply img_next. lia.
      * cbn [fst snd] in *. exists (m2, rg2). split; [exact E2|]. cbn [fst snd]. split; [destruct W2 as (W2 & _); lia|]. split; [exact G2|].
        rewrite ST in W2. apply (rows_step k _ _ y m); [lia | lia | rewrite IW; exact SD | exact D | rewrite IW; exact W2].
  - rewrite E. unfold obind. destruct st as (m & rg). cbn [fst snd] in *. exists m. split; [reflexivity|]. split; [exact S|].
    apply rows_image; assumption.
Qed.

Lemma processR1_spec : r = 1 -> 3 <= w ->
  exists m, processR1 k w h passes src dst = Ok m /\ b_size m = b_size (p_buf dst) /\
    same (imageOf k (mkPl (p_stride dst) m) w h) (img passes).
Proof.
  intros R1E W3. unfold processR1. pose proof WD as (_ & H0 & SD & BD). destruct (img_w passes) as (IW & IH). assert (W0 : 0 <= w) by lia.
  set (body := fun (y : Z) (m : pbuf) => _).
  destruct (forZ_inv (fun y (m : pbuf) => b_size m = b_size (p_buf dst) /\
     rowsDone k (p_stride dst) (img passes) y m) body h (p_buf dst) H0) as (m & E & S & D).
  - split; [reflexivity|]. intros u v _ V. lia.
  - intros y m Y (S & D). unfold body. destruct (room y Y) as (Q1 & Q2).
    assert (RD : forall p, 0 <= rounding 1 p <= 2) by (intros p; pose proof (rounding_range 1 p ltac:(lia)); lia).
    destruct (blurR1_spec k w (rounding 1 0) (fun u => i_at (img 0) u y) HK W3 (RD 0) (fun u U => img_range 0 u y U Y)
      false (p_buf src) (y * p_stride src) (y * p_stride src) m Q1 ltac:(rewrite S; exact Q2)) as (m1 & E1 & W1).
    { intros x m' i X I _. apply (loadS_at k src w h i y ltac:(lia) WS ltac:(lia) Y). }
    change (rounding 1 0) with 2 in E1. rewrite E1. unfold obind at 1.
    destruct (forFrom_inv (fun p (mr : pbuf) => wrote k (y * p_stride src) (fun u => i_at (img p) u y) m w mr)
        (fun p m' => blurR1 k w (if Z.odd p then 0 else 2) true (p_buf src) (y * p_stride src) (y * p_stride src) m') 1 passes m1 HP) as (m2 & E2 & W2).
    + apply (wrote_ext _ (fun x => rowMean 1 (rounding 1 0) w (fun u => i_at (img 0) u y) x)); [|exact W1].
      intros u _. pose proof (img_next 0 u y ltac:(lia)) as Q. rewrite R1E in Q. symmetry. exact Q.
    + intros p m2 P W2. pose proof W2 as (W2S & W2G & _).
      destruct (blurR1_spec k w (rounding 1 p) (fun u => i_at (img p) u y) HK W3 (RD p) (fun u U => img_range p u y U Y)
        true (p_buf src) (y * p_stride src) (y * p_stride src) m2 Q1 ltac:(rewrite W2S, S; exact Q2)) as (m3 & E3 & W3').
      { intros x m' i X I W'. rewrite (wrote_rest k _ _ m2 w x m' i ltac:(lia) Q1 ltac:(rewrite W2S, S; exact Q2) X I W'). f_equal. apply W2G. lia. }
      exists m3. split; [exact E3|]. apply (wrote_trans _ _ _ _ _ m2 _ _ W0 W2).
      apply (wrote_ext _ (fun x => rowMean 1 (rounding 1 p) w (fun u => i_at (img p) u y) x)); [|exact W3'].
      intros u _. pose proof (img_next p u y ltac:(lia)) as Q. rewrite R1E in Q. symmetry. exact Q.
    + exists m2. split; [exact E2|]. split; [destruct W2 as (W2 & _); lia|].
      rewrite ST in W2. apply (rows_step k _ _ y m); [lia | lia | rewrite IW; exact SD | exact D | rewrite IW; exact W2].
  - exists m. split; [exact E|]. split; [exact S|]. apply rows_image; assumption.
Qed.
End Plane.

(** The picture of the only plane. *)
Definition only (fr : vframe) (a : image) : Prop := f_np (vf_fmt fr) = 1 /\ exists b, planeImg fr 0 = Some b /\ same b a.

Lemma inRange_same : forall k a b, same a b -> inRange k a -> inRange k b.
Proof. intros k a b (W & H & E) R x y X Y. rewrite <- E by lia. apply R; lia. Qed.

Lemma box_frame : forall al g ring0 radius passes src a, alignment al -> wfFrame al src -> only src a ->
  f_st (vf_fmt src) = stInteger -> f_bits (vf_fmt src) <= 16 -> 1 <= radius <= 30000 -> 1 <= passes ->
  vf_w src + radius <= INT_MAX -> inRange (f_bytes (vf_fmt src)) a ->
  exists r, boxGetFrame al g ring0 radius passes src = Ok r /\ wfFrame al r /\ vf_fmt r = vf_fmt src /\ vf_w r = vf_w src /\ vf_h r = vf_h src /\
    vf_props r = vf_props src /\ only r (boxPasses (Z.to_nat passes) radius 0 a).
Proof.
  intros al g ring0 radius passes src a A WF (NP & b & PI & SB) FI FB R P WI RG.
  pose proof (alignment_isAl _ A) as IA. pose proof WF as (V & W & H & L & PL).
  assert (K : 1 <= f_bytes (vf_fmt src) <= 2).
  { destruct (bytes_of _ V) as (B1 & B2 & B3 & _). specialize (B3 FB). lia. }
  unfold boxGetFrame. rewrite FI, Z.eqb_refl. destruct (Z.ltb_spec 16 (f_bits (vf_fmt src))); [lia|]. cbn [negb orb].
  destruct (newFrame_spec al g (vf_fmt src) (vf_w src) (vf_h src) (vf_props src) IA V W H) as (dst & E & WD & D1 & D2 & D3 & D4).
  rewrite E. unfold obind at 1. unfold onPlanes. change (Z.to_nat 1) with 1%nat. cbn [eachPlane].
  destruct (wf_plane al src 0 IA WF ltac:(lia)) as (p & Ep & Wp). destruct (wf_plane al dst 0 IA WD ltac:(rewrite D1; lia)) as (q & Eq & Wq).
  rewrite D1, D2, D3 in Wq. pose proof WD as (_ & _ & _ & LD & PD).
  destruct (PL 0 p Ep) as (S1 & S2). destruct (PD 0 q Eq) as (T1 & T2). rewrite D1, D2, D3 in *.
  unfold withPlanes. rewrite Ep, Eq.
  unfold planeImg in PI. rewrite Ep in PI. injection PI as <-.
  change (planeW (vf_fmt src) (vf_w src) 0) with (vf_w src) in *. change (planeH (vf_fmt src) (vf_h src) 0) with (vf_h src) in *.
  rewrite getWidth_planeW, getHeight_planeH by exact V.
  change (planeW (vf_fmt src) (vf_w src) 0) with (vf_w src). change (planeH (vf_fmt src) (vf_h src) 0) with (vf_h src).
  set (k := f_bytes (vf_fmt src)) in *. set (w := vf_w src) in *. set (h := vf_h src) in *.
  assert (RP : inRange k (imageOf k p w h)) by (eapply inRange_same; [apply same_sym; exact SB | exact RG]).
  assert (ROW : exists m, (if (radius =? 1) && (3 <=? w) then processR1 k w h passes p q
     else processPlane k w h passes radius p (mkB (if negb ((radius =? 1) && (3 <=? w)) && (1 <? passes) then k * Z.min (radius + 1) w else 0) ring0) q) = Ok m /\
     b_size m = b_size (p_buf q) /\ same (imageOf k (mkPl (p_stride q) m) w h) (boxPasses (Z.to_nat passes) radius 0 (imageOf k p w h))).
  { destruct ((radius =? 1) && (3 <=? w)) eqn:C.
    - apply andb_prop in C. destruct C as (C1 & C2). apply Z.eqb_eq in C1. apply Z.leb_le in C2.
      apply (processR1_spec k w h passes radius p q); auto; congruence.
    - apply (processPlane_spec k w h passes radius p q); auto; [congruence|]. intros P1. cbn [negb andb b_size].
      destruct (Z.ltb_spec 1 passes); [reflexivity | lia]. }
  destruct ROW as (m & ER & SM & IM). cbv zeta. rewrite ER. unfold obind. eexists. split; [reflexivity|].
  cbn [vf_fmt vf_w vf_h vf_props vf_planes].
  split.
  { split; [exact V|]. cbn [vf_fmt vf_w vf_h vf_planes]. split; [lia|]. split; [lia|]. split; [rewrite NP; reflexivity|].
    intros i x Ix. assert (i = 0). { apply nthz_range in Ix. rewrite zlength_cons in Ix. change (zlength (@nil plane)) with 0 in Ix. lia. }
    subst i. rewrite nthz_cons_0 in Ix. injection Ix as <-. cbn [p_stride p_buf]. split; [exact T1|]. rewrite SM. exact T2. }
  split; [reflexivity|]. split; [reflexivity|]. split; [reflexivity|]. split; [exact D4|].
  split; [cbn [vf_fmt]; exact NP|]. unfold planeImg. cbn [vf_fmt vf_w vf_h vf_planes]. rewrite nthz_cons_0.
  eexists. split; [reflexivity|]. apply (same_trans _ _ _ IM). apply passes_proper. exact SB.
Qed.

Lemma inRange_passes : forall k r n a, 1 <= k <= 2 -> 1 <= r <= 30000 -> inRange k a -> inRange k (boxPasses n r 0 a).
Proof. intros k r n a K R A. apply passes_range; assumption. Qed.
Lemma inRange_dir : forall k r p a, 1 <= k <= 2 -> r <= 30000 -> inRange k a -> inRange k (boxDir r p a).
Proof.
  intros k r p a K R A. unfold boxDir. destruct (blurs r p) eqn:B; [|exact A]. unfold blurs in B. apply andb_prop in B. destruct B as (B & _). apply Z.ltb_lt in B.
  apply inRange_passes; [exact K | lia | exact A].
Qed.
Lemma inRange_transposed : forall k a, inRange k a -> inRange k (transposed a).
Proof. intros k a A x y X Y. cbn [transposed i_w i_h i_at] in *. apply A; assumption. Qed.

Lemma addressable_small : forall al f w h, alignment al -> fmt_valid f -> 0 <= w < 2 ^ 30 -> 0 <= h < 2 ^ 30 -> addressable al f w h.
Proof.
  intros al f w h A V W H i. pose proof (planeW_bounds f w i V ltac:(lia)). pose proof (planeH_bounds f h i V ltac:(lia)). pose proof (valid_bytes f V).
  pose proof (ceilTo_bounds al (planeW f w i * f_bytes f) (isAl_pos _ (alignment_isAl _ A))) as C. unfold strideOf.
  assert (al <= 64) by (destruct A as [-> | ->]; lia). change (2 ^ 30) with 1073741824 in *.
  assert (ceilTo al (planeW f w i * f_bytes f) <= 4294967296 + 64) by nia. change INT64_MAX with 9223372036854775807. nia.
Qed.

(** The chain of nodes for one plane. *)
Lemma chain_frame : forall e a vi src im, alignment (am_al e) -> wfFrame (am_al e) src -> matches src vi -> only src im ->
  f_st (vf_fmt src) = stInteger -> f_bits (vf_fmt src) <= 16 ->
  ba_hr a <= 30000 -> ba_vr a <= 30000 -> vf_w src < 2 ^ 30 -> vf_h src < 2 ^ 30 -> inRange (f_bytes (vf_fmt src)) im ->
  exists r, boxChain e a vi src = Ok r /\ wfFrame (am_al e) r /\ vf_fmt r = vf_fmt src /\ vf_w r = vf_w src /\ vf_h r = vf_h src /\
    vf_props r = vf_props src /\ only r (boxBlur (ba_hr a) (ba_hp a) (ba_vr a) (ba_vp a) im).
Proof.
  intros e a vi src im A WF M O FI FB HR VR WB HB RG. pose proof WF as (V & W & H & _).
  assert (K : 1 <= f_bytes (vf_fmt src) <= 2).
  { destruct (bytes_of _ V) as (B1 & B2 & B3 & _). specialize (B3 FB). lia. }
  assert (ID : forall r, r <= 30000 -> forall n, n < 2 ^ 30 -> n + r <= INT_MAX) by (intros; change INT_MAX with 2147483647; change (2 ^ 30) with 1073741824 in *; lia).
  unfold boxChain, boxBlur.
  assert (FIRST : exists b, (if on2 (ba_hr a) (ba_hp a) then boxGetFrame (am_al e) (am_g e) (am_ring e) (ba_hr a) (ba_hp a) src else Ok src) = Ok b /\
     wfFrame (am_al e) b /\ vf_fmt b = vf_fmt src /\ vf_w b = vf_w src /\ vf_h b = vf_h src /\ vf_props b = vf_props src /\ only b (boxDir (ba_hr a) (ba_hp a) im)).
  { unfold boxDir. change (blurs (ba_hr a) (ba_hp a)) with (on2 (ba_hr a) (ba_hp a)). destruct (on2 (ba_hr a) (ba_hp a)) eqn:B.
    - unfold on2 in B. apply andb_prop in B. destruct B as (B1 & B2). apply Z.ltb_lt in B1, B2.
      apply box_frame; auto; lia.
    - exists src. do 6 (split; [auto|]). exact O. }
  destruct FIRST as (b & -> & WB1 & BF & BW & BH & BP & BO). unfold obind at 1. cbv zeta.
  change (blurs (ba_vr a) (ba_vp a)) with (on2 (ba_vr a) (ba_vp a)). destruct (on2 (ba_vr a) (ba_vp a)) eqn:B.
  2:{ exists b. do 6 (split; [auto|]). exact BO. }
  unfold on2 in B. pose proof B as B'. apply andb_prop in B. destruct B as (B1 & B2). apply Z.ltb_lt in B1, B2.
  destruct M as (M1 & M2 & M3). assert (Vv : fmt_valid (vi_fmt vi)) by (rewrite <- M1; exact V).
  pose proof (transposeCreate_ok vi Vv ltac:(lia) ltac:(lia)) as TC. pose proof (transposeCreate_ok (turnedVI vi) (swapFmt_valid _ Vv) ltac:(cbn; lia) ltac:(cbn; lia)) as TC2.
  rewrite TC. unfold obind at 1. rewrite TC2. unfold obind at 1. rewrite turnedVI_twice in *.
  assert (AD : addressable (am_al e) (vi_fmt vi) (vi_w vi) (vi_h vi)) by (apply addressable_small; auto; lia).
  assert (AD' : addressable (am_al e) (vi_fmt (turnedVI vi)) (vi_w (turnedVI vi)) (vi_h (turnedVI vi))).
  { apply addressable_small; [exact A | apply swapFmt_valid; exact Vv | cbn; lia | cbn; lia]. }
  destruct (transpose_frame (am_al e) (am_g e) (am_sse2 e) Transpose.Transpose vi (turnedVI vi) b A WB1 ltac:(split; [congruence|split; congruence]) TC AD AD')
    as (t & Et & Wt & (T1 & T2 & T3) & Tp & Tm).
  rewrite Et. unfold obind at 1.
  assert (TO : only t (transposed (boxDir (ba_hr a) (ba_hp a) im))).
  { destruct BO as (N1 & bb & Pb & Sb). split; [rewrite T1; cbn; rewrite <- M1, <- BF; exact N1|].
    destruct (Tm 0) as (x & y & X & Y & S); [rewrite T1; cbn; rewrite <- M1, <- BF; lia|]. rewrite Pb in X. injection X as <-. exists y. split; [exact Y|].
    apply (same_trans _ _ _ S). cbn [turnOf]. apply transposed_proper. exact Sb. }
  assert (TF : f_st (vf_fmt t) = stInteger /\ f_bits (vf_fmt t) <= 16 /\ f_bytes (vf_fmt t) = f_bytes (vf_fmt src)).
  { rewrite T1. cbn. rewrite <- M1. auto. }
  destruct TF as (TF1 & TF2 & TF3).
  destruct (box_frame (am_al e) (am_g e) (am_ring e) (ba_vr a) (ba_vp a) t _ A Wt TO TF1 TF2) as (u & Eu & Wu & U1 & U2 & U3 & U4 & UO); [lia | lia | | |].
  { rewrite T2. cbn. rewrite <- M3. apply ID; lia. }
  { rewrite TF3. apply inRange_transposed. apply inRange_dir; auto. }
  rewrite Eu. unfold obind.
  destruct (transpose_frame (am_al e) (am_g e) (am_sse2 e) Transpose.Transpose (turnedVI vi) vi u A Wu ltac:(split; [congruence|split; congruence]) TC2 AD' AD)
    as (o & Eo & Wo & (O1 & O2 & O3) & Op & Om).
  exists o. split; [exact Eo|]. split; [exact Wo|]. split; [congruence|]. split; [congruence|]. split; [congruence|]. split; [congruence|].
  destruct UO as (N1 & ub & Pu & Su). destruct O as (NP & _). split; [rewrite O1, <- M1; exact NP|].
  destruct (Om 0) as (x & y & X & Y & S); [rewrite O1, <- M1; lia|]. rewrite Pu in X. injection X as <-. exists y. split; [exact Y|].
  apply (same_trans _ _ _ S). cbn [turnOf]. apply transposed_proper. apply (same_trans _ _ _ Su).
  unfold boxDir at 2. change (blurs (ba_vr a) (ba_vp a)) with (on2 (ba_vr a) (ba_vp a)). unfold on2. rewrite B'. apply same_refl.
Qed.
