(** Which conversion makes which rows of a resized frame. *)
From Coq Require Import String.
From Coq Require Import ZArith List Lia Bool.
From Coq Require Import SpecFloat.
From Verif Require Import Common FormatSpec Format Frame FrameSpec FrameLemmas FrameGeom SMap MapSpec MapAlias PropsSpec Props PropsLemmas ImageSpec PlaneMem Spatial SpatialLemmas SpatialFields Rational Soft ClipProp Blank ResizeSpec Resize ResizeColour ResizeColour2 ResizeSar.
Import ListNotations.
Local Open Scope string_scope.
Local Open Scope list_scope.
Open Scope Z_scope.

Definition asV (r : rframe) : vframe := mkVF (rf_fmt r) (rf_w r) (rf_h r) (rf_planes r) (fun _ => None).
Definition step (fld : Z) : Z := if fld =? 0 then 1 else 2.
Definition phase (fld : Z) : Z := if fld =? 2 then 1 else 0.
Definition part (fld : Z) (a : image) : image := if fld =? 0 then a else if fld =? 2 then bottomField a else topField a.
Definition isFld (fld : Z) : Prop := fld = 0 \/ fld = 1 \/ fld = 2.

(** ** One plane *)

Lemma read_ok : forall k p w h fld, isFld fld -> 0 <= k -> wfPlane k p w (step fld * h) -> 0 <= h ->
  exists im, readImage (p_buf p) (fieldStart p fld) (rowStep p fld) k w h = Ok im /\ same im (part fld (imageOf k p w (step fld * h))).
Proof.
  intros k p w h fld F K (W & H & R & S) HH. unfold readImage.
  set (st := p_stride p) in *.
  assert (ST : fieldStart p fld = phase fld * st) by (unfold fieldStart, phase; destruct (fld =? 2); fold st; lia).
  assert (RS : rowStep p fld = step fld * st) by (unfold rowStep, step; destruct (fld =? 0); fold st; lia).
  assert (PH : 0 <= phase fld < step fld /\ 1 <= step fld) by (destruct F as [->|[->| ->]]; cbn; lia).
  assert (G : (h <=? 0) || (w <=? 0) || (inside (p_buf p) (fieldStart p fld) (w * k) && inside (p_buf p) (fieldStart p fld + (h - 1) * rowStep p fld) (w * k)) = true).
  { destruct (Z.leb_spec h 0); [reflexivity|]. destruct (Z.leb_spec w 0); [reflexivity|]. cbn [orb]. rewrite ST, RS.
    assert (0 <= w * k) by nia. assert (0 <= st) by lia.
    assert (L1 : phase fld + step fld * (h - 1) + 1 <= step fld * h) by nia.
    assert (L2 : (phase fld + step fld * (h - 1) + 1) * st <= step fld * h * st) by (apply Z.mul_le_mono_nonneg_r; lia).
    assert (L3 : (phase fld + 1) * st <= step fld * h * st) by (apply Z.mul_le_mono_nonneg_r; nia).
    assert (0 <= phase fld * st) by nia. assert (0 <= (h - 1) * (step fld * st)) by nia.
    rewrite !inside_true; try reflexivity; rewrite ?S; try lia; nia. }
  rewrite G. eexists. split; [reflexivity|]. rewrite ST, RS. fold st.
  destruct F as [->|[->| ->]].
  - change (step 0) with 1. change (phase 0) with 0. unfold part. cbn [Z.eqb]. unfold same, imageOf. cbn [i_w i_h i_at]. split; [reflexivity|]. split; [lia|]. intros x y X Y. apply leval_ext. intros o O. f_equal. unfold st. ring.
  - change (step 1) with 2. change (phase 1) with 0. unfold part. cbn [Z.eqb]. unfold same, topField, imageOf. cbn [i_w i_h i_at]. split; [reflexivity|]. split; [rewrite Z.mul_comm, Z.div_mul by lia; reflexivity|]. intros x y X Y. apply leval_ext. intros o O. f_equal. unfold st. ring.
  - change (step 2) with 2. change (phase 2) with 1. unfold part. cbn [Z.eqb Pos.eqb]. unfold same, bottomField, imageOf. cbn [i_w i_h i_at]. split; [reflexivity|]. split; [rewrite Z.mul_comm, Z.div_mul by lia; reflexivity|]. intros x y X Y. apply leval_ext. intros o O. f_equal. unfold st. ring.
Qed.

Lemma write_bytes : forall b start st k w h im, 1 <= k -> 0 <= w -> 0 <= h -> w * k <= st -> 0 <= start ->
  (forall y, 0 <= y < h -> start + y * st + w * k <= b_size b) ->
  exists b', writeImage b start st k w h im = Ok b' /\ b_size b' = b_size b /\
    (forall y o, 0 <= y < h -> 0 <= o < w * k -> b_data b' (start + y * st + o) = byteOf (i_at im (o / k) y) (o mod k)) /\
    (forall a, (forall y, 0 <= y < h -> ~ (start + y * st <= a < start + y * st + w * k)) -> b_data b' a = b_data b a).
Proof.
  intros b start st k w h im K W H R S0 Z0. unfold writeImage.
  apply (forZ_inv (fun j b' => b_size b' = b_size b /\
    (forall y o, 0 <= y < j -> 0 <= o < w * k -> b_data b' (start + y * st + o) = byteOf (i_at im (o / k) y) (o mod k)) /\
    (forall a, (forall y, 0 <= y < j -> ~ (start + y * st <= a < start + y * st + w * k)) -> b_data b' a = b_data b a))); [exact H| |].
  - repeat split; try reflexivity. intros y o Y. lia.
  - intros j t J (A & B & C). unfold writeRow.
    assert (0 <= w * k) by nia.
    replace ((w <=? 0) || inside t (start + j * st) (w * k)) with true.
    2:{ symmetry. destruct (Z.leb_spec w 0); [reflexivity|]. cbn. apply inside_true; [nia|]. rewrite A. exact (Z0 j J). }
    eexists. split; [reflexivity|]. cbn [b_size b_data]. split; [exact A|]. split.
    + intros y o Y O. destruct (Z.eq_dec y j) as [->|N].
      * replace (start + j * st <=? start + j * st + o) with true by (symmetry; apply Z.leb_le; lia).
        replace (start + j * st + o <? start + j * st + w * k) with true by (symmetry; apply Z.ltb_lt; lia). cbn [andb].
        replace (start + j * st + o - (start + j * st)) with o by lia. reflexivity.
      * assert (y < j) by lia.
        assert ((y + 1) * st <= j * st) by (apply Z.mul_le_mono_nonneg_r; lia).
        replace (start + j * st <=? start + y * st + o) with false by (symmetry; apply Z.leb_gt; lia). cbn [andb].
        apply B; lia.
    + intros a N. assert (NJ := N j ltac:(lia)).
      replace ((start + j * st <=? a) && (a <? start + j * st + w * k)) with false.
      2:{ symmetry. apply andb_false_iff. destruct (Z.leb_spec (start + j * st) a); [right; apply Z.ltb_ge; lia|left; reflexivity]. }
      apply C. intros y Y. apply N. lia.
Qed.

Definition at_ (k : Z) (p : plane) (x y : Z) : Z := leval (Z.to_nat k) (b_data (p_buf p)) (y * p_stride p + x * k).
Lemma write_plane : forall k q w H h fld im, isFld fld -> 1 <= k -> wfPlane k q w H -> 0 <= h -> step fld * h <= H ->
  (forall x y, 0 <= x < w -> 0 <= y < h -> 0 <= i_at im x y < 256 ^ k) ->
  exists b, writeImage (p_buf q) (fieldStart q fld) (rowStep q fld) k w h im = Ok b /\ wfPlane k (mkPl (p_stride q) b) w H /\
    (forall x y, 0 <= x < w -> 0 <= y < h -> at_ k (mkPl (p_stride q) b) x (step fld * y + phase fld) = i_at im x y) /\
    (forall x y', 0 <= x < w -> 0 <= y' -> (forall y, 0 <= y < h -> y' <> step fld * y + phase fld) -> at_ k (mkPl (p_stride q) b) x y' = at_ k q x y').
Proof.
  intros k q w H h fld im F K (W & HH & R & S) H0 SH V.
  set (st := p_stride q) in *.
  assert (ST : fieldStart q fld = phase fld * st) by (unfold fieldStart, phase; destruct (fld =? 2); fold st; lia).
  assert (RS : rowStep q fld = step fld * st) by (unfold rowStep, step; destruct (fld =? 0); fold st; lia).
  assert (PH : 0 <= phase fld < step fld /\ 1 <= step fld <= 2) by (destruct F as [->|[->| ->]]; cbn; lia).
  assert (WK : 0 <= w * k) by nia. assert (S0 : 0 <= st) by lia.
  rewrite ST, RS.
  destruct (write_bytes (p_buf q) (phase fld * st) (step fld * st) k w h im K W H0) as (b & E & A & B & C).
  { nia. } { nia. }
  { intros y Y. rewrite S. assert (phase fld + step fld * y + 1 <= H) by nia. assert ((phase fld + step fld * y + 1) * st <= H * st) by (apply Z.mul_le_mono_nonneg_r; lia). nia. }
  exists b. split; [exact E|]. split; [|split].
  - unfold wfPlane. cbn [p_stride p_buf]. rewrite A. repeat split; auto.
  - intros x y X Y. unfold at_. cbn [p_stride p_buf]. fold st. apply leval_bytes.
    + rewrite Z2Nat.id by lia. apply V; assumption.
    + intros o O. rewrite Z2Nat.id in O by lia.
      assert (XK : x * k + k <= w * k) by nia.
      replace ((step fld * y + phase fld) * st + x * k + o) with (phase fld * st + y * (step fld * st) + (x * k + o)) by ring.
      rewrite B by (try assumption; nia).
      replace ((x * k + o) / k) with x by (symmetry; rewrite Z.add_comm, Z.div_add by lia; rewrite Z.div_small by lia; lia).
      replace ((x * k + o) mod k) with o by (symmetry; rewrite Z.add_comm, Z.mod_add by lia; apply Z.mod_small; lia). reflexivity.
  - intros x y' X Y' N. unfold at_. cbn [p_stride p_buf]. fold st. apply leval_ext. intros o O. rewrite Z2Nat.id in O by lia.
    apply C. intros y Y IN. apply (N y Y).
    assert (XK : x * k + k <= w * k) by nia.
    set (z := step fld * y + phase fld) in *.
    assert (IN' : z * st <= y' * st + x * k + o < z * st + w * k) by (unfold z; nia).
    destruct (Z.lt_trichotomy y' z) as [L|[EQ|G]]; [exfalso|exact EQ|exfalso].
    + assert ((y' + 1) * st <= z * st) by (apply Z.mul_le_mono_nonneg_r; lia). lia.
    + assert ((z + 1) * st <= y' * st) by (apply Z.mul_le_mono_nonneg_r; lia). nia.
Qed.

(** ** All planes *)

Definition blank : image := mkI 0 0 (fun _ _ => 0).
Definition picture (fr : rframe) (i : Z) : image := match planeImg (asV fr) i with Some a => a | None => blank end.
Definition pictures (fr : rframe) : list image := map (picture fr) (zseq (f_np (rf_fmt fr))).
Definition planesOf (z : zfmt) : Z := if z_cf z =? 0 then 1 else 3.
Definition bytesOf (z : zfmt) : Z := if z_type z =? 0 then 1 else if z_type z =? 3 then 4 else 2.

(** What the converted pictures look like: one per plane, of the plane's size, with samples that fit; the same pictures give the same ones. *)
Definition respectful (conv : list image -> list image) : Prop := forall a b, Forall2 same a b -> Forall2 same (conv a) (conv b).
Definition shaped (z : zfmt) (ims : list image) : Prop :=
  zlength ims = planesOf z /\ forall i im, nthz ims i = Some im -> i_w im = zPlaneW z i /\ i_h im = zPlaneH z i /\
    forall x y, 0 <= x < i_w im -> 0 <= y < i_h im -> 0 <= i_at im x y < 256 ^ bytesOf z.
(** Descriptions the library need not tell apart: they differ in the matrix of grey pictures or the place of chroma that is not subsampled at most. *)
Definition sameNumber (x y : fl) : Prop := (isNan x = true /\ isNan y = true) \/ SFeqb x y = true.
Definition indistinct (a b : zfmt) : Prop :=
  z_w a = z_w b /\ z_h a = z_h b /\ z_type a = z_type b /\ z_ssw a = z_ssw b /\ z_ssh a = z_ssh b /\ z_cf a = z_cf b /\ z_depth a = z_depth b /\ z_parity a = z_parity b /\
  c_transfer (z_col a) = c_transfer (z_col b) /\ c_primaries (z_col a) = c_primaries (z_col b) /\ c_range (z_col a) = c_range (z_col b) /\
  (z_cf a <> 0 -> c_matrix (z_col a) = c_matrix (z_col b)) /\
  (z_cf a = 2 -> z_ssw a <> 0 \/ z_ssh a <> 0 -> c_chroma (z_col a) = c_chroma (z_col b)) /\
  sameNumber (r_left (z_region a)) (r_left (z_region b)) /\ sameNumber (r_top (z_region a)) (r_top (z_region b)) /\
  sameNumber (r_width (z_region a)) (r_width (z_region b)) /\ sameNumber (r_height (z_region a)) (r_height (z_region b)).
(** All of the picture. *)
Definition allOf (x : fl) (n : Z) : Prop := isNan x = true \/ SFeqb x (of64 n 0) = true.
Definition wholePicture (z : zfmt) : Prop := allOf (r_left (z_region z)) 0 /\ allOf (r_top (z_region z)) 0 /\ allOf (r_width (z_region z)) (z_w z) /\ allOf (r_height (z_region z)) (z_h z).

Definition goodZimg (build : zfmt -> zfmt -> option (list image -> list image)) : Prop :=
  (forall s d conv, build s d = Some conv -> respectful conv /\ forall ims, shaped d (conv ims)) /\
  (forall s s' d d', indistinct s' s -> indistinct d' d -> build s' d' = build s d).

Definition sized (z : zfmt) (fld : Z) (f : vfmt) (w h : Z) : Prop := forall i, 0 <= i < f_np f -> zPlaneW z i = planeW f w i /\ step fld * zPlaneH z i = planeH f h i.

Lemma same_w : forall a b, same a b -> i_w a = i_w b. Proof. intros a b (A & _); exact A. Qed.

Lemma nth_forall2 : forall (a b : list image), Forall2 same a b -> forall i x, nthz b i = Some x -> exists y, nthz a i = Some y /\ same y x.
Proof.
  intros a b F i x N. unfold nthz in *. destruct (i <? 0); [discriminate|]. revert N. generalize (Z.to_nat i) as n.
  induction F as [|u v a b S F IH]; intros n N; destruct n; cbn in *; try discriminate; [injection N as <-; eauto|apply IH; exact N].
Qed.

Lemma read_planes : forall al fr z fld n i, isAl al -> isFld fld -> wfFrame al (asV fr) -> sized z fld (rf_fmt fr) (rf_w fr) (rf_h fr) -> 0 <= i -> i + Z.of_nat n <= f_np (rf_fmt fr) ->
  exists ims, readPlanes n i z (f_bytes (rf_fmt fr)) fld (rf_planes fr) = Ok ims /\ Forall2 same ims (map (fun j => part fld (picture fr (i + Z.of_nat j))) (seq 0 n)).
Proof.
  intros al fr z fld n. induction n as [|n IH]; intros i A F W S I N.
  - exists []. split; [reflexivity|constructor].
  - destruct (wf_plane al (asV fr) i A W ltac:(cbn; lia)) as (p & P & WP). cbn in P, WP.
    assert (WF := W). destruct WF as (V & W1 & H1 & _). cbn in V, W1, H1.
    destruct (S i ltac:(lia)) as (SW & SH). rewrite <- SW, <- SH in WP.
    pose proof (valid_bytes _ V) as VB. assert (PH : 0 <= planeH (rf_fmt fr) (rf_h fr) i) by (pose proof (planeH_bounds (rf_fmt fr) (rf_h fr) i V ltac:(lia)); lia).
    assert (ST : 1 <= step fld) by (unfold step; destruct (fld =? 0); lia).
    destruct (read_ok (f_bytes (rf_fmt fr)) p (zPlaneW z i) (zPlaneH z i) fld F ltac:(lia) WP ltac:(nia)) as (im & E & SI).
    destruct (IH (i + 1) A F W S ltac:(lia) ltac:(lia)) as (ims & E2 & SS).
    exists (im :: ims). cbn [readPlanes]. rewrite P, E. cbn [obind]. rewrite E2. cbn [obind]. split; [reflexivity|].
    cbn [seq map]. constructor.
    + rewrite Z.add_0_r. unfold picture, planeImg. cbn [asV vf_planes vf_fmt vf_w vf_h]. rewrite P, <- SW, <- SH. exact SI.
    + rewrite <- seq_shift, map_map. erewrite map_ext; [exact SS|]. intros j. cbn beta. do 2 f_equal. lia.
Qed.

Lemma process_ok : forall al build s d fld fr dst conv, isAl al -> isFld fld -> goodZimg build -> build s d = Some conv ->
  wfFrame al (asV fr) -> wfFrame al (asV dst) -> sized s fld (rf_fmt fr) (rf_w fr) (rf_h fr) -> 
  planesOf d = f_np (rf_fmt dst) -> bytesOf d = f_bytes (rf_fmt dst) ->
  (forall i, 0 <= i < f_np (rf_fmt dst) -> zPlaneW d i = planeW (rf_fmt dst) (rf_w dst) i /\ 0 <= zPlaneH d i /\ step fld * zPlaneH d i <= planeH (rf_fmt dst) (rf_h dst) i) ->
  exists l, process build (s, d) (f_bytes (rf_fmt fr)) (f_bytes (rf_fmt dst)) (f_np (rf_fmt fr)) (f_np (rf_fmt dst)) fld (rf_planes fr) (rf_planes dst) = Ok l /\
    wfFrame al (asV (mkRF (rf_fmt dst) (rf_w dst) (rf_h dst) l (rf_props dst))) /\
    forall i, 0 <= i < f_np (rf_fmt dst) -> exists im q q', nthz (conv (map (part fld) (pictures fr))) i = Some im /\ nthz (rf_planes dst) i = Some q /\ nthz l i = Some q' /\
      i_w im = zPlaneW d i /\ i_h im = zPlaneH d i /\
      (forall x y, 0 <= x < zPlaneW d i -> 0 <= y < zPlaneH d i -> at_ (f_bytes (rf_fmt dst)) q' x (step fld * y + phase fld) = i_at im x y) /\
      (forall x y', 0 <= x < zPlaneW d i -> 0 <= y' -> (forall y, 0 <= y < zPlaneH d i -> y' <> step fld * y + phase fld) -> at_ (f_bytes (rf_fmt dst)) q' x y' = at_ (f_bytes (rf_fmt dst)) q x y').
Proof.
  intros al build s d fld fr dst conv A F (G1 & _) BU WS WD SZ NP BY DZ.
  destruct (G1 s d conv BU) as (RE & SH). unfold process. cbn [fst snd]. rewrite BU.
  assert (WD' := WD). destruct WD' as (VD & W1 & H1 & LD & PD). cbn in VD, W1, H1, LD, PD.
  assert (WS' := WS). destruct WS' as (VS & _ & _ & LS & _). cbn in VS, LS.
  pose proof (valid_np _ VD) as ND. pose proof (valid_np _ VS) as NS. pose proof (valid_bytes _ VD) as KB.
  destruct (read_planes al fr s fld (Z.to_nat (f_np (rf_fmt fr))) 0 A F WS SZ ltac:(lia) ltac:(lia)) as (ims & E & SI). rewrite E. cbn [obind].
  assert (SI' : Forall2 same ims (map (part fld) (pictures fr))).
  { unfold pictures, zseq. rewrite !map_map. erewrite map_ext; [exact SI|]. intros j. cbn beta. rewrite Z.add_0_l. reflexivity. }
  pose proof (RE _ _ SI') as SC. destruct (SH ims) as (L1 & SH1).
  destruct (SH (map (part fld) (pictures fr))) as (L2 & SH2).
  destruct (eachPlane_spec (fun i q' => exists im q, nthz (conv (map (part fld) (pictures fr))) i = Some im /\ nthz (rf_planes dst) i = Some q /\
      i_w im = zPlaneW d i /\ i_h im = zPlaneH d i /\ p_stride q' = p_stride q /\ wfPlane (f_bytes (rf_fmt dst)) q' (planeW (rf_fmt dst) (rf_w dst) i) (planeH (rf_fmt dst) (rf_h dst) i) /\
      (forall x y, 0 <= x < zPlaneW d i -> 0 <= y < zPlaneH d i -> at_ (f_bytes (rf_fmt dst)) q' x (step fld * y + phase fld) = i_at im x y) /\
      (forall x y', 0 <= x < zPlaneW d i -> 0 <= y' -> (forall y, 0 <= y < zPlaneH d i -> y' <> step fld * y + phase fld) -> at_ (f_bytes (rf_fmt dst)) q' x y' = at_ (f_bytes (rf_fmt dst)) q x y'))
    (writePlane d (f_bytes (rf_fmt dst)) fld (rf_planes dst) (conv ims)) (Z.to_nat (f_np (rf_fmt dst))) 0) as (l & EL & LL & PL).
  { intros i I. unfold writePlane.
    destruct (wf_plane al (asV dst) i A WD ltac:(cbn; lia)) as (q & Q & WQ). cbn in Q, WQ. rewrite Q.
    destruct (nthz (conv (map (part fld) (pictures fr))) i) as [im|] eqn:IM; [|exfalso; apply nthz_None_iff in IM; lia].
    destruct (nth_forall2 _ _ SC i im IM) as (im' & IM' & (X1 & X2 & X3)). rewrite IM'.
    destruct (DZ i ltac:(lia)) as (DW & DH0 & DH). destruct (SH2 i im IM) as (Y1 & Y2 & Y3). destruct (SH1 i im' IM') as (Z1 & Z2 & Z3).
    rewrite DW. rewrite DW in Z1, Y1.
    destruct (write_plane (f_bytes (rf_fmt dst)) q (planeW (rf_fmt dst) (rf_w dst) i) (planeH (rf_fmt dst) (rf_h dst) i) (zPlaneH d i) fld im' F ltac:(lia) WQ DH0 DH) as (b & EW & WB & R1 & R2).
    { intros x y X Y. rewrite <- BY. apply Z3; lia. }
    rewrite EW. cbn [obind]. eexists. split; [reflexivity|]. exists im, q.
    split; [reflexivity|]. split; [reflexivity|]. split; [congruence|]. split; [exact Y2|]. split; [reflexivity|]. split; [exact WB|]. split; [|exact R2].
    intros x y X Y. rewrite R1 by assumption. apply X3; lia. }
  exists l. split; [exact EL|]. split.
  - unfold wfFrame. cbn. split; [exact VD|]. split; [exact W1|]. split; [exact H1|]. split; [unfold zlength; lia|].
    intros i q' N. destruct (PL i q' N) as (im & q & _ & Q & _ & _ & ST & (_ & _ & _ & SZ') & _). rewrite Z.add_0_l in *.
    destruct (PD i q Q) as (P1 & _). split; [rewrite ST; exact P1|exact SZ'].
  - intros i I. destruct (nthz l i) as [q'|] eqn:N; [|exfalso; apply nthz_None_iff in N; unfold zlength in N; lia].
    destruct (PL i q' N) as (im & q & P1 & P2 & P3 & P4 & _ & _ & P5 & P6). rewrite Z.add_0_l in *. exists im, q, q'. auto 10.
Qed.

(** ** The cached conversions *)

Definition built (build : zfmt -> zfmt -> option (list image -> list image)) (c : cache) : Prop := forall p s d, slot p c = Some (s, d) -> build s d <> None.
Definition alike (a b : zfmt) : Prop := z_w a = z_w b /\ z_h a = z_h b /\ z_ssw a = z_ssw b /\ z_ssh a = z_ssh b.

Lemma regionEq_ok : forall x y, regionEq x y = true -> sameNumber x y.
Proof. intros x y E. unfold regionEq in E. apply orb_true_iff in E. destruct E as [E|E]; [left; apply andb_true_iff; exact E|right; exact E]. Qed.
Lemma zeqb_ok : forall a b, zeqb a b = true -> indistinct a b.
Proof.
  intros a b E. unfold zeqb in E. repeat (apply andb_true_iff in E; let H := fresh "H" in destruct E as [E H]).
  repeat match goal with H : regionEq _ _ = true |- _ => apply regionEq_ok in H | H : (_ =? _) = true |- _ => apply Z.eqb_eq in H | H : _ || _ = true |- _ => apply orb_true_iff in H end.
  unfold indistinct. repeat (split; [assumption|]). split.
  { intros N. match goal with H : (z_cf a =? 0) = true \/ _ |- _ => destruct H as [H|H]; apply Z.eqb_eq in H; [contradiction|exact H] end. }
  split; [|auto].
  intros C S. match goal with H : negb _ = true \/ _ |- _ => destruct H as [H|H]; [|apply Z.eqb_eq in H; exact H] end.
  exfalso. apply negb_true_iff in H3. rewrite C in H3. cbn [Z.eqb Pos.eqb andb] in H3. apply orb_false_iff in H3. destruct H3 as [X Y]. apply negb_false_iff, Z.eqb_eq in X. apply negb_false_iff, Z.eqb_eq in Y. lia.
Qed.
Lemma indistinct_alike : forall a b, indistinct a b -> alike a b.
Proof. intros a b (A & B & _ & C & D & _). repeat split; assumption. Qed.
Lemma shifted_ok : forall z, isShifted z = false -> wholePicture z.
Proof.
  intros z E. unfold isShifted in E. apply orb_false_iff in E. destruct E as [E E4]. apply orb_false_iff in E. destruct E as [E E3]. apply orb_false_iff in E. destruct E as [E1 E2].
  assert (P : forall x n, partOf x n = false -> allOf x n).
  { intros x n P. unfold partOf in P. apply andb_false_iff in P. destruct P as [P|P]; apply negb_false_iff in P; [left|right]; exact P. }
  repeat split; apply P; assumption.
Qed.

Lemma slot_set : forall p q g c, slot p (setSlot q g c) = Some g \/ slot p (setSlot q g c) = slot p c.
Proof.
  intros p q g c. unfold slot, setSlot. destruct (q =? 1); [|destruct (q =? 2)]; cbn; destruct (p =? 1); [|destruct (p =? 2)| |destruct (p =? 2)| |destruct (p =? 2)]; auto.
Qed.

Lemma built_set : forall build c p s d, built build c -> build s d <> None -> built build (setSlot p (s, d) c).
Proof.
  intros build c p s d B N p' s' d' E. destruct (slot_set p' p (s, d) c) as [H|H]; rewrite H in E; [injection E as <- <-; exact N|exact (B p' s' d' E)].
Qed.

Lemma getGraph_ok : forall build s d c, goodZimg build -> built build c ->
  (exists s' d' c', getGraph build s d c = (Some (s', d'), c') /\ build s d <> None /\ build s' d' = build s d /\ alike s' s /\ alike d' d /\ built build c') \/
  (build s d = None /\ getGraph build s d c = (None, c)).
Proof.
  intros build s d c (_ & G) B. unfold getGraph.
  assert (NEW : (exists s' d' c', match build s d with Some _ => (Some (s, d), setSlot (z_parity s) (s, d) c) | None => (None, c) end = (Some (s', d'), c') /\ build s d <> None /\ build s' d' = build s d /\ alike s' s /\ alike d' d /\ built build c') \/
    (build s d = None /\ match build s d with Some _ => (Some (s, d), setSlot (z_parity s) (s, d) c) | None => (None, c) end = (None, c))).
  { destruct (build s d) as [conv|] eqn:E; [left|right; auto]. exists s, d, (setSlot (z_parity s) (s, d) c).
    split; [reflexivity|]. split; [congruence|]. split; [congruence|]. split; [repeat split|]. split; [repeat split|]. apply built_set; [exact B|congruence]. }
  destruct (slot (z_parity s) c) as [[s' d']|] eqn:SL; [|exact NEW].
  destruct (zeqb s' s) eqn:Z1; [|exact NEW]. destruct (zeqb d' d) eqn:Z2; [|exact NEW]. cbn [negb orb].
  apply zeqb_ok in Z1. apply zeqb_ok in Z2.
  left. exists s', d', c. split; [reflexivity|]. rewrite <- (G s s' d d' Z1 Z2). split; [exact (B _ _ _ SL)|]. split; [reflexivity|].
  split; [apply indistinct_alike; exact Z1|]. split; [apply indistinct_alike; exact Z2|exact B].
Qed.

Lemma alike_W : forall a b i, alike a b -> zPlaneW a i = zPlaneW b i.
Proof. intros a b i (A & B & C & D). unfold zPlaneW. rewrite A, C. reflexivity. Qed.
Lemma alike_H : forall a b i, alike a b -> zPlaneH a i = zPlaneH b i.
Proof. intros a b i (A & B & C & D). unfold zPlaneH. rewrite B, D. reflexivity. Qed.
Lemma readPlanes_alike : forall n i a b k fld src, alike a b -> readPlanes n i a k fld src = readPlanes n i b k fld src.
Proof.
  induction n as [|n IH]; intros i a b k fld src A; [reflexivity|]. cbn [readPlanes]. rewrite (alike_W a b i A), (alike_H a b i A).
  destruct (nthz src i); [|reflexivity]. destruct (readImage _ _ _ _ _ _); cbn [obind]; try reflexivity. rewrite (IH (i + 1) a b k fld src A). reflexivity.
Qed.
Lemma eachPlane_eq : forall n i f g, (forall j, f j = g j) -> eachPlane n i f = eachPlane n i g.
Proof. induction n as [|n IH]; intros i f g E; [reflexivity|]. cbn [eachPlane]. rewrite E. destruct (g i); cbn [obind]; try reflexivity. rewrite (IH (i + 1) f g E). reflexivity. Qed.

Lemma process_alike : forall build s d s' d' sk dk snp dnp fld src dst, build s' d' = build s d -> alike s' s -> alike d' d ->
  process build (s', d') sk dk snp dnp fld src dst = process build (s, d) sk dk snp dnp fld src dst.
Proof.
  intros build s d s' d' sk dk snp dnp fld src dst B A1 A2. unfold process. cbn [fst snd]. rewrite B. destruct (build s d) as [conv|]; [|reflexivity].
  rewrite (readPlanes_alike _ 0 s' s sk fld src A1). destruct (readPlanes _ _ s sk fld src); cbn [obind]; try reflexivity.
  apply eachPlane_eq. intros j. unfold writePlane. rewrite (alike_W d' d j A2), (alike_H d' d j A2). reflexivity.
Qed.

Definition halfTop (z : zfmt) : zfmt := setParity (setHeight z (z_h z / 2)) 1.
Definition halfBottom (z : zfmt) : zfmt := setParity (setHeight z (z_h z / 2)) 2.

(** What a frame becomes, without any cache. *)
Definition converted build al g (src : rframe) (df : vfmt) (s d : zfmt) (interlaced : bool) : outcome (list plane) :=
  let sk := f_bytes (rf_fmt src) in let dk := f_bytes df in
  let snp := f_np (rf_fmt src) in let dnp := f_np df in
  obind (newPlanes al g df (z_w d) (z_h d)) (fun dst =>
    if interlaced then
      match build (halfTop s) (halfTop d), build (halfBottom s) (halfBottom d) with
      | Some _, Some _ => obind (process build (halfBottom s, halfBottom d) sk dk snp dnp 2 (rf_planes src) dst) (fun dst => process build (halfTop s, halfTop d) sk dk snp dnp 1 (rf_planes src) dst)
      | _, _ => Err
      end
    else match build s d with Some _ => process build (s, d) sk dk snp dnp 0 (rf_planes src) dst | None => Err end).

Lemma convert_ok : forall build al g env src df s d i c, goodZimg build -> built build c -> (forall x, built build x -> built build (env x)) ->
  fst (convert build al g env src df s d i c) = converted build al g src df s d i /\ built build (snd (convert build al g env src df s d i c)).
Proof.
  intros build al g env src df s d i c G B EN. unfold convert, converted.
  destruct (newPlanes al g df (z_w d) (z_h d)) as [dst| |]; cbn [obind]; try (split; [reflexivity|exact B]).
  destruct i.
  - fold (halfTop s) (halfTop d). change (setParity (halfTop s) 2) with (halfBottom s). change (setParity (halfTop d) 2) with (halfBottom d).
    destruct (getGraph_ok build (halfTop s) (halfTop d) c G B) as [(s1 & d1 & c1 & E & N & B1 & A1 & A2 & BC)|(N & E)]; rewrite E; cbn [withGraph].
    2:{ rewrite N. split; [reflexivity|exact B]. }
    destruct (build (halfTop s) (halfTop d)) as [ct|] eqn:T; [|congruence].
    destruct (getGraph_ok build (halfBottom s) (halfBottom d) (env c1) G (EN c1 BC)) as [(s2 & d2 & c2 & E2 & N2 & B2 & A3 & A4 & BC2)|(N2 & E2)]; rewrite E2; cbn [withGraph].
    2:{ rewrite N2. split; [reflexivity|exact (EN c1 BC)]. }
    destruct (build (halfBottom s) (halfBottom d)) as [cb|] eqn:T2; [|congruence]. cbn [fst snd]. split; [|exact BC2].
    rewrite (process_alike build (halfBottom s) (halfBottom d) s2 d2) by congruence.
    destruct (process build (halfBottom s, halfBottom d) _ _ _ _ 2 _ dst); cbn [obind]; try reflexivity.
    apply process_alike; congruence.
  - destruct (getGraph_ok build s d c G B) as [(s1 & d1 & c1 & E & N & B1 & A1 & A2 & BC)|(N & E)]; rewrite E; cbn [withGraph].
    2:{ rewrite N. split; [reflexivity|exact B]. }
    destruct (build s d) as [conv|] eqn:T; [|congruence]. cbn [fst snd]. split; [|exact BC]. apply process_alike; congruence.
Qed.

(** A frame does not depend on the frames made before it. *)
Lemma resize_history : forall build al g env env' d src c c', goodZimg build -> built build c -> built build c' ->
  (forall x, built build x -> built build (env x)) -> (forall x, built build x -> built build (env' x)) ->
  fst (resizeFrame build al g env d src c) = fst (resizeFrame build al g env' d src c') /\ built build (snd (resizeFrame build al g env d src c)).
Proof.
  intros build al g env env' d src c c' G B B' EN EN'. unfold resizeFrame.
  destruct (describe d src) as [[[s t] i]| |]; try (split; [reflexivity|exact B]).
  destruct (zeqb s t && sameFormat (rf_fmt src) (dstFormat d src) && negb (isShifted s)); [split; [reflexivity|exact B]|].
  destruct (convert_ok build al g env src (dstFormat d src) s t i c G B EN) as (E & BC).
  destruct (convert_ok build al g env' src (dstFormat d src) s t i c' G B' EN') as (E' & _).
  destruct (convert build al g env src _ s t i c) as [o k]. destruct (convert build al g env' src _ s t i c') as [o' k']. cbn [fst snd] in *.
  rewrite E, E'. destruct (converted build al g src (dstFormat d src) s t i); split; try reflexivity; exact BC.
Qed.

(** ** Whole frames *)

Lemma type_bytes : forall f t, fmt_valid f -> pixelType f = Ok t -> f_bytes f = if t =? 0 then 1 else if t =? 3 then 4 else 2.
Proof.
  intros f t V P. unfold pixelType in P.
  destruct (f_st f =? stInteger); destruct (Z.eqb_spec (f_bytes f) 1); destruct (Z.eqb_spec (f_bytes f) 2); destruct (f_st f =? stFloat); destruct (Z.eqb_spec (f_bytes f) 4); cbn in P; try discriminate; injection P as <-; cbn; lia.
Qed.

Lemma zsized : forall z f w h, z_w z = w -> z_h z = h -> z_ssw z = f_ssw f -> z_ssh z = f_ssh f -> fmt_valid f -> forall i, zPlaneW z i = planeW f w i /\ zPlaneH z i = planeH f h i.
Proof.
  intros z f w h W H SW SH V i. pose proof (valid_ss f V). unfold zPlaneW, zPlaneH, planeW, planeH. rewrite W, H, SW, SH.
  rewrite !Z.shiftr_div_pow2 by lia. split; reflexivity.
Qed.

Lemma even_of : forall f h, fmt_valid f -> (2 ^ (f_ssh f + 1) | h) -> h = 2 * (h / 2).
Proof. intros f h V D. exact (planeH_half f h 0 V D). Qed.

(** What the frame is made of: [t] describes the result. *)
Lemma converted_fields : forall build al g src df s t pl, isAl al -> goodZimg build -> wfFrame al (asV src) -> fmt_valid df ->
  z_w s = rf_w src -> z_h s = rf_h src -> z_ssw s = f_ssw (rf_fmt src) -> z_ssh s = f_ssh (rf_fmt src) ->
  z_ssw t = f_ssw df -> z_ssh t = f_ssh df -> z_cf t = zfamily df -> pixelType df = Ok (z_type t) ->
  (2 ^ (f_ssh (rf_fmt src) + 1) | rf_h src) -> (2 ^ (f_ssh df + 1) | z_h t) ->
  converted build al g src df s t true = Ok pl ->
  exists ct cb, build (halfTop s) (halfTop t) = Some ct /\ build (halfBottom s) (halfBottom t) = Some cb /\
    let r := mkRF df (z_w t) (z_h t) pl (rf_props src) in wfFrame al (asV r) /\
    forall i, 0 <= i < f_np df -> exists a b, nthz (ct (map topField (pictures src))) i = Some a /\ nthz (cb (map bottomField (pictures src))) i = Some b /\ same (picture r i) (weave a b).
Proof.
  intros build al g src df s t pl A G WS VD SW SH SSW SSH TSW TSH TC TT DS DD C. unfold converted in C.
  destruct (newPlanes al g df (z_w t) (z_h t)) as [dst| |] eqn:NP; cbn [obind] in C; try discriminate.
  destruct (build (halfTop s) (halfTop t)) as [ct|] eqn:BT; [|discriminate]. destruct (build (halfBottom s) (halfBottom t)) as [cb|] eqn:BB; [|discriminate].
  exists ct, cb. split; [reflexivity|]. split; [reflexivity|]. cbv zeta.
  assert (WH : 1 <= z_w t /\ 1 <= z_h t).
  { unfold newPlanes, newFrame in NP. destruct (Z.leb_spec (z_w t) 0); [discriminate|]. destruct (Z.leb_spec (z_h t) 0); [discriminate|]. lia. }
  destruct (newFrame_spec al g df (z_w t) (z_h t) (fun _ => None) A VD (proj1 WH) (proj2 WH)) as (nf & N1 & N2 & N3 & N4 & N5 & _).
  unfold newPlanes in NP. rewrite N1 in NP. cbn [obind] in NP. injection NP as <-.
  assert (WV := WS). destruct WV as (VS & _). cbn in VS.
  set (d0 := mkRF df (z_w t) (z_h t) (vf_planes nf) (rf_props src)).
  assert (W0 : wfFrame al (asV d0)) by (unfold wfFrame in *; cbn; rewrite N3, N4, N5 in N2; exact N2).
  assert (PB : f_np df = planesOf t). { unfold planesOf. rewrite TC. unfold zfamily. destruct VD as (VC & _ & _ & _ & VN). unfold cfGray, cfRGB, cfYUV in *. destruct (Z.eqb_spec (f_cf df - 1) 0); lia. }
  assert (BB' : f_bytes df = bytesOf t) by (apply type_bytes; assumption).
  pose proof (even_of _ _ VS DS) as ES. pose proof (even_of _ _ VD DD) as ED.
  assert (SZ : forall z, z_w z = rf_w src -> z_h z = rf_h src / 2 -> z_ssw z = f_ssw (rf_fmt src) -> z_ssh z = f_ssh (rf_fmt src) -> forall fld, fld = 1 \/ fld = 2 -> sized z fld (rf_fmt src) (rf_w src) (rf_h src)).
  { intros z Z1 Z2 Z3 Z4 fld F i I. destruct (zsized z (rf_fmt src) _ _ Z1 Z2 Z3 Z4 VS i) as (P1 & P2). split; [exact P1|]. rewrite P2, (planeH_half _ _ i VS DS). destruct F as [-> | ->]; reflexivity. }
  assert (DZ : forall z, z_w z = z_w t -> z_h z = z_h t / 2 -> z_ssw z = f_ssw df -> z_ssh z = f_ssh df -> forall fld, fld = 1 \/ fld = 2 -> forall i, 0 <= i < f_np df ->
    zPlaneW z i = planeW df (z_w t) i /\ 2 * zPlaneH z i = planeH df (z_h t) i /\ 0 <= zPlaneH z i /\ step fld * zPlaneH z i <= planeH df (z_h t) i).
  { intros z Z1 Z2 Z3 Z4 fld F i I. destruct (zsized z df _ _ Z1 Z2 Z3 Z4 VD i) as (P1 & P2). split; [exact P1|]. rewrite P2, (planeH_half _ _ i VD DD).
    pose proof (planeH_bounds df (z_h t / 2) i VD ltac:(lia)). split; [reflexivity|]. split; [lia|]. destruct F as [-> | ->]; [change (step 1) with 2|change (step 2) with 2]; lia. }
  destruct (process_ok al build (halfBottom s) (halfBottom t) 2 src d0 cb A ltac:(right; right; reflexivity) G BB WS W0) as (l1 & P1 & W1 & R1).
  { apply SZ; cbn; auto; congruence. } { symmetry. exact PB. } { symmetry. exact BB'. }
  { intros i I. destruct (DZ (halfBottom t) eq_refl eq_refl TSW TSH 2 (or_intror eq_refl) i I) as (Q1 & _ & Q2 & Q3). auto. }
  cbn [d0 rf_fmt rf_planes rf_w rf_h] in P1, W1, R1. rewrite P1 in C. cbn [obind] in C.
  set (d1 := mkRF df (z_w t) (z_h t) l1 (rf_props src)).
  destruct (process_ok al build (halfTop s) (halfTop t) 1 src d1 ct A ltac:(right; left; reflexivity) G BT WS W1) as (l2 & P2 & W2 & R2).
  { apply SZ; cbn; auto; congruence. } { symmetry. exact PB. } { symmetry. exact BB'. }
  { intros i I. destruct (DZ (halfTop t) eq_refl eq_refl TSW TSH 1 (or_introl eq_refl) i I) as (Q1 & _ & Q2 & Q3). auto. }
  cbn [d1 rf_fmt rf_planes rf_w rf_h] in P2, W2, R2. rewrite P2 in C. injection C as <-.
  split; [exact W2|]. intros i I.
  destruct (R1 i I) as (b & q0 & q1 & B1 & B2 & B3 & B4 & B5 & B6 & B7). destruct (R2 i I) as (a & q1' & q2 & A1 & A2 & A3 & A4 & A5 & A6 & A7).
  assert (q1' = q1) by congruence. subst q1'.
  change (map (part 2) (pictures src)) with (map bottomField (pictures src)) in B1. change (map (part 1) (pictures src)) with (map topField (pictures src)) in A1.
  exists a, b. split; [exact A1|]. split; [exact B1|].
  change (zPlaneW (halfBottom t) i) with (zPlaneW (halfTop t) i) in *. change (zPlaneH (halfBottom t) i) with (zPlaneH (halfTop t) i) in *.
  destruct (DZ (halfTop t) eq_refl eq_refl TSW TSH 1 (or_introl eq_refl) i I) as (Q1 & Q2 & Q3 & _).
  change (step 1) with 2 in *. change (step 2) with 2 in *. change (phase 1) with 0 in *. change (phase 2) with 1 in *.
  unfold picture, planeImg. cbn [asV vf_planes vf_fmt vf_w vf_h rf_planes rf_fmt rf_w rf_h]. rewrite A3. unfold same, imageOf, weave. cbn [i_w i_h i_at].
  split; [congruence|]. split; [congruence|]. intros x y X Y.
  change (leval (Z.to_nat (f_bytes df)) (b_data (p_buf q2)) (y * p_stride q2 + x * f_bytes df)) with (at_ (f_bytes df) q2 x y).
  rewrite <- Q1 in X. pose proof (Z.div_mod y 2 ltac:(lia)) as DM. pose proof (Z.mod_pos_bound y 2 ltac:(lia)) as MB.
  destruct (Z.eqb_spec (y mod 2) 0) as [M|M].
  - rewrite <- A6 by lia. f_equal. lia.
  - rewrite A7 by lia. rewrite <- B6 by lia. f_equal. lia.
Qed.

Lemma converted_whole : forall build al g src df s t pl, isAl al -> goodZimg build -> wfFrame al (asV src) -> fmt_valid df ->
  z_w s = rf_w src -> z_h s = rf_h src -> z_ssw s = f_ssw (rf_fmt src) -> z_ssh s = f_ssh (rf_fmt src) ->
  z_ssw t = f_ssw df -> z_ssh t = f_ssh df -> z_cf t = zfamily df -> pixelType df = Ok (z_type t) ->
  converted build al g src df s t false = Ok pl ->
  exists conv, build s t = Some conv /\
    let r := mkRF df (z_w t) (z_h t) pl (rf_props src) in wfFrame al (asV r) /\
    forall i, 0 <= i < f_np df -> exists a, nthz (conv (pictures src)) i = Some a /\ same (picture r i) a.
Proof.
  intros build al g src df s t pl A G WS VD SW SH SSW SSH TSW TSH TC TT C. unfold converted in C.
  destruct (newPlanes al g df (z_w t) (z_h t)) as [dst| |] eqn:NP; cbn [obind] in C; try discriminate.
  destruct (build s t) as [conv|] eqn:BT; [|discriminate].
  exists conv. split; [reflexivity|]. cbv zeta.
  assert (WH : 1 <= z_w t /\ 1 <= z_h t).
  { unfold newPlanes, newFrame in NP. destruct (Z.leb_spec (z_w t) 0); [discriminate|]. destruct (Z.leb_spec (z_h t) 0); [discriminate|]. lia. }
  destruct (newFrame_spec al g df (z_w t) (z_h t) (fun _ => None) A VD (proj1 WH) (proj2 WH)) as (nf & N1 & N2 & N3 & N4 & N5 & _).
  unfold newPlanes in NP. rewrite N1 in NP. cbn [obind] in NP. injection NP as <-.
  assert (WV := WS). destruct WV as (VS & _). cbn in VS.
  set (d0 := mkRF df (z_w t) (z_h t) (vf_planes nf) (rf_props src)).
  assert (W0 : wfFrame al (asV d0)) by (unfold wfFrame in *; cbn; rewrite N3, N4, N5 in N2; exact N2).
  assert (PB : f_np df = planesOf t). { unfold planesOf. rewrite TC. unfold zfamily. destruct VD as (VC & _ & _ & _ & VN). unfold cfGray, cfRGB, cfYUV in *. destruct (Z.eqb_spec (f_cf df - 1) 0); lia. }
  assert (BB' : f_bytes df = bytesOf t) by (apply type_bytes; assumption).
  assert (DZ : forall i, zPlaneW t i = planeW df (z_w t) i /\ zPlaneH t i = planeH df (z_h t) i) by (intros i; apply zsized; auto).
  destruct (process_ok al build s t 0 src d0 conv A ltac:(left; reflexivity) G BT WS W0) as (l1 & P1 & W1 & R1).
  { intros i I. destruct (zsized s (rf_fmt src) _ _ SW SH SSW SSH VS i) as (Z1 & Z2). split; [exact Z1|]. change (step 0) with 1. lia. } { symmetry. exact PB. } { symmetry. exact BB'. }
  { intros i I. destruct (DZ i) as (Q1 & Q2). pose proof (planeH_bounds df (z_h t) i VD ltac:(lia)). change (step 0) with 1. cbn [d0 rf_fmt rf_w rf_h]. lia. }
  cbn [d0 rf_fmt rf_planes rf_w rf_h] in P1, W1, R1. rewrite P1 in C. injection C as <-.
  split; [exact W1|]. intros i I. destruct (R1 i I) as (a & q0 & q1 & B1 & B2 & B3 & B4 & B5 & B6 & B7).
  assert (M0 : map (part 0) (pictures src) = pictures src) by (rewrite <- (map_id (pictures src)) at 2; apply map_ext; reflexivity). rewrite M0 in B1.
  exists a. split; [exact B1|]. destruct (DZ i) as (Q1 & Q2).
  unfold picture, planeImg. cbn [asV vf_planes vf_fmt vf_w vf_h rf_planes rf_fmt rf_w rf_h]. rewrite B3. unfold same, imageOf. cbn [i_w i_h i_at].
  split; [congruence|]. split; [congruence|]. intros x y X Y.
  rewrite <- B6 by lia. change (step 0) with 1. change (phase 0) with 0. unfold at_. do 2 f_equal. lia.
Qed.

(** Interlaced frames are converted field by field, others as a whole; frames of the same description are copied. *)
Definition copied (s t : zfmt) (src r : rframe) : Prop := rf_fmt r = rf_fmt src /\ rf_w r = rf_w src /\ rf_h r = rf_h src /\ rf_planes r = rf_planes src /\ indistinct s t /\ wholePicture s.

Lemma resize_inv : forall build al g env d src c r s t i, goodZimg build -> built build c -> (forall x, built build x -> built build (env x)) ->
  describe d src = Ok (s, t, i) -> fst (resizeFrame build al g env d src c) = Ok r ->
  copied s t src r \/ exists pl, converted build al g src (dstFormat d src) s t i = Ok pl /\ rf_fmt r = dstFormat d src /\ rf_w r = z_w t /\ rf_h r = z_h t /\ rf_planes r = pl.
Proof.
  intros build al g env d src c r s t i G B EN D R. unfold resizeFrame in R. rewrite D in R.
  destruct (zeqb s t && sameFormat (rf_fmt src) (dstFormat d src) && negb (isShifted s)) eqn:EQ.
  { left. injection R as <-. apply andb_true_iff in EQ. destruct EQ as [EQ E3]. apply andb_true_iff in EQ. destruct EQ as [E1 E2].
    do 4 (split; [reflexivity|]). split; [apply zeqb_ok; exact E1|apply shifted_ok, negb_true_iff; exact E3]. }
  right.
  destruct (convert_ok build al g env src (dstFormat d src) s t i c G B EN) as (E & _).
  destruct (convert build al g env src (dstFormat d src) s t i c) as [o k]. cbn [fst] in E. subst o.
  destruct (converted build al g src (dstFormat d src) s t i) as [pl| |]; cbn [fst] in R; try discriminate.
  destruct (propagateSar (rf_props src) (rf_props src) s t) as [m| |]; cbn [obind] in R; try discriminate. injection R as <-. exists pl. repeat split.
Qed.

Lemma resize_fields : forall build al g env d src c r s t, isAl al -> goodZimg build -> built build c -> (forall x, built build x -> built build (env x)) ->
  legal (rf_props src) -> meaningful (rf_props src) -> wfFrame al (asV src) -> fmt_valid (dstFormat d src) ->
  interlacedFrame (rf_props src) = true -> (2 ^ (f_ssh (rf_fmt src) + 1) | rf_h src) -> (2 ^ (f_ssh (dstFormat d src) + 1) | rf_h r) ->
  describe d src = Ok (s, t, true) -> fst (resizeFrame build al g env d src c) = Ok r ->
  copied s t src r \/ exists ct cb, build (halfTop s) (halfTop t) = Some ct /\ build (halfBottom s) (halfBottom t) = Some cb /\ wfFrame al (asV r) /\
    forall i, 0 <= i < f_np (rf_fmt r) -> exists a b, nthz (ct (map topField (pictures src))) i = Some a /\ nthz (cb (map bottomField (pictures src))) i = Some b /\ same (picture r i) (weave a b).
Proof.
  intros build al g env d src c r s t A G B EN L M W VD IL DS DD D R.
  assert (VS := W). destruct VS as (VS & _). cbn in VS.
  destruct (describe_ok d src s t true L M VS VD D) as (_ & W1 & W2 & W3 & W4 & W5 & W6 & W7 & W8 & W9 & W10 & _ & _ & _ & W11 & _).
  destruct (resize_inv build al g env d src c r s t true G B EN D R) as [CP|(pl & C & R1 & R2 & R3 & R4)]; [left; exact CP|right].
  rewrite R3 in DD.
  destruct (converted_fields build al g src (dstFormat d src) s t pl A G W VD W1 W2 W7 W8 W9 W10 W6 W11 DS DD C) as (ct & cb & P1 & P2 & P3 & P4).
  exists ct, cb. split; [exact P1|]. split; [exact P2|]. destruct r as [rf rw rh rp rm]. cbn in R1, R2, R3, R4. subst. split; [exact P3|exact P4].
Qed.

Lemma resize_whole : forall build al g env d src c r s t, isAl al -> goodZimg build -> built build c -> (forall x, built build x -> built build (env x)) ->
  legal (rf_props src) -> meaningful (rf_props src) -> wfFrame al (asV src) -> fmt_valid (dstFormat d src) ->
  describe d src = Ok (s, t, false) -> fst (resizeFrame build al g env d src c) = Ok r ->
  copied s t src r \/ exists conv, build s t = Some conv /\ wfFrame al (asV r) /\
    forall i, 0 <= i < f_np (rf_fmt r) -> exists a, nthz (conv (pictures src)) i = Some a /\ same (picture r i) a.
Proof.
  intros build al g env d src c r s t A G B EN L M W VD D R.
  assert (VS := W). destruct VS as (VS & _). cbn in VS.
  destruct (describe_ok d src s t false L M VS VD D) as (_ & W1 & W2 & W3 & W4 & W5 & W6 & W7 & W8 & W9 & W10 & _ & _ & _ & W11 & _).
  destruct (resize_inv build al g env d src c r s t false G B EN D R) as [CP|(pl & C & R1 & R2 & R3 & R4)]; [left; exact CP|right].
  destruct (converted_whole build al g src (dstFormat d src) s t pl A G W VD W1 W2 W7 W8 W9 W10 W6 W11 C) as (ct & P1 & P3 & P4).
  exists ct. split; [exact P1|]. destruct r as [rf rw rh rp rm]. cbn in R1, R2, R3, R4. subst. split; [exact P3|exact P4].
Qed.

(** ** A converter, and frames of odd height *)

(** Every plane the first sample of the first picture. *)
Definition flat (d : zfmt) (ims : list image) : list image :=
  let v := match ims with im :: _ => if (0 <? i_w im) && (0 <? i_h im) && (0 <=? i_at im 0 0) && (i_at im 0 0 <? 256) then i_at im 0 0 else 0 | [] => 0 end in
  map (fun i => mkI (zPlaneW d i) (zPlaneH d i) (fun _ _ => v)) (zseq (planesOf d)).
Definition flatZimg (s d : zfmt) : option (list image -> list image) := Some (flat d).
Lemma flat_good : goodZimg flatZimg.
Proof.
  split.
  - intros s d conv [= <-]. split.
    + intros a b F. unfold flat. cbv zeta.
      match goal with |- Forall2 same (map (fun i => mkI _ _ (fun _ _ => ?u)) _) (map (fun i => mkI _ _ (fun _ _ => ?w)) _) => assert (E : u = w) end.
      { destruct F as [|x y a b (S1 & S2 & S3) F]; [reflexivity|]. rewrite <- S1, <- S2.
        destruct (Z.ltb_spec 0 (i_w x)); [|reflexivity]. destruct (Z.ltb_spec 0 (i_h x)); [|reflexivity]. rewrite (S3 0 0) by lia. reflexivity. }
      rewrite E. induction (zseq (planesOf d)) as [|k l IH]; cbn [map]; constructor; [apply same_refl|exact IH].
    + intros ims. unfold flat. cbv zeta. set (v := match ims with [] => 0 | _ => _ end).
      assert (V : 0 <= v < 256).
      { unfold v. destruct ims as [|im ims]; [lia|]. destruct ((0 <? i_w im) && (0 <? i_h im)); cbn [andb]; [|lia]. destruct (Z.leb_spec 0 (i_at im 0 0)); cbn [andb]; [|lia]. destruct (Z.ltb_spec (i_at im 0 0) 256); lia. }
      split.
      * assert (0 <= planesOf d) by (unfold planesOf; destruct (_ =? _); lia). unfold zlength, zseq. rewrite !map_length, seq_length. lia.
      * intros i im N. rewrite nthz_map in N. assert (NR := N). destruct (nthz (zseq (planesOf d)) i) as [j|] eqn:J; [|discriminate]. cbn in N. injection N as <-.
        pose proof (nthz_range _ _ _ _ J) as R. assert (0 <= planesOf d) by (unfold planesOf; destruct (_ =? _); lia).
        assert (j = i). { rewrite nthz_zseq in J; [congruence|]. unfold zlength, zseq in R. rewrite map_length, seq_length in R. lia. } subst j.
        split; [reflexivity|]. split; [reflexivity|]. intros x y _ _. cbn [i_at].
        unfold bytesOf. destruct (z_type d =? 0); [change (256 ^ 1) with 256; lia|]. destruct (z_type d =? 3); [change (256 ^ 4) with 4294967296; lia|change (256 ^ 2) with 65536; lia].
  - intros s s' d d' _ Z. unfold flatZimg. f_equal.
    assert (A := indistinct_alike _ _ Z). assert (CF : z_cf d' = z_cf d) by (destruct Z as (_ & _ & _ & _ & _ & CF & _); exact CF).
    destruct A as (A1 & A2 & A3 & A4). unfold flat, planesOf, zPlaneW, zPlaneH. rewrite A1, A2, A3, A4, CF. reflexivity.
Qed.

Lemma built_none : forall build, built build noGraphs.
Proof. intros build p s d E. unfold noGraphs, slot in E. cbn in E. destruct (p =? 1); [discriminate|]. destruct (p =? 2); discriminate. Qed.

(** An interlaced frame of three rows: what the last row of the result was before. *)
Definition wider : rdata := mkRD gray8 2 3 nothing nothing noRegion false.
Definition resultAt (g : Z -> Z -> Z) (d : rdata) (src : rframe) (x y : Z) : outcome Z :=
  obind (fst (resizeFrame flatZimg 64 g (fun c => c) d src noGraphs)) (fun r => Ok (i_at (picture r 0) x y)).
Lemma odd_rows : resultAt (fun _ _ => 1) wider (column 3 (interlaced square)) 0 2 = Ok 1 /\ resultAt (fun _ _ => 2) wider (column 3 (interlaced square)) 0 2 = Ok 2 /\
  resultAt (fun _ _ => 1) wider (column 3 (interlaced square)) 0 1 = Ok 0.
Proof. vm_compute. repeat split. Qed.

(** Columns whose rows alternate. *)
Definition striped (m : pmap) : rframe := mkRF gray8 1 4 [mkPl 64 (mkB 256 (fun a => if (a / 64) mod 2 =? 0 then 10 else 20))] m.
Definition taller : rdata := mkRD gray8 1 8 nothing nothing noRegion false.
