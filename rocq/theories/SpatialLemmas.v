(** Frames as lists of pictures; what copying rows between planes means for pictures. *)
From Coq Require Import String.
From Coq Require Import ZArith List Lia Bool.
From Verif Require Import Common FormatSpec Format FrameSpec Frame FrameLemmas FrameGeom ImageSpec PlaneMem Spatial.
Import ListNotations.
Open Scope Z_scope.

(** A frame as the core allocates it. *)
Definition wfFrame (al : Z) (fr : vframe) : Prop :=
  fmt_valid (vf_fmt fr) /\ 1 <= vf_w fr /\ 1 <= vf_h fr /\ zlength (vf_planes fr) = f_np (vf_fmt fr) /\
  forall i p, nthz (vf_planes fr) i = Some p ->
    p_stride p = strideOf al (vf_fmt fr) (vf_w fr) i /\
    b_size (p_buf p) = p_stride p * planeH (vf_fmt fr) (vf_h fr) i.

(** The picture in plane [i]. *)
Definition planeImg (fr : vframe) (i : Z) : option image :=
  match nthz (vf_planes fr) i with
  | Some p => Some (imageOf (f_bytes (vf_fmt fr)) p (planeW (vf_fmt fr) (vf_w fr) i) (planeH (vf_fmt fr) (vf_h fr) i))
  | None => None
  end.

(** Plane [i] of [dst] is [R i] of plane [i] of [src]. *)
Definition planesMap (R : Z -> image -> image) (src dst : vframe) : Prop :=
  forall i, 0 <= i < f_np (vf_fmt dst) -> exists a b,
    planeImg src i = Some a /\ planeImg dst i = Some b /\ same b (R i a).

(** Same format, size and pictures. *)
Definition sameFrame (a b : vframe) : Prop :=
  vf_fmt a = vf_fmt b /\ vf_w a = vf_w b /\ vf_h a = vf_h b /\ planesMap (fun _ x => x) a b.

(** ** Pictures *)

Lemma same_refl : forall a, same a a.
Proof. intros a. split; [reflexivity|]. split; [reflexivity|]. reflexivity. Qed.
Lemma same_sym : forall a b, same a b -> same b a.
Proof.
  intros a b (W & H & E). split; [auto|]. split; [auto|]. intros x y X Y. symmetry. apply E; lia.
Qed.
Lemma same_trans : forall a b c, same a b -> same b c -> same a c.
Proof.
  intros a b c (W & H & E) (W' & H' & E'). split; [congruence|]. split; [congruence|].
  intros x y X Y. rewrite E by lia. apply E'; lia.
Qed.

(** ** Strides *)

Lemma strideAt_spec : forall al f w i, isAl al -> fmt_valid f -> 0 <= w -> strideAt al f w i = strideOf al f w i.
Proof.
  intros al f w i A V W. unfold strideAt. destruct (Z.eqb_spec i 0) as [->|N].
  - apply stride0_spec; assumption.
  - apply stride12_spec; assumption.
Qed.

Lemma stride_row : forall al f w i, isAl al -> fmt_valid f -> 0 <= w ->
  planeW f w i * f_bytes f <= strideOf al f w i.
Proof.
  intros. unfold strideOf. apply ceilTo_bounds. apply isAl_pos; assumption.
Qed.

Lemma wf_plane : forall al fr i, isAl al -> wfFrame al fr -> 0 <= i < f_np (vf_fmt fr) ->
  exists p, nthz (vf_planes fr) i = Some p /\
    wfPlane (f_bytes (vf_fmt fr)) p (planeW (vf_fmt fr) (vf_w fr) i) (planeH (vf_fmt fr) (vf_h fr) i).
Proof.
  intros al fr i A (V & W & H & L & P) I.
  destruct (nthz (vf_planes fr) i) as [p|] eqn:E.
  - exists p. split; [reflexivity|]. destruct (P i p E) as (P1 & P2).
    pose proof (planeW_bounds (vf_fmt fr) (vf_w fr) i V ltac:(lia)).
    pose proof (planeH_bounds (vf_fmt fr) (vf_h fr) i V ltac:(lia)).
    pose proof (stride_row al (vf_fmt fr) (vf_w fr) i A V ltac:(lia)).
    split; [lia|]. split; [lia|]. split; [rewrite P1; lia | exact P2].
  - exfalso. apply nthz_None_iff in E. lia.
Qed.

Lemma newFrame_spec : forall al g f w h p, isAl al -> fmt_valid f -> 1 <= w -> 1 <= h ->
  exists r, newFrame al g f w h p = Ok r /\ wfFrame al r /\ vf_fmt r = f /\ vf_w r = w /\ vf_h r = h /\ vf_props r = p.
Proof.
  intros al g f w h p A V W H. unfold newFrame.
  destruct (Z.leb_spec w 0); [lia|]. destruct (Z.leb_spec h 0); [lia|]. cbn [orb].
  eexists. split; [reflexivity|]. cbn [vf_fmt vf_w vf_h vf_props vf_planes].
  split; [|repeat split].
  split; [exact V|]. cbn [vf_fmt vf_w vf_h vf_props vf_planes]. split; [lia|]. split; [lia|].
  pose proof (valid_np f V). split.
  - unfold zlength, zseq. rewrite !map_length, seq_length. lia.
  - intros i q Q. rewrite nthz_map in Q. destruct (nthz (zseq (f_np f)) i) as [j|] eqn:E; [|discriminate Q].
    pose proof (proj1 (nthz_Some_iff _ _ _ ) (ex_intro _ j E)) as R.
    assert (j = i).
    { rewrite nthz_zseq in E; [congruence|]. unfold zlength, zseq in R. rewrite map_length, seq_length in R. lia. }
    subst j. cbn [option_map] in Q. injection Q as <-. cbn [p_stride p_buf b_size].
    rewrite strideAt_spec by (auto; lia). split; [reflexivity|]. rewrite getHeight_planeH by exact V. reflexivity.
Qed.

(** ** Planes in turn *)

Lemma eachPlane_spec : forall (P : Z -> plane -> Prop) f n i,
  (forall j, i <= j < i + Z.of_nat n -> exists p, f j = Ok p /\ P j p) ->
  exists l, eachPlane n i f = Ok l /\ length l = n /\
    forall j p, nthz l j = Some p -> P (i + j) p.
Proof.
  intros P f. induction n as [|n IH]; intros i H.
  - exists []. split; [reflexivity|]. split; [reflexivity|]. intros j p E. unfold nthz in E.
    destruct (j <? 0); [discriminate|]. destruct (Z.to_nat j); discriminate.
  - destruct (H i ltac:(lia)) as (p & E & Q). destruct (IH (i + 1)) as (l & El & Ll & Pl).
    { intros j J. apply H. lia. }
    exists (p :: l). cbn [eachPlane]. rewrite E. cbn [obind]. rewrite El. cbn [obind].
    split; [reflexivity|]. split; [cbn [length]; congruence|].
    intros j q Hq. destruct (Z.eq_dec j 0) as [->|N].
    + rewrite nthz_cons_0 in Hq. injection Hq as <-. rewrite Z.add_0_r. exact Q.
    + assert (0 <= j). { destruct (Z.leb_spec 0 j); [assumption|]. unfold nthz in Hq. destruct (Z.ltb_spec j 0); [discriminate|lia]. }
      rewrite nthz_cons_S in Hq by lia. replace (i + j) with (i + 1 + (j - 1)) by lia. apply Pl. exact Hq.
Qed.

(** A per-plane operation whose destination pictures are known. *)
Lemma onPlanes_spec : forall al src dst f (R : Z -> image -> image), isAl al ->
  wfFrame al src -> wfFrame al dst -> f_np (vf_fmt dst) = f_np (vf_fmt src) ->
  f_bytes (vf_fmt dst) = f_bytes (vf_fmt src) ->
  (forall i p q, 0 <= i < f_np (vf_fmt src) ->
     wfPlane (f_bytes (vf_fmt src)) p (planeW (vf_fmt src) (vf_w src) i) (planeH (vf_fmt src) (vf_h src) i) ->
     wfPlane (f_bytes (vf_fmt src)) q (planeW (vf_fmt dst) (vf_w dst) i) (planeH (vf_fmt dst) (vf_h dst) i) ->
     p_stride p = strideOf al (vf_fmt src) (vf_w src) i ->
     p_stride q = strideOf al (vf_fmt dst) (vf_w dst) i ->
     exists b, f i p q = Ok b /\ b_size b = b_size (p_buf q) /\
       same (imageOf (f_bytes (vf_fmt src)) (mkPl (p_stride q) b) (planeW (vf_fmt dst) (vf_w dst) i) (planeH (vf_fmt dst) (vf_h dst) i))
            (R i (imageOf (f_bytes (vf_fmt src)) p (planeW (vf_fmt src) (vf_w src) i) (planeH (vf_fmt src) (vf_h src) i)))) ->
  exists r, onPlanes src dst (f_np (vf_fmt src)) f = Ok r /\ wfFrame al r /\
    vf_fmt r = vf_fmt dst /\ vf_w r = vf_w dst /\ vf_h r = vf_h dst /\ vf_props r = vf_props dst /\
    planesMap R src r.
Proof.
  intros al src dst f R A WS WD NP NB H. unfold onPlanes.
  destruct (eachPlane_spec (fun i pl =>
      p_stride pl = strideOf al (vf_fmt dst) (vf_w dst) i /\
      b_size (p_buf pl) = p_stride pl * planeH (vf_fmt dst) (vf_h dst) i /\
      exists p, nthz (vf_planes src) i = Some p /\
       same (imageOf (f_bytes (vf_fmt src)) pl (planeW (vf_fmt dst) (vf_w dst) i) (planeH (vf_fmt dst) (vf_h dst) i))
            (R i (imageOf (f_bytes (vf_fmt src)) p (planeW (vf_fmt src) (vf_w src) i) (planeH (vf_fmt src) (vf_h src) i))))
      (withPlanes (vf_planes src) (vf_planes dst) f) (Z.to_nat (f_np (vf_fmt src))) 0) as (l & E & L & P).
  - intros i I. assert (I' : 0 <= i < f_np (vf_fmt src)) by lia.
    destruct (wf_plane al src i A WS I') as (p & Ep & Wp).
    destruct (wf_plane al dst i A WD ltac:(lia)) as (q & Eq & Wq).
    pose proof WS as (_ & _ & _ & _ & PS). pose proof WD as (_ & _ & _ & _ & PD).
    destruct (PS i p Ep) as (S1 & S2). destruct (PD i q Eq) as (D1 & D2). clear PS PD.
    rewrite NB in Wq.
    destruct (H i p q I' Wp Wq S1 D1) as (b & Eb & Sb & Ib).
    exists (mkPl (p_stride q) b). unfold withPlanes. rewrite Ep, Eq, Eb. cbn [obind]. split; [reflexivity|].
    cbn [p_stride p_buf]. split; [exact D1|]. split; [rewrite Sb; exact D2|].
    exists p. split; [reflexivity | exact Ib].
  - rewrite E. cbn [obind]. eexists. split; [reflexivity|].
    pose proof WD as (VD & WD1 & WD2 & _ & _). pose proof (valid_np _ VD).
    assert (ZL : zlength l = f_np (vf_fmt dst)) by (unfold zlength; lia).
    split; [|split; [reflexivity|split; [reflexivity|split; [reflexivity|split; [reflexivity|]]]]].
    + split; [exact VD|]. cbn [vf_fmt vf_w vf_h vf_planes]. split; [exact WD1|]. split; [exact WD2|].
      split; [exact ZL|]. intros i p Ip. destruct (P i p Ip) as (P1 & P2 & _). rewrite Z.add_0_l in *. auto.
    + intros i I. cbn [vf_fmt vf_w vf_h vf_planes] in I.
      destruct (nthz l i) as [pl|] eqn:Ei.
      * destruct (P i pl Ei) as (P1 & P2 & p & Ep & Sp). rewrite Z.add_0_l in *.
        unfold planeImg. cbn [vf_fmt vf_w vf_h vf_planes]. rewrite Ep, Ei, NB.
        eexists. eexists. split; [reflexivity|]. split; [reflexivity|]. exact Sp.
      * apply nthz_None_iff in Ei. lia.
Qed.

(** ** Row copies and pictures *)

(** Samples whose bytes are equal are equal. *)
Lemma sample_ext : forall k f g o o', 0 <= k -> (forall j, 0 <= j < k -> f (o + j) = g (o' + j)) ->
  leval (Z.to_nat k) f o = leval (Z.to_nat k) g o'.
Proof. intros. apply leval_ext. intros j J. apply H0. lia. Qed.

Lemma crop_plane : forall k p q x y sw sh w h, 1 <= k ->
  wfPlane k p sw sh -> wfPlane k q w h -> 0 <= x -> 0 <= y -> x + w <= sw -> y + h <= sh ->
  exists b, bitblt (p_buf q) 0 (p_stride q) (p_buf p) (p_stride p * y + x * k) (p_stride p) (w * k) h = Ok b /\
    b_size b = b_size (p_buf q) /\
    same (imageOf k (mkPl (p_stride q) b) w h) (crop x y w h (imageOf k p sw sh)).
Proof.
  intros k p q x y sw sh w h K (P1 & P2 & P3 & P4) (Q1 & Q2 & Q3 & Q4) X Y XW YH.
  assert (0 <= p_stride p) by nia. assert (0 <= p_stride q) by nia.
  destruct (bitblt_spec (p_buf q) 0 (p_stride q) (p_buf p) (p_stride p * y + x * k) (p_stride p) (w * k) h)
    as (b & E & B1 & B2 & _); [nia | lia | nia | intros i I; rewrite Q4; split; nia
    | intros i I; rewrite P4; assert (x * k + w * k <= p_stride p) by nia; split; nia |].
  exists b. split; [exact E|]. split; [exact B1|]. split; [reflexivity|]. split; [reflexivity|].
  cbn [imageOf crop i_w i_h i_at p_stride p_buf]. intros u v U V. apply sample_ext; [lia|]. intros j J.
  replace (v * p_stride q + u * k + j) with (0 + v * p_stride q + (u * k + j)) by lia. rewrite B2; [f_equal; ring | lia | nia].
Qed.

Lemma flipV_plane : forall k p q w h, 1 <= k -> wfPlane k p w h -> wfPlane k q w h ->
  exists b, bitblt (p_buf q) (p_stride q * (h - 1)) (- p_stride q) (p_buf p) 0 (p_stride p) (w * k) h = Ok b /\
    b_size b = b_size (p_buf q) /\
    same (imageOf k (mkPl (p_stride q) b) w h) (flipV (imageOf k p w h)).
Proof.
  intros k p q w h K (P1 & P2 & P3 & P4) (Q1 & Q2 & Q3 & Q4).
  assert (0 <= p_stride p) by nia. assert (0 <= p_stride q) by nia.
  destruct (bitblt_spec (p_buf q) (p_stride q * (h - 1)) (- p_stride q) (p_buf p) 0 (p_stride p) (w * k) h)
    as (b & E & B1 & B2 & _); [nia | lia | lia | intros i I; rewrite Q4; split; nia
    | intros i I; rewrite P4; split; nia |].
  exists b. split; [exact E|]. split; [exact B1|]. split; [reflexivity|]. split; [reflexivity|].
  cbn [imageOf flipV i_w i_h i_at p_stride p_buf]. intros u v U V. apply sample_ext; [lia|]. intros j J.
  replace (v * p_stride q + u * k + j)
    with (p_stride q * (h - 1) + (h - 1 - v) * - p_stride q + (u * k + j)) by ring.
  rewrite B2; [f_equal; ring | lia | nia].
Qed.

(** Element by element copies with reversed columns. *)
Lemma flipH_rows : forall k (src dst : pbuf) d0 ds ss w h, 1 <= k -> 0 <= w -> 0 <= h -> w * k <= Z.abs ds ->
  (forall y, 0 <= y < h -> 0 <= d0 + y * ds /\ d0 + y * ds + w * k <= b_size dst) ->
  (forall y, 0 <= y < h -> 0 <= y * ss /\ y * ss + w * k <= b_size src) ->
  exists b, forZ h (fun y m => forZ (w - 1 + 1)
      (fun x m' => memcpy m' (d0 + y * ds + (w - 1 - x) * k) src (y * ss + x * k) k) m) dst = Ok b /\
    b_size b = b_size dst /\
    forall y x j, 0 <= y < h -> 0 <= x < w -> 0 <= j < k ->
      b_data b (d0 + y * ds + (w - 1 - x) * k + j) = b_data src (y * ss + x * k + j).
Proof.
  intros k src dst d0 ds ss w h K W H A D S.
  apply (forZ_inv (fun y b => b_size b = b_size dst /\
    forall y' x j, 0 <= y' < y -> 0 <= x < w -> 0 <= j < k ->
      b_data b (d0 + y' * ds + (w - 1 - x) * k + j) = b_data src (y' * ss + x * k + j))); [lia | |].
  - split; [reflexivity|]. intros; lia.
  - intros y m Y (M1 & M2). destruct (D y Y) as (D1 & D2). destruct (S y Y) as (S1 & S2).
    destruct (forZ_inv (fun x b => b_size b = b_size dst /\
        (forall x' j, 0 <= x' < x -> 0 <= j < k ->
           b_data b (d0 + y * ds + (w - 1 - x') * k + j) = b_data src (y * ss + x' * k + j)) /\
        (forall y' x' j, 0 <= y' < y -> 0 <= x' < w -> 0 <= j < k ->
           b_data b (d0 + y' * ds + (w - 1 - x') * k + j) = b_data src (y' * ss + x' * k + j)))
      (fun x m' => memcpy m' (d0 + y * ds + (w - 1 - x) * k) src (y * ss + x * k) k) (w - 1 + 1) m) as (b & E & B1 & B2 & B3);
      [lia | | |].
    + split; [exact M1|]. split; [intros; lia | exact M2].
    + intros x t X (T1 & T2 & T3).
      destruct (memcpy_spec t (d0 + y * ds + (w - 1 - x) * k) src (y * ss + x * k) k) as (b & E & B1 & B2 & B3);
        [lia | nia | rewrite T1; nia | nia | nia |].
      exists b. split; [exact E|]. split; [lia|]. split.
      * intros x' j X' J. destruct (Z.eq_dec x' x) as [->|N]; [apply B2; lia|].
        rewrite B3; [apply T2; lia|]. intros j' J' Q.
        assert (x * k + j = x' * k + j') by lia.
        destruct (rows_apart k k x x' j j' ltac:(lia) J J' H0). lia.
      * intros y' x' j Y' X' J. rewrite B3; [apply T3; lia|]. intros j' J' Q.
        assert (RR : y' * ds + ((w - 1 - x') * k + j) = y * ds + ((w - 1 - x) * k + j')) by lia.
        destruct (rows_apart ds (w * k) y' y ((w - 1 - x') * k + j) ((w - 1 - x) * k + j') A ltac:(nia) ltac:(nia) RR). lia.
    + exists b. split; [exact E|]. split; [exact B1|]. intros y' x j Y' X J.
      destruct (Z.eq_dec y' y) as [->|N]; [apply B2; lia | apply B3; lia].
Qed.

Lemma flipH_plane : forall turn k p q w h, 1 <= k -> wfPlane k p w h -> wfPlane k q w h ->
  exists b, forZ h (fun y m => forZ (w - 1 + 1) (fun x m' =>
      memcpy m' ((if turn : bool then p_stride q * (h - 1) else 0) + y * (if turn then - p_stride q else p_stride q) + (w - 1 - x) * k)
                (p_buf p) (y * p_stride p + x * k) k) m) (p_buf q) = Ok b /\
    b_size b = b_size (p_buf q) /\
    same (imageOf k (mkPl (p_stride q) b) w h) ((if turn then rot180 else flipH) (imageOf k p w h)).
Proof.
  intros turn k p q w h K (P1 & P2 & P3 & P4) (Q1 & Q2 & Q3 & Q4).
  assert (0 <= p_stride p) by nia. assert (0 <= p_stride q) by nia.
  destruct (flipH_rows k (p_buf p) (p_buf q) (if turn then p_stride q * (h - 1) else 0)
              (if turn then - p_stride q else p_stride q) (p_stride p) w h) as (b & E & B1 & B2);
    [lia | lia | lia | destruct turn; lia | intros y Y; rewrite Q4; destruct turn; split; nia
    | intros y Y; rewrite P4; split; nia |].
  exists b. split; [exact E|]. split; [exact B1|].
  destruct turn; (split; [reflexivity|]; split; [reflexivity|]);
    cbn [imageOf rot180 flipH i_w i_h i_at p_stride p_buf]; intros u v U V; (apply sample_ext; [lia|]); intros j J.
  - replace (v * p_stride q + u * k + j)
      with (p_stride q * (h - 1) + (h - 1 - v) * - p_stride q + (w - 1 - (w - 1 - u)) * k + j) by ring.
    apply B2; lia.
  - replace (v * p_stride q + u * k + j) with (0 + v * p_stride q + (w - 1 - (w - 1 - u)) * k + j) by ring.
    apply B2; lia.
Qed.

(** Border, source row and border again, [sh] times. *)
Lemma border_rows : forall k c (src dst : pbuf) d0 ds ss l w r h, 1 <= k -> 0 <= l -> 0 <= w -> 0 <= r -> 0 <= h ->
  (l + w + r) * k <= ds -> 0 <= d0 ->
  d0 + h * ds <= b_size dst ->
  (forall y, 0 <= y < h -> 0 <= y * ss /\ y * ss + w * k <= b_size src) ->
  exists b, forZ h (fun y m =>
           obind (fill m (d0 + y * ds) k c (l * k / k)) (fun m1 =>
           obind (memcpy m1 (d0 + y * ds + l * k) src (y * ss) (w * k)) (fun m2 =>
           fill m2 (d0 + y * ds + l * k + w * k) k c (r * k / k)))) dst = Ok b /\
    b_size b = b_size dst /\
    (forall y x j, 0 <= y < h -> 0 <= x < l + w + r -> 0 <= j < k ->
       b_data b (d0 + y * ds + x * k + j) =
       if (l <=? x) && (x <? l + w) then b_data src (y * ss + (x - l) * k + j) else byteOf c j) /\
    (forall a, a < d0 \/ d0 + h * ds <= a -> b_data b a = b_data dst a).
Proof.
  intros k c src dst d0 ds ss l w r h K L W R H A D0 D S.
  assert (DS : 0 <= ds) by nia.
  apply (forZ_inv (fun y b => b_size b = b_size dst /\
    (forall y' x j, 0 <= y' < y -> 0 <= x < l + w + r -> 0 <= j < k ->
       b_data b (d0 + y' * ds + x * k + j) =
       if (l <=? x) && (x <? l + w) then b_data src (y' * ss + (x - l) * k + j) else byteOf c j) /\
    (forall a, a < d0 \/ d0 + y * ds <= a -> b_data b a = b_data dst a))); [lia | |].
  - split; [reflexivity|]. split; [intros; lia | reflexivity].
  - intros y m Y (M1 & M2 & M3). destruct (S y Y) as (S1 & S2). cbv zeta.
    assert (YB : d0 + y * ds + ds <= d0 + h * ds) by nia. assert (Y0 : 0 <= y * ds) by nia.
    assert (LK : 0 <= l * k /\ 0 <= w * k /\ 0 <= r * k) by (split; [|split]; nia).
    assert (AK : l * k + w * k + r * k <= ds) by lia.
    rewrite (Z.div_mul l k) by lia.
    destruct (fill_spec m (d0 + y * ds) k c l) as (m1 & E1 & A1 & A2 & A3); [lia | lia | lia | lia |].
    rewrite E1. cbn [obind].
    destruct (memcpy_spec m1 (d0 + y * ds + l * k) src (y * ss) (w * k)) as (m2 & E2 & B1 & B2 & B3);
      [lia | lia | lia | lia | lia |].
    rewrite E2. cbn [obind].
    rewrite (Z.div_mul r k) by lia.
    destruct (fill_spec m2 (d0 + y * ds + l * k + w * k) k c r) as (m3 & E3 & C1 & C2 & C3); [lia | lia | lia | lia |].
    exists m3. split; [exact E3|]. split; [lia|].
    assert (OLD : forall a, a < d0 + y * ds \/ d0 + y * ds + ds <= a -> b_data m3 a = b_data m a).
    { intros a Ha. rewrite C3 by lia. rewrite B3 by (intros; lia). apply A3. lia. }
    split.
    + intros y' x j Y' X J. destruct (Z.eq_dec y' y) as [->|N].
      * destruct (Z.leb_spec l x) as [LX|LX]; [destruct (Z.ltb_spec x (l + w)) as [XW|XW]|]; cbn [andb].
        -- rewrite C3.
           2: { left. assert (x * k + j < (l + w) * k) by nia. lia. }
           replace (d0 + y * ds + x * k + j) with (d0 + y * ds + l * k + ((x - l) * k + j)) by ring.
           rewrite B2 by nia. f_equal. ring.
        -- replace (d0 + y * ds + x * k + j) with (d0 + y * ds + l * k + w * k + (x - l - w) * k + j) by ring.
           apply C2; lia.
        -- assert (x * k + j < l * k) by nia.
           rewrite C3 by lia. rewrite B3 by (intros; lia). apply A2; lia.
      * rewrite OLD.
        2: { left. assert (x * k + j < ds) by nia. assert (y' * ds + ds <= y * ds) by nia. lia. }
        apply M2; lia.
    + intros a Ha. rewrite OLD by lia. apply M3. lia.
Qed.

(** Top border, rows, bottom border. *)
Lemma border_plane : forall k c p q l w r t h b, 1 <= k -> 0 <= l -> 0 <= r -> 0 <= t -> 0 <= b ->
  0 <= c < 256 ^ k -> (k | p_stride q) ->
  wfPlane k p w h -> wfPlane k q (l + w + r) (t + h + b) ->
  exists m,
    obind (fill (p_buf q) 0 k c (t * p_stride q / k)) (fun m0 =>
    obind (forZ h (fun y m =>
           let o := t * p_stride q + y * p_stride q in
           obind (fill m o k c (l * k / k)) (fun m1 =>
           obind (memcpy m1 (o + l * k) (p_buf p) (y * p_stride p) (w * k)) (fun m2 =>
           fill m2 (o + l * k + w * k) k c (r * k / k)))) m0) (fun m3 =>
    fill m3 (t * p_stride q + h * p_stride q) k c (b * p_stride q / k))) = Ok m /\
    b_size m = b_size (p_buf q) /\
    same (imageOf k (mkPl (p_stride q) m) (l + w + r) (t + h + b)) (pad l r t b c (imageOf k p w h)).
Proof.
  intros k c p q l w r t h b K L R T B C (n & N) (P1 & P2 & P3 & P4) (Q1 & Q2 & Q3 & Q4).
  assert (0 <= p_stride p) by nia. assert (DS : 0 <= p_stride q) by nia.
  assert (TN : t * p_stride q / k = t * n) by (rewrite N, Z.mul_assoc, Z.div_mul; lia).
  assert (BN : b * p_stride q / k = b * n) by (rewrite N, Z.mul_assoc, Z.div_mul; lia).
  assert (NN : 0 <= n) by nia.
  rewrite TN, BN.
  assert (TS : t * n * k = t * p_stride q) by (rewrite N; ring).
  assert (BS : b * n * k = b * p_stride q) by (rewrite N; ring).
  destruct (fill_spec (p_buf q) 0 k c (t * n)) as (m0 & E0 & A1 & A2 & A3); [lia | nia | lia | rewrite TS, Q4; nia |].
  rewrite E0. cbn [obind].
  destruct (border_rows k c (p_buf p) m0 (t * p_stride q) (p_stride q) (p_stride p) l w r h)
    as (m3 & E3 & B1 & B2 & B3); [lia | lia | lia | lia | lia | lia | nia | rewrite A1, Q4; nia
    | intros y Y; rewrite P4; split; nia |].
  rewrite E3. cbn [obind].
  destruct (fill_spec m3 (t * p_stride q + h * p_stride q) k c (b * n)) as (m & E & C1 & C2 & C3);
    [lia | nia | nia | rewrite BS, B1, A1, Q4; nia |].
  exists m. split; [exact E|]. split; [lia|].
  split; [reflexivity|]. split; [reflexivity|].
  cbn [imageOf pad i_w i_h i_at p_stride p_buf]. intros u v U V.
  assert (UK : u * k + k <= p_stride q) by nia.
  assert (BY : forall (d x0 : Z), (forall j, 0 <= j < k -> b_data m (v * p_stride q + u * k + j) = byteOf c j) ->
     leval (Z.to_nat k) (b_data m) (v * p_stride q + u * k) = c).
  { intros _ _ Hj. apply leval_bytes; [rewrite Z2Nat.id by lia; exact C|]. intros j J. apply Hj. lia. }
  destruct (Z.leb_spec t v) as [TV|TV].
  2: { rewrite andb_false_r. cbn [andb]. apply (BY 0 0). intros j J.
    assert (v * p_stride q + p_stride q <= t * p_stride q) by nia.
    rewrite C3 by nia. rewrite B3 by lia.
    replace (v * p_stride q + u * k + j) with (0 + (v * n + u) * k + j) by (rewrite N; ring).
    apply A2; [|lia]. assert (u < n) by nia. nia. }
  destruct (Z.ltb_spec v (t + h)) as [VH|VH].
  2: { rewrite andb_false_r. apply (BY 0 0). intros j J.
    replace (v * p_stride q + u * k + j)
      with (t * p_stride q + h * p_stride q + ((v - t - h) * n + u) * k + j) by (rewrite N; ring).
    apply C2; [|lia]. assert (u < n) by nia. nia. }
  rewrite !andb_true_r.
  assert (ROW : forall j, 0 <= j < k -> b_data m (v * p_stride q + u * k + j) =
     if (l <=? u) && (u <? l + w) then b_data (p_buf p) ((v - t) * p_stride p + (u - l) * k + j) else byteOf c j).
  { intros j J. rewrite C3.
    2: { left. assert (v * p_stride q + p_stride q <= t * p_stride q + h * p_stride q) by nia. lia. }
    replace (v * p_stride q + u * k + j) with (t * p_stride q + (v - t) * p_stride q + u * k + j) by ring.
    apply B2; lia. }
  destruct ((l <=? u) && (u <? l + w)).
  - apply sample_ext; [lia|]. exact ROW.
  - apply (BY 0 0). exact ROW.
Qed.
