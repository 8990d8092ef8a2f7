(** The NEON kernel of Lut: proofs. *)
From Coq Require Import String.
From Coq Require Import ZArith List Lia Bool.
From Verif Require Import Common FormatSpec Format FrameSpec Frame FrameGeom FrameFacts ImageSpec PlaneMem Spatial
  SpatialLemmas SpatialStack SpatialFacts Pixel PixelLemmas PixelSpec Lut LutLemmas LutFrames LutNeon.
Import ListNotations.
Open Scope Z_scope.

Lemma neonLane_spec : forall t T v, full 256 t T -> (forall u, 0 <= u < 256 -> 0 <= T u) -> 0 <= v < 256 -> neonLane t v = Ok (T v).
Proof.
  intros t T v F NN V. unfold neonLane, qtbl4.
  assert (X1 : (v - 64) mod 256 = if v <? 64 then v + 192 else v - 64).
  { destruct (Z.ltb_spec v 64); Z.to_euclidean_division_equations; lia. }
  assert (X2 : ((v - 64) mod 256 - 64) mod 256 = if v <? 128 then v + 128 else v - 128).
  { destruct (Z.ltb_spec v 128); Z.to_euclidean_division_equations; lia. }
  assert (X3 : (((v - 64) mod 256 - 64) mod 256 - 64) mod 256 = if v <? 192 then v + 64 else v - 192).
  { destruct (Z.ltb_spec v 192); Z.to_euclidean_division_equations; lia. }
  cbv zeta. rewrite X3, X2, X1. clear X1 X2 X3.
  assert (L : forall b x, b + x = v -> lookup 256 t (b + x) = Ok (T v)) by (intros b x ->; apply lookup_full; auto).
  destruct (Z.ltb_spec v 64); [|destruct (Z.ltb_spec v 128); [|destruct (Z.ltb_spec v 192)]];
    repeat match goal with |- context [Z.ltb ?a ?b] => destruct (Z.ltb_spec a b); try lia end;
    cbn [obind]; rewrite L by lia; cbn [obind]; rewrite ?Z.lor_0_l, ?Z.lor_0_r; reflexivity.
Qed.

Section Row.
Variables (t : table) (T : Z -> Z) (src dst : plane) (w h y : Z).
Hypotheses (F : full 256 t T) (TR : forall v, 0 <= T v < 256) (WP : wfPlane 1 src w h) (WQ : wfPlane 1 dst w h)
  (DS : (8 | p_stride src)) (DD : (8 | p_stride dst)) (BY : forall a, 0 <= b_data (p_buf src) a < 256) (Y : 0 <= y < h).
Let img := imageOf 1 src w h.
Let g (u v : Z) : Z := T (i_at img u v).
Let str := p_stride dst.
Let e := 8 * groups w 8.

(** Bytes of row [y] beyond the last group, and of other rows. *)
Definition kept (m m' : pbuf) : Prop := forall a, a < y * str \/ y * str + e <= a -> b_data m' a = b_data m a.

Lemma chunk : forall n x, 0 <= x -> x + Z.of_nat n <= e ->
  exists l, loadLanes 1 (p_buf src) (y * p_stride src + x) n = Ok l /\ mapO (neonLane t) l = Ok (map T l) /\ zlength l = Z.of_nat n /\
    forall i, 0 <= i < Z.of_nat n -> nthz l i = Some (i_at img (x + i) y).
Proof.
  intros n x X E. destruct WP as (W & H & S & B).
  assert (G : 8 * groups w 8 * 1 <= p_stride src) by (apply group_fits; lia || assumption).
  destruct (loadLanes_spec 1 n (p_buf src) (y * p_stride src + x)) as (l & L1 & L2 & L3); try lia; [nia| rewrite B; unfold e in E; nia |].
  assert (AT : forall i, 0 <= i < Z.of_nat n -> nthz l i = Some (i_at img (x + i) y)).
  { intros i I. rewrite L3 by lia. unfold img. cbn [imageOf i_at]. do 2 f_equal. lia. }
  exists l. split; [exact L1|]. split; [|split; [exact L2 | exact AT]].
  apply mapO_spec. intros v I. apply neonLane_spec; auto; [intros; apply TR|].
  apply (nthz_bound_In (fun v => 0 <= v < 256) l) with (v := v) in I; [exact I|].
  intros i u N. pose proof (nthz_range _ _ _ _ N) as R. rewrite AT in N by lia. injection N as <-.
  pose proof (image_range 1 src w h (x + i) y ltac:(lia) BY) as Q. change (256 ^ 1) with 256 in Q. exact Q.
Qed.

Lemma put : forall n x l m, 0 <= x -> 0 < n -> x + n <= e -> zlength l = n -> b_size m = b_size (p_buf dst) ->
  (forall i, 0 <= i < n -> nthz l i = Some (T (i_at img (x + i) y))) -> painted 1 w h g str y x m ->
  exists m', storeLanes 1 m (y * str + x) l = Ok m' /\ b_size m' = b_size (p_buf dst) /\ painted 1 w h g str y (x + n) m' /\ kept m m'.
Proof.
  intros n x l m X N E L SZ AT P. destruct WQ as (W & H & S & B). fold str in S, B.
  assert (G : 8 * groups w 8 * 1 <= str) by (apply group_fits; lia || assumption).
  destruct (storeLanes_spec 1 l m (y * str + x)) as (m' & E1 & E2 & E3 & E4); try lia; [nia | rewrite SZ, B, L; unfold e in E; nia |].
  exists m'. split; [exact E1|]. split; [congruence|]. split.
  - apply (painted_step 1 w h g ltac:(lia) str y x n m m'); auto; try lia.
    + intros i I I2 j J. replace (y * str + (x + i) * 1 + j) with (y * str + x + i * 1 + j) by lia. apply (E3 i); [|exact J]. apply AT; lia.
    + intros a A. apply E4. lia.
  - intros a A. apply E4. lia.
Qed.

Lemma loop16_spec : forall fuel x m, 0 <= x -> x <= w -> (8 | x) -> w - x <= Z.of_nat fuel -> b_size m = b_size (p_buf dst) -> painted 1 w h g str y x m ->
  exists x' m', loop16 t src str w y fuel x m = Ok (x', m') /\ 0 <= x' <= w /\ (8 | x') /\
    b_size m' = b_size (p_buf dst) /\ painted 1 w h g str y x' m' /\ kept m m'.
Proof.
  assert (W : 0 <= w) by apply WP. destruct (groups_bounds w 8 ltac:(lia) W) as (G0 & G1). fold e in G1.
  induction fuel as [|k IH]; intros x m X XW D FU SZ P; cbn [loop16]; destruct (Z.leb_spec (x + 16) w); try lia;
    try (exists x, m; repeat split; auto; intros a A; reflexivity).
  destruct (chunk 16 x X) as (l & L1 & L2 & L3 & L4); [lia|]. rewrite L1. cbn [obind]. rewrite L2. cbn [obind].
  destruct (put 16 x (map T l) m) as (m1 & S1 & S2 & S3 & S4); auto; try lia.
  - rewrite zlength_map. lia.
  - intros i I. rewrite nthz_map, L4 by lia. reflexivity.
  - rewrite S1. cbn [obind]. destruct (IH (x + 16) m1) as (x' & m' & A1 & A2 & A3 & A4 & A5 & A6); auto; try lia.
    + apply Z.divide_add_r; [exact D | exists 2; reflexivity].
    + exists x', m'. split; [exact A1|]. split; [exact A2|]. split; [exact A3|]. split; [exact A4|]. split; [exact A5|].
      intros a A. rewrite A6 by exact A. apply S4. exact A.
Qed.

Lemma loop8_spec : forall fuel x m, 0 <= x -> (8 | x) -> w - x <= Z.of_nat fuel -> b_size m = b_size (p_buf dst) -> painted 1 w h g str y x m ->
  exists m', loop8 t src str w y fuel x m = Ok m' /\
    b_size m' = b_size (p_buf dst) /\ painted 1 w h g str y w m' /\ kept m m'.
Proof.
  assert (W : 0 <= w) by apply WP. destruct (groups_bounds w 8 ltac:(lia) W) as (G0 & G1). fold e in G1.
  induction fuel as [|k IH]; intros x m X D FU SZ P; cbn [loop8]; destruct (Z.ltb_spec x w); try lia;
    try (exists m; split; [reflexivity|]; split; [exact SZ|]; split; [intros u v U V C; apply P; auto; lia | intros a A; reflexivity]).
  assert (XE : x + 8 <= e) by (destruct D as (c & ->); unfold e in *; nia).
  destruct (chunk 8 x X) as (l & L1 & L2 & L3 & L4); [lia|]. rewrite L1. cbn [obind].
  assert (M2 : mapO (neonLane t) (l ++ l) = Ok (map T l ++ map T l)).
  { rewrite <- map_app. apply mapO_spec. intros v I. assert (I' : In v l) by (apply in_app_or in I; tauto).
    clear -L2 I' F TR. revert L2 I'. induction l as [|u l IH]; intros E I; [destruct I|]. cbn [mapO map] in E.
    destruct (neonLane t u) eqn:N; try discriminate E. cbn [obind] in E. destruct (mapO (neonLane t) l) eqn:N2; try discriminate E.
    cbn [obind] in E. injection E as E1 E2. destruct I as [-> | I]; [rewrite N, E1; reflexivity|]. apply IH; [congruence | exact I]. }
  rewrite M2. cbn [obind].
  assert (F8 : firstn 8 (map T l ++ map T l) = map T l).
  { assert (length (map T l) = 8%nat) as L8 by (rewrite map_length; unfold zlength in L3; lia).
    rewrite firstn_app, L8, firstn_all2 by lia. cbn [Nat.sub firstn]. apply app_nil_r. }
  rewrite F8. destruct (put 8 x (map T l) m) as (m1 & S1 & S2 & S3 & S4); auto; try lia.
  - rewrite zlength_map. lia.
  - intros i I. rewrite nthz_map, L4 by lia. reflexivity.
  - rewrite S1. cbn [obind]. destruct (IH (x + 8) m1) as (m' & A1 & A2 & A3 & A4); auto; try lia.
    + apply Z.divide_add_r; [exact D | exists 1; reflexivity].
    + exists m'. split; [exact A1|]. split; [exact A2|]. split; [exact A3|].
      intros a A. rewrite A4 by exact A. apply S4. exact A.
Qed.

Lemma neonRow_spec : forall m, b_size m = b_size (p_buf dst) -> painted 1 w h g str y 0 m ->
  exists m', neonRow t src str w y m = Ok m' /\ b_size m' = b_size (p_buf dst) /\ painted 1 w h g str (y + 1) 0 m' /\ kept m m'.
Proof.
  intros m SZ P. assert (W : 0 <= w) by apply WP. unfold neonRow.
  destruct (loop16_spec (Z.to_nat w) 0 m) as (x & m1 & A1 & A2 & A3 & A4 & A5 & A6); auto; try lia; [exists 0; reflexivity|].
  rewrite A1. cbn [obind fst snd].
  destruct (loop8_spec (Z.to_nat w) x m1) as (m' & B1 & B2 & B3 & B4); auto; try lia.
  exists m'. split; [exact B1|]. split; [exact B2|]. split.
  - intros u v U V C. apply B3; auto; lia.
  - intros a A. rewrite B4 by exact A. apply A6. exact A.
Qed.
End Row.

(** The plane: the table is applied, and the bytes of the padding behind the last group of
    eight stay what they were. *)
Theorem neon_plane : forall t T w h src dst, full 256 t T -> (forall v, 0 <= T v < 256) -> wfPlane 1 src w h -> wfPlane 1 dst w h ->
  (8 | p_stride src) -> (8 | p_stride dst) -> (forall a, 0 <= b_data (p_buf src) a < 256) ->
  exists m, neonPlane t w h src dst = Ok m /\ b_size m = b_size (p_buf dst) /\
    same (imageOf 1 (mkPl (p_stride dst) m) w h) (mapped T (imageOf 1 src w h)) /\
    forall y x, 0 <= y < h -> 8 * groups w 8 <= x < p_stride dst -> b_data m (y * p_stride dst + x) = b_data (p_buf dst) (y * p_stride dst + x).
Proof.
  intros t T w h src dst F TR WP WQ DS DD BY. pose proof WQ as (W & H & S & B). unfold neonPlane.
  set (g := fun u v => T (i_at (imageOf 1 src w h) u v)).
  destruct (groups_bounds w 8 ltac:(lia) W) as (G0 & G1).
  destruct (forZ_inv (fun y m => b_size m = b_size (p_buf dst) /\ painted 1 w h g (p_stride dst) y 0 m /\
      forall v x, 0 <= v < h -> 8 * groups w 8 <= x < p_stride dst -> b_data m (v * p_stride dst + x) = b_data (p_buf dst) (v * p_stride dst + x))
    (fun y m => neonRow t src (p_stride dst) w y m) h (p_buf dst) H) as (m & E & M1 & M2 & M3).
  - split; [reflexivity|]. split; [|reflexivity]. intros u v U V C. lia.
  - intros y m Y (M1 & M2 & M3). destruct (neonRow_spec t T src dst w h y F TR WP WQ DS DD BY Y m M1 M2) as (m' & A1 & A2 & A3 & A4).
    exists m'. split; [exact A1|]. split; [exact A2|]. split; [exact A3|].
    intros v x V X. rewrite <- M3 by assumption. apply A4.
    assert (v < y \/ v = y \/ y < v) as [C|[-> |C]] by lia; [left; nia | right; lia |].
    right. assert (8 * groups w 8 * 1 <= p_stride dst) by (apply group_fits; lia || assumption). nia.
  - exists m. split; [exact E|]. split; [exact M1|]. split; [|exact M3].
    apply (painted_image 1 w h g ltac:(lia) (p_stride dst) 0 m H); [|exact M2]. intros u v _ _. apply TR.
Qed.

Lemma lutPlaneArm_spec : forall al neon d w h p q T, alignment al -> ld_vbmi d = false ->
  (ld_bytesIn d = 1 \/ ld_bytesIn d = 2) -> (let ko := f_bytes (vi_fmt (ld_out d)) in ko = 1 \/ ko = 2 \/ ko = 4) ->
  wfPlane (ld_bytesIn d) p w h -> (al | p_stride p) -> (forall a, 0 <= b_data (p_buf p) a < 256) ->
  wfPlane (f_bytes (vi_fmt (ld_out d))) q w h -> (al | p_stride q) ->
  full (2 ^ (8 * ld_bytesIn d)) (ld_tbl d) T -> (forall v, 0 <= T v < 256 ^ f_bytes (vi_fmt (ld_out d))) ->
  exists m, lutPlaneArm al neon d w h p q = Ok m /\ b_size m = b_size (p_buf q) /\
    same (imageOf (f_bytes (vi_fmt (ld_out d))) (mkPl (p_stride q) m) w h) (mapped T (imageOf (ld_bytesIn d) p w h)).
Proof.
  intros al neon d w h p q T A NV KI KO WP AP BY WQ AQ F TR. unfold lutPlaneArm.
  destruct ((ld_bytesIn d =? 1) && (f_bytes (vi_fmt (ld_out d)) =? 1) && neon) eqn:C.
  - apply andb_prop in C. destruct C as (C & _). apply andb_prop in C. destruct C as (C1 & C2).
    apply Z.eqb_eq in C1. apply Z.eqb_eq in C2. rewrite C1, C2 in *.
    assert (A8 : (8 | al)) by (destruct A as [-> | ->]; [exists 4 | exists 8]; reflexivity).
    destruct (neon_plane (ld_tbl d) T w h p q) as (m & M1 & M2 & M3 & _); auto; try (eapply Z.divide_trans; eassumption).
    exists m. auto.
  - apply lutPlane_spec; auto. congruence.
Qed.

Section Frames.
Variable D : Type.
Variable tofloat : D -> Z.

(** The frame as on other processors. *)
Theorem arm_frame : forall al g neon vi a d src, alignment al ->
  (forall x, 0 <= tofloat x < 2 ^ 32) -> Forall (fun o => in_int o) (la_planes a) ->
  noEmptyError D a (2 ^ f_bits (vi_fmt vi)) -> lutCreate tofloat false vi a = Ok d ->
  wfFrame al src -> byteFrame src -> matches src vi ->
  (forall i, 0 <= i < f_np (vi_fmt vi) -> chosen (la_planes a) i = false -> f_bytes (vi_fmt (ld_out d)) = f_bytes (vi_fmt vi)) ->
  exists T r, (forall i, 0 <= i < 2 ^ f_bits (vi_fmt vi) -> given D tofloat a (bitsOut (la_bits a) (la_float a) (f_bits (vi_fmt vi))) i (T i)) /\
    lutGetFrameArm al g neon d src = Ok r /\ wfFrame al r /\ matches r (ld_out d) /\ vf_props r = vf_props src /\
    planesMap (fun i p => if chosen (la_planes a) i then looked (f_bits (vi_fmt vi)) T p else p) src r.
Proof.
  intros al g neon vi a d src A TF PL NE E WF BY (M1 & M2 & M3) SH.
  assert (V : fmt_valid (vi_fmt vi)) by (rewrite <- M1; apply WF).
  pose proof (lutCreate_inv D tofloat false vi a d V E) as I. cbv zeta in I.
  destruct (lut_accepts D tofloat false vi a d V NE E) as (T & T1 & T2).
  set (bo := bitsOut (la_bits a) (la_float a) (f_bits (vi_fmt vi))) in *.
  destruct I as (I1 & I2 & I3 & I4 & I5 & I6 & I7 & I8 & I9 & I10 & I11 & I12 & I13 & I14 & I15 & I16 & I17).
  destruct (bytes_of _ V) as (B1 & B2 & B3 & B4). destruct (bytes_of _ I6) as (C1 & C2 & C3 & C4).
  assert (IA : isAl al) by (destruct A as [-> | ->]; [exists 5 | exists 6]; split; [reflexivity|lia|reflexivity|lia]).
  assert (P2 := pow2_le (f_bits (vi_fmt vi)) (8 * f_bytes (vi_fmt vi)) ltac:(lia)).
  set (TT := fun v => if (0 <=? v) && (v <? 2 ^ f_bits (vi_fmt vi)) then T v else 0).
  assert (TB : forall v, 0 <= TT v < 256 ^ f_bytes (vi_fmt (ld_out d))).
  { assert (Q : 2 ^ bo <= 256 ^ f_bytes (vi_fmt (ld_out d))).
    { change 256 with (2 ^ 8). rewrite <- Z.pow_mul_r by lia. apply Z.pow_le_mono_r; lia. }
    intros v. unfold TT. destruct (Z.leb_spec 0 v); destruct (Z.ltb_spec v (2 ^ f_bits (vi_fmt vi))); cbn [andb];
      try (pose proof (Z.pow_pos_nonneg 2 bo); lia).
    pose proof (given_bound D tofloat a bo v (T v) TF (T1 v ltac:(lia)) I2). lia. }
  assert (PRC : forall i, 0 <= i < f_np (vi_fmt (ld_out d)) -> ld_process d i = chosen (la_planes a) i).
  { intros i Hi. apply getPlanesArg_chosen; auto. pose proof (valid_np _ I6). lia. }
  destruct (filterFrame_map al g (vi_fmt (ld_out d)) (vf_w src) (vf_h src) (ld_process d) src
     (fun i q => match nthz (vf_planes src) i with
        | Some p => lutPlaneArm al neon d (getWidth (vf_fmt src) (vf_w src) i) (getHeight (vf_fmt src) (vf_h src) i) p q
        | None => UB end)
     (fun i p => looked (f_bits (vi_fmt vi)) T p)) as (r & R1 & R2 & R3 & R4 & R5 & R6 & R7); auto.
  - rewrite M1. congruence.
  - rewrite M1. congruence.
  - rewrite M1. congruence.
  - intros i Hi PR. rewrite M1. symmetry. apply (SH i); [lia|]. rewrite <- PRC by exact Hi. exact PR.
  - intros i p q Hi PR NP WP SP WQ SQ. rewrite NP.
    pose proof WF as (WF1 & WF2 & WF3 & _).
    rewrite getWidth_planeW, getHeight_planeH by exact WF1.
    assert (EW : planeW (vf_fmt src) (vf_w src) i = planeW (vi_fmt (ld_out d)) (vf_w src) i) by (unfold planeW; rewrite M1, I11; reflexivity).
    assert (EH : planeH (vf_fmt src) (vf_h src) i = planeH (vi_fmt (ld_out d)) (vf_h src) i) by (unfold planeH; rewrite M1, I12; reflexivity).
    rewrite EW, EH. rewrite M1 in WP |- *. rewrite <- I16 in WP |- *.
    destruct (lutPlaneArm_spec al neon d (planeW (vi_fmt (ld_out d)) (vf_w src) i) (planeH (vi_fmt (ld_out d)) (vf_h src) i) p q
      (fun v => TT (legal (f_bits (vi_fmt vi)) v)) A) as (m & L1 & L2 & L3); auto.
    + lia.
    + rewrite SP. apply stride_div; auto. lia.
    + apply (BY i p NP).
    + rewrite SQ. apply stride_div; auto. lia.
    + rewrite I16. intros v Hv. rewrite T2 by exact Hv. unfold TT, legal, top.
      destruct (Z.leb_spec 0 (Z.min v (2 ^ f_bits (vi_fmt vi) - 1))); [|lia].
      destruct (Z.ltb_spec (Z.min v (2 ^ f_bits (vi_fmt vi) - 1)) (2 ^ f_bits (vi_fmt vi))); [reflexivity|lia].
    + exists m. split; [exact L1|]. split; [exact L2|].
      apply (same_trans _ _ _ L3). split; [reflexivity|]. split; [reflexivity|]. intros x y _ _. cbn [mapped looked i_at].
      unfold TT. pose proof (image_range (ld_bytesIn d) p (planeW (vi_fmt (ld_out d)) (vf_w src) i) (planeH (vi_fmt (ld_out d)) (vf_h src) i) x y ltac:(lia) (BY i p NP)) as IR.
      unfold legal, top. destruct (Z.leb_spec 0 (Z.min (i_at (imageOf (ld_bytesIn d) p (planeW (vi_fmt (ld_out d)) (vf_w src) i) (planeH (vi_fmt (ld_out d)) (vf_h src) i)) x y) (2 ^ f_bits (vi_fmt vi) - 1))); [|lia].
      destruct (Z.ltb_spec (Z.min (i_at (imageOf (ld_bytesIn d) p (planeW (vi_fmt (ld_out d)) (vf_w src) i) (planeH (vi_fmt (ld_out d)) (vf_h src) i)) x y) (2 ^ f_bits (vi_fmt vi) - 1)) (2 ^ f_bits (vi_fmt vi))); [reflexivity|lia].
  - exists T, r. split; [exact T1|]. split; [exact R1|]. split; [exact R2|].
    split; [split; [exact R3|]; split; [rewrite R4, I13; exact M2 | rewrite R5, I14; exact M3]|]. split; [exact R6|].
    intros i Hi. destruct (R7 i Hi) as (x & y & X & Y & S). exists x, y. split; [exact X|]. split; [exact Y|].
    rewrite <- PRC by (rewrite <- R3; exact Hi). exact S.
Qed.

End Frames.
