(** What the sample by sample loops leave in the planes. *)
From Coq Require Import ZArith List Lia Bool.
From Verif Require Import Common FormatSpec Format FormatLemmas FrameSpec Frame FrameLemmas FrameGeom ImageSpec PlaneMem Spatial
  SpatialLemmas Pixel.
Import ListNotations.
Open Scope Z_scope.

Lemma loadS_ok : forall k b o, 0 <= o -> o + k <= b_size b -> loadS k b o = Ok (leval (Z.to_nat k) (b_data b) o).
Proof. intros. unfold loadS. rewrite inside_true by lia. reflexivity. Qed.

(** Sample (x, y) of a plane. *)
Lemma loadS_at : forall k p w h x y, 1 <= k -> wfPlane k p w h -> 0 <= x < w -> 0 <= y < h ->
  loadS k (p_buf p) (y * p_stride p + x * k) = Ok (i_at (imageOf k p w h) x y).
Proof.
  intros k p w h x y K (W & H & S & B) X Y. cbn [imageOf i_at]. apply loadS_ok; [nia|].
  rewrite B. assert (x * k + k <= p_stride p) by nia. nia.
Qed.

(** The same in the padding: some value of [k] bytes. *)
Lemma leval_range : forall n f o, (forall j, 0 <= f j < 256) -> 0 <= leval n f o < 256 ^ Z.of_nat n.
Proof.
  induction n as [|n IH]; intros f o F; [cbn; lia|]. cbn [leval]. rewrite Nat2Z.inj_succ, Z.pow_succ_r by lia.
  specialize (IH f (o + 1) F). specialize (F o). lia.
Qed.

Lemma storeS_spec : forall k b o v, 1 <= k -> 0 <= o -> o + k <= b_size b ->
  exists m, storeS k b o v = Ok m /\ b_size m = b_size b /\
    (forall j, 0 <= j < k -> b_data m (o + j) = byteOf v j) /\
    (forall a, a < o \/ o + k <= a -> b_data m a = b_data b a).
Proof.
  intros k b o v K O E. unfold storeS.
  destruct (fill_spec b o k v 1 ltac:(lia) ltac:(lia) O ltac:(lia)) as (m & F & S & A & B).
  exists m. split; [exact F|]. split; [exact S|]. split.
  - intros j J. replace (o + j) with (o + 0 * k + j) by lia. apply A; lia.
  - intros a Ha. apply B. lia.
Qed.

Lemma leval_stored : forall k m o v, 1 <= k -> 0 <= v < 256 ^ k ->
  (forall j, 0 <= j < k -> b_data m (o + j) = byteOf v j) -> leval (Z.to_nat k) (b_data m) o = v.
Proof. intros k m o v K V E. apply leval_bytes; rewrite Z2Nat.id by lia; assumption. Qed.

(** Stored lanes. *)
Lemma storeLanes_spec : forall k l b o, 1 <= k -> 0 <= o -> o + zlength l * k <= b_size b ->
  exists m, storeLanes k b o l = Ok m /\ b_size m = b_size b /\
    (forall t v, nthz l t = Some v -> forall j, 0 <= j < k -> b_data m (o + t * k + j) = byteOf v j) /\
    (forall a, a < o \/ o + zlength l * k <= a -> b_data m a = b_data b a).
Proof.
  intros k. induction l as [|v l IH]; intros b o K O E.
  - exists b. split; [reflexivity|]. split; [reflexivity|]. split; [|reflexivity].
    intros t w N. pose proof (nthz_range _ _ _ _ N) as R. cbn in R. lia.
  - rewrite zlength_cons in E. pose proof (zlength_nonneg _ l) as L.
    assert (LK : 0 <= zlength l * k) by (apply Z.mul_nonneg_nonneg; lia).
    rewrite Z.mul_add_distr_r in E.
    destruct (storeS_spec k b o v K O ltac:(lia)) as (m & F & S & A & B).
    destruct (IH m (o + k) K ltac:(lia) ltac:(lia)) as (m' & F' & S' & A' & B').
    exists m'. cbn [storeLanes]. rewrite F. cbn [obind]. split; [exact F'|]. split; [congruence|]. split.
    + intros t w N j J. destruct (Z.eq_dec t 0) as [->|T].
      * rewrite nthz_cons_0 in N. injection N as <-. rewrite B' by lia. replace (o + 0 * k + j) with (o + j) by lia. apply A; lia.
      * pose proof (nthz_range _ _ _ _ N) as R. rewrite nthz_cons_S in N by lia.
        replace (o + t * k + j) with (o + k + (t - 1) * k + j) by lia. apply A'; assumption.
    + intros a Ha. rewrite zlength_cons, Z.mul_add_distr_r in Ha. rewrite B' by lia. apply B; lia.
Qed.

Lemma loadLanes_spec : forall k n b o, 1 <= k -> 0 <= o -> o + Z.of_nat n * k <= b_size b ->
  exists l, loadLanes k b o n = Ok l /\ zlength l = Z.of_nat n /\
    forall t, 0 <= t < Z.of_nat n -> nthz l t = Some (leval (Z.to_nat k) (b_data b) (o + t * k)).
Proof.
  intros k. induction n as [|n IH]; intros b o K O E.
  - exists []. split; [reflexivity|]. split; [reflexivity|]. intros; lia.
  - assert (0 <= Z.of_nat n * k) by (apply Z.mul_nonneg_nonneg; lia).
    replace (Z.of_nat (S n) * k) with (Z.of_nat n * k + k) in E by lia.
    destruct (IH b (o + k) K ltac:(lia) ltac:(lia)) as (l & F & L & A).
    exists (leval (Z.to_nat k) (b_data b) o :: l). cbn [loadLanes]. rewrite loadS_ok by lia. cbn [obind]. rewrite F. cbn [obind].
    split; [reflexivity|]. split; [rewrite zlength_cons; lia|].
    intros t T. destruct (Z.eq_dec t 0) as [->|N].
    + rewrite nthz_cons_0. do 2 f_equal. lia.
    + rewrite nthz_cons_S by lia. rewrite A by lia. do 2 f_equal. lia.
Qed.

(** ** A plane painted sample by sample *)

Section Draw.
Variables (k w h : Z) (g : Z -> Z -> Z).
Hypothesis K : 1 <= k.

(** Rows before [y] and, in row [y], samples before [x] hold their values. *)
Definition painted (str : Z) (y x : Z) (m : pbuf) : Prop :=
  forall u v, 0 <= u < w -> 0 <= v < h -> (v < y \/ v = y /\ u < x) ->
    forall j, 0 <= j < k -> b_data m (v * str + u * k + j) = byteOf (g u v) j.

Lemma painted_image : forall str x m, 0 <= h ->
  (forall u v, 0 <= u < w -> 0 <= v < h -> 0 <= g u v < 256 ^ k) -> painted str h x m ->
  same (imageOf k (mkPl str m) w h) (mkI w h g).
Proof.
  intros str x m H R D. split; [reflexivity|]. split; [reflexivity|]. cbn [imageOf i_at i_w i_h p_stride p_buf].
  intros u v U V. apply leval_stored; [exact K | apply R; assumption |]. intros j J. apply D; try lia.
Qed.

(** Storing over everything from (x, y) on to the right keeps what was painted before. *)
Lemma painted_step : forall str y x n m m', 0 <= y < h -> 0 <= x -> 0 < n -> w * k <= str ->
  painted str y x m ->
  (forall t, 0 <= t < n -> x + t < w -> forall j, 0 <= j < k -> b_data m' (y * str + (x + t) * k + j) = byteOf (g (x + t) y) j) ->
  (forall a, a < y * str + x * k -> b_data m' a = b_data m a) ->
  painted str y (x + n) m'.
Proof.
  intros str y x n m m' Y X N S D A B u v U V C j J.
  assert (Q : v < y \/ v = y /\ u < x \/ v = y /\ x <= u < x + n) by lia.
  destruct Q as [Q|[(-> & Q)|(-> & Q)]].
  - rewrite B; [apply D; auto|]. assert (u * k + k <= w * k) by nia. nia.
  - rewrite B; [apply D; auto|]. nia.
  - specialize (A (u - x) ltac:(lia)). replace (x + (u - x)) with u in A by lia. apply A; lia.
Qed.

Lemma drawPlane_spec : forall val dst, wfPlane k dst w h ->
  (forall x y, 0 <= x < w -> 0 <= y < h -> val x y = Ok (g x y) /\ 0 <= g x y < 256 ^ k) ->
  exists m, drawPlane k w h val dst = Ok m /\ b_size m = b_size (p_buf dst) /\
    same (imageOf k (mkPl (p_stride dst) m) w h) (mkI w h g).
Proof.
  intros val dst (W & H & S & B) V. unfold drawPlane. set (str := p_stride dst) in *.
  destruct (forZ_inv (fun y m => b_size m = b_size (p_buf dst) /\ painted str y 0 m)
    (fun y m => forZ w (fun x m' => obind (val x y) (fun v => storeS k m' (y * str + x * k) v)) m) h (p_buf dst) H) as (m & E & M1 & M2).
  - split; [reflexivity|]. intros u v U V' C. lia.
  - intros y m Y (M1 & M2).
    destruct (forZ_inv (fun x m' => b_size m' = b_size (p_buf dst) /\ painted str y x m')
      (fun x m' => obind (val x y) (fun v => storeS k m' (y * str + x * k) v)) w m W) as (m' & E & N1 & N2).
    + split; assumption.
    + intros x t X (T1 & T2). destruct (V x y X Y) as (VE & VR). rewrite VE. cbn [obind].
      assert (x * k + k <= str) by nia.
      destruct (storeS_spec k t (y * str + x * k) (g x y) K ltac:(nia)) as (m' & F & P & A & Q).
      { rewrite T1, B. fold str. nia. }
      exists m'. split; [exact F|]. split; [congruence|].
      apply (painted_step str y x 1 t m'); [exact Y|lia|lia|exact S|exact T2| | ].
      * intros q Q1 Q2 j J. assert (q = 0) by lia. subst q. rewrite !Z.add_0_r. apply A. lia.
      * intros a Ha. apply Q. lia.
    + exists m'. split; [exact E|]. split; [exact N1|].
      intros u v U V' C j J. apply N2; auto. lia.
  - exists m. split; [exact E|]. split; [exact M1|]. apply (painted_image str 0 m H); [|exact M2].
    intros u v U V'. apply V; assumption.
Qed.

Lemma groups_bounds : forall n, 0 < n -> 0 <= w -> 0 <= groups w n /\ w <= n * groups w n < w + n.
Proof.
  intros n N W. unfold groups. pose proof (Z.div_mod (w + n - 1) n ltac:(lia)). pose proof (Z.mod_pos_bound (w + n - 1) n N).
  split; [apply Z.div_pos; lia|]. lia.
Qed.

(** The same a group at a time: the stride must hold the last group. *)
Lemma drawGroups_spec : forall n val dst, 0 < n -> wfPlane k dst w h -> n * groups w n * k <= p_stride dst ->
  (forall j y, 0 <= j < groups w n -> 0 <= y < h -> exists l, val (n * j) y = Ok l /\ zlength l = n /\
     forall t, 0 <= t < n -> n * j + t < w -> nthz l t = Some (g (n * j + t) y)) ->
  (forall x y, 0 <= x < w -> 0 <= y < h -> 0 <= g x y < 256 ^ k) ->
  exists m, drawGroups k w h n val dst = Ok m /\ b_size m = b_size (p_buf dst) /\
    same (imageOf k (mkPl (p_stride dst) m) w h) (mkI w h g).
Proof.
  intros n val dst N (W & H & S & B) GS V R. unfold drawGroups. set (str := p_stride dst) in *.
  destruct (groups_bounds n N W) as (G0 & G1).
  destruct (forZ_inv (fun y m => b_size m = b_size (p_buf dst) /\ painted str y 0 m)
    (fun y m => forZ (groups w n) (fun j m' => obind (val (n * j) y) (fun l => storeLanes k m' (y * str + n * j * k) l)) m) h (p_buf dst) H) as (m & E & M1 & M2).
  - split; [reflexivity|]. intros u v U V' C. lia.
  - intros y m Y (M1 & M2).
    destruct (forZ_inv (fun j m' => b_size m' = b_size (p_buf dst) /\ painted str y (n * j) m')
      (fun j m' => obind (val (n * j) y) (fun l => storeLanes k m' (y * str + n * j * k) l)) (groups w n) m G0) as (m' & E & N1 & N2).
    + split; [assumption|]. rewrite Z.mul_0_r. assumption.
    + intros x t X (T1 & T2). destruct (V x y X Y) as (l & VE & VL & VN). rewrite VE. cbn [obind].
      assert (NX : n * x + n <= n * groups w n) by nia.
      assert (X0 : 0 <= n * x) by nia.
      assert (NK : n * x * k + n * k <= str) by nia.
      destruct (storeLanes_spec k l t (y * str + n * x * k) K ltac:(nia)) as (m' & F & P & A & Q).
      { rewrite T1, B, VL. fold str. nia. }
      exists m'. split; [exact F|]. split; [congruence|].
      replace (n * (x + 1)) with (n * x + n) by lia.
      apply (painted_step str y (n * x) n t m'); [exact Y|lia|lia|exact S|exact T2| | ].
      * intros q Q1 Q2 j J. replace (y * str + (n * x + q) * k + j) with (y * str + n * x * k + q * k + j) by lia.
        apply A; auto.
      * intros a Ha. apply Q. lia.
    + exists m'. split; [exact E|]. split; [exact N1|].
      intros u v U V' C j J. apply N2; auto. lia.
  - exists m. split; [exact E|]. split; [exact M1|]. apply (painted_image str 0 m H); [exact R | exact M2].
Qed.

End Draw.

(** ** Frames *)

(** Plane [i] of [r] is the picture [img i]. *)
Definition shows (r : vframe) (img : Z -> image) : Prop :=
  forall i, 0 <= i < f_np (vf_fmt r) -> exists b, planeImg r i = Some b /\ same b (img i).

Lemma filterFrame_spec : forall al g f w h process src paint img, isAl al -> fmt_valid f -> 1 <= w -> 1 <= h ->
  wfFrame al src ->
  (forall i, 0 <= i < f_np f -> process i = true -> forall q,
     wfPlane (f_bytes f) q (planeW f w i) (planeH f h i) -> p_stride q = strideOf al f w i ->
     exists m, paint i q = Ok m /\ b_size m = b_size (p_buf q) /\
       same (imageOf (f_bytes f) (mkPl (p_stride q) m) (planeW f w i) (planeH f h i)) (img i)) ->
  (forall i, 0 <= i < f_np f -> process i = false ->
     i < f_np (vf_fmt src) /\ f_bytes (vf_fmt src) = f_bytes f /\
     planeW (vf_fmt src) (vf_w src) i = planeW f w i /\ planeH (vf_fmt src) (vf_h src) i = planeH f h i /\
     exists a, planeImg src i = Some a /\ same a (img i)) ->
  exists r, filterFrame al g f w h process src paint = Ok r /\ wfFrame al r /\
    vf_fmt r = f /\ vf_w r = w /\ vf_h r = h /\ vf_props r = vf_props src /\ shows r img.
Proof.
  intros al g f w h process src paint img A V W H WF P N. unfold filterFrame.
  destruct (Z.leb_spec w 0); [lia|]. destruct (Z.leb_spec h 0); [lia|]. cbn [orb].
  pose proof WF as (SV & SW & SH & SL & SP).
  destruct (eachPlane_spec (fun i p => p_stride p = strideOf al f w i /\ b_size (p_buf p) = p_stride p * planeH f h i /\
      same (imageOf (f_bytes f) p (planeW f w i) (planeH f h i)) (img i))
    (fun i => if process i then obind (paint i (freshPlane al g f w h i)) (fun m => Ok (mkPl (p_stride (freshPlane al g f w h i)) m))
         else if f_np (vf_fmt src) <=? i then UB
         else if negb (getHeight (vf_fmt src) (vf_h src) i =? getHeight f h i)
                 || negb (getWidth (vf_fmt src) (vf_w src) i =? getWidth f w i) then UB
         else match nthz (vf_planes src) i with Some p => Ok p | None => UB end) (Z.to_nat (f_np f)) 0) as (l & E & L & Q).
  - intros i I. rewrite Z2Nat.id in I by (pose proof (valid_np f V); lia).
    destruct (process i) eqn:PR.
    + pose proof (planeW_bounds f w i V ltac:(lia)). pose proof (planeH_bounds f h i V ltac:(lia)).
      pose proof (stride_row al f w i A V ltac:(lia)) as SR.
      assert (ST : p_stride (freshPlane al g f w h i) = strideOf al f w i) by (cbn; apply strideAt_spec; auto; lia).
      destruct (P i ltac:(lia) PR (freshPlane al g f w h i)) as (m & E & S & G).
      { split; [lia|]. split; [lia|]. rewrite ST. split; [exact SR|]. cbn [freshPlane p_buf b_size].
        rewrite strideAt_spec by (auto; lia). rewrite getHeight_planeH by exact V. reflexivity. }
      { exact ST. }
      exists (mkPl (p_stride (freshPlane al g f w h i)) m). rewrite E. split; [reflexivity|].
      cbn [p_stride p_buf] in *. split; [exact ST|]. split; [|exact G]. rewrite S. cbn [freshPlane p_buf b_size p_stride].
      rewrite getHeight_planeH by exact V. reflexivity.
    + destruct (N i ltac:(lia) PR) as (N1 & N2 & N3 & N4 & a & N5 & N6).
      destruct (Z.leb_spec (f_np (vf_fmt src)) i); [lia|].
      rewrite !getHeight_planeH, !getWidth_planeW by assumption.
      rewrite N3, N4, !Z.eqb_refl. cbn [negb orb].
      unfold planeImg in N5. destruct (nthz (vf_planes src) i) as [p|] eqn:NP; [|discriminate].
      injection N5 as <-. exists p. split; [reflexivity|]. destruct (SP i p NP) as (S1 & S2).
      rewrite N3, N4, N2 in N6. split; [|split; [rewrite S2, N4; reflexivity | exact N6]].
      rewrite S1. unfold strideOf. rewrite N3, N2. reflexivity.
  - rewrite E. cbn [obind]. eexists. split; [reflexivity|]. cbn [vf_fmt vf_w vf_h vf_props].
    assert (LL : zlength l = f_np f) by (unfold zlength; rewrite L; pose proof (valid_np f V); lia).
    split; [|split; [reflexivity|split; [reflexivity|split; [reflexivity|split; [reflexivity|]]]]].
    + split; [exact V|]. split; [exact W|]. split; [exact H|]. cbn [vf_fmt vf_w vf_h vf_planes]. split; [exact LL|].
      intros i p NP. specialize (Q i p NP). rewrite Z.add_0_l in Q. tauto.
    + intros i I. unfold planeImg. cbn [vf_fmt vf_w vf_h vf_planes] in *.
      destruct (nthz l i) as [p|] eqn:NP.
      * eexists. split; [reflexivity|]. specialize (Q i p NP). rewrite Z.add_0_l in Q. tauto.
      * exfalso. apply nthz_None_iff in NP. lia.
Qed.

(** getPlanesArg: every plane when nothing is given, otherwise the distinct legal ones. *)
Lemma planesLoop_spec : forall l process r, planesLoop l process = Some r ->
  forall i, r i = true <-> process i = true \/ In i (map sat32 l).
Proof.
  induction l as [|o l IH]; intros process r E i; cbn [planesLoop map] in *.
  - injection E as <-. cbn. tauto.
  - destruct ((sat32 o <? 0) || (3 <=? sat32 o)); [discriminate|]. destruct (process (sat32 o)); [discriminate|].
    rewrite (IH _ _ E i). cbn [In]. destruct (Z.eqb_spec i (sat32 o)); intuition congruence.
Qed.

Lemma getPlanesArg_spec : forall l r, getPlanesArg l = Some r -> forall i, 0 <= i < 3 ->
  (r i = true <-> l = [] \/ In i (map sat32 l)).
Proof.
  intros l r E i I. unfold getPlanesArg in E. rewrite (planesLoop_spec _ _ _ E i).
  destruct l as [|o l].
  - split; [auto|]. intros _. left. apply andb_true_intro. split; [apply Z.leb_le | apply Z.ltb_lt]; lia.
  - split; [intros [Q|Q]; [discriminate|auto] | intros [Q|Q]; [discriminate|auto]].
Qed.

(** The sources of a filter with one input. *)
Lemma filterFrame_map : forall al g f w h process src paint (R : Z -> image -> image), isAl al -> fmt_valid f ->
  wfFrame al src -> vf_w src = w -> vf_h src = h -> f_np f = f_np (vf_fmt src) ->
  f_ssw f = f_ssw (vf_fmt src) -> f_ssh f = f_ssh (vf_fmt src) ->
  (forall i, 0 <= i < f_np f -> process i = false -> f_bytes (vf_fmt src) = f_bytes f) ->
  (forall i p q, 0 <= i < f_np f -> process i = true -> nthz (vf_planes src) i = Some p ->
     wfPlane (f_bytes (vf_fmt src)) p (planeW f w i) (planeH f h i) -> p_stride p = strideOf al (vf_fmt src) w i ->
     wfPlane (f_bytes f) q (planeW f w i) (planeH f h i) -> p_stride q = strideOf al f w i ->
     exists m, paint i q = Ok m /\ b_size m = b_size (p_buf q) /\
       same (imageOf (f_bytes f) (mkPl (p_stride q) m) (planeW f w i) (planeH f h i))
            (R i (imageOf (f_bytes (vf_fmt src)) p (planeW f w i) (planeH f h i)))) ->
  exists r, filterFrame al g f w h process src paint = Ok r /\ wfFrame al r /\
    vf_fmt r = f /\ vf_w r = w /\ vf_h r = h /\ vf_props r = vf_props src /\
    planesMap (fun i a => if process i then R i a else a) src r.
Proof.
  intros al g f w h process src paint R A V WF W H NP SW SH BY P.
  assert (EW : forall i, planeW (vf_fmt src) (vf_w src) i = planeW f w i) by (intros; unfold planeW; rewrite SW, W; reflexivity).
  assert (EH : forall i, planeH (vf_fmt src) (vf_h src) i = planeH f h i) by (intros; unfold planeH; rewrite SH, H; reflexivity).
  pose proof WF as (SV & S1 & S2 & SL & SP).
  destruct (filterFrame_spec al g f w h process src paint
    (fun i => match planeImg src i with Some a => if process i then R i a else a | None => mkI 0 0 (fun _ _ => 0) end))
    as (r & E & WR & R1 & R2 & R3 & R4 & R5); auto; try lia.
  - intros i I PR q Q1 Q2. destruct (wf_plane al src i A WF) as (p & NPl & WP); [lia|].
    rewrite EW, EH in WP. destruct (P i p q I PR NPl WP) as (m & E & B & S); auto.
    { destruct (SP i p NPl) as (Q & _). rewrite Q, W. reflexivity. }
    exists m. split; [exact E|]. split; [exact B|]. unfold planeImg. rewrite NPl, PR, EW, EH. exact S.
  - intros i I PR. destruct (wf_plane al src i A WF) as (p & NPl & WP); [lia|].
    split; [lia|]. split; [eauto|]. split; [auto|]. split; [auto|]. unfold planeImg. rewrite NPl, PR. eexists. split; [reflexivity | apply same_refl].
  - exists r. split; [exact E|]. split; [exact WR|]. split; [exact R1|]. split; [exact R2|]. split; [exact R3|]. split; [exact R4|].
    intros i I. destruct (R5 i I) as (b & B1 & B2). destruct (wf_plane al src i A WF) as (p & NPl & WP); [rewrite R1 in I; lia|].
    unfold planeImg in B2 at 1. rewrite NPl in B2. eexists. exists b. unfold planeImg at 1. rewrite NPl. split; [reflexivity|]. split; [exact B1 | exact B2].
Qed.

(** All bytes of a frame are bytes. *)
Definition byteFrame (fr : vframe) : Prop :=
  forall i p, nthz (vf_planes fr) i = Some p -> forall a, 0 <= b_data (p_buf p) a < 256.

Lemma image_range : forall k p w h x y, 0 <= k -> (forall a, 0 <= b_data (p_buf p) a < 256) ->
  0 <= i_at (imageOf k p w h) x y < 256 ^ k.
Proof.
  intros k p w h x y K B. cbn [imageOf i_at]. pose proof (leval_range (Z.to_nat k) (b_data (p_buf p)) (y * p_stride p + x * k) B) as L.
  rewrite Z2Nat.id in L by lia. exact L.
Qed.

(** A group of the source that may reach into the padding. *)
Lemma loadGroup : forall k p w h n j y, 1 <= k -> 0 < n -> wfPlane k p w h -> n * groups w n * k <= p_stride p ->
  (forall a, 0 <= b_data (p_buf p) a < 256) -> 0 <= j < groups w n -> 0 <= y < h ->
  exists l, loadLanes k (p_buf p) (y * p_stride p + n * j * k) (Z.to_nat n) = Ok l /\ zlength l = n /\
    (forall t v, nthz l t = Some v -> 0 <= v < 256 ^ k) /\
    forall t, 0 <= t < n -> nthz l t = Some (i_at (imageOf k p w h) (n * j + t) y).
Proof.
  intros k p w h n j y K N (W & H & S & B) G BY J Y.
  assert (NX : n * j + n <= n * groups w n) by nia. assert (X0 : 0 <= n * j) by nia.
  assert (NK : n * j * k + n * k <= p_stride p) by nia.
  destruct (loadLanes_spec k (Z.to_nat n) (p_buf p) (y * p_stride p + n * j * k) K ltac:(nia)) as (l & E & L & A).
  { rewrite Z2Nat.id by lia. rewrite B. nia. }
  rewrite Z2Nat.id in L, A by lia. exists l. split; [exact E|]. split; [exact L|].
  assert (AT : forall t, 0 <= t < n -> nthz l t = Some (i_at (imageOf k p w h) (n * j + t) y)).
  { intros t T. rewrite A by lia. cbn [imageOf i_at]. do 2 f_equal. lia. }
  split; [|exact AT]. intros t v E'. pose proof (nthz_range _ _ _ _ E') as R.
  rewrite AT in E' by lia. injection E' as <-. apply (image_range k p w h); [lia | exact BY].
Qed.
