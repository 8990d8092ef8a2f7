(** Borders undone by cropping; fields and weaving. *)
From Coq Require Import String.
From Coq Require Import ZArith List Lia Bool.
From Verif Require Import Common FormatSpec Format FrameSpec Frame FrameLemmas FrameGeom ImageSpec PlaneMem Spatial
  SpatialLemmas SpatialFrames.
Import ListNotations.
Open Scope Z_scope.

Lemma swapFields_twice : forall odd p k, swapFields odd (swapFields odd p) k = p k.
Proof.
  intros odd p k. unfold swapFields. destruct odd; [|reflexivity].
  destruct (p fieldBased) as [v|] eqn:E; [|rewrite E; reflexivity].
  assert (D : v = 1 \/ v = 2 \/ match v with 1 | 2 => False | _ => True end).
  { destruct v as [|[| q |]|]; auto. destruct q; auto. }
  destruct D as [->|[->|D]].
  - unfold setProp. rewrite String.eqb_refl. destruct (String.eqb_spec k fieldBased) as [->|]; congruence.
  - unfold setProp. rewrite String.eqb_refl. destruct (String.eqb_spec k fieldBased) as [->|]; congruence.
  - destruct v as [|[q|q|]|]; try contradiction; try (rewrite E; reflexivity).
    destruct q; try contradiction; rewrite E; reflexivity.
Qed.

(** Cropping the borders away again. *)
Lemma crop_borders : forall al g g' l r t b colour src, isAl al -> 4 <= al -> wfFrame al src ->
  borders (vf_fmt src) l r t b ->
  (2 ^ f_ssw (vf_fmt src) | vf_w src) -> (2 ^ f_ssh (vf_fmt src) | vf_h src) ->
  in_int (vf_w src + l + r) -> in_int (vf_h src + t + b) ->
  (forall i, 0 <= i < f_np (vf_fmt src) -> 0 <= colour i < 256 ^ f_bytes (vf_fmt src)) ->
  exists o c, addBordersGetFrame al g l r t b colour src = Ok o /\
    cropGetFrame al g' l t (vf_w src) (vf_h src) o = Ok c /\
    sameFrame src c /\ forall k, vf_props c k = vf_props src k.
Proof.
  intros al g g' l r t b colour src A A4 WF B DW DH IW IH COL. pose proof WF as (V & SW & SH & _).
  destruct (border_frame al g l r t b colour src A A4 WF B IW IH COL) as (o & Eo & WO & O1 & O2 & O3 & O4 & O5).
  destruct B as (L & R & T & B & DL & DR & DT & DB).
  destruct (crop_frame al g' l t (vf_w src) (vf_h src) o A WO) as (c & Ec & WC & C1 & C2 & C3 & C4 & C5).
  { unfold window. rewrite O1, O2, O3. repeat split; auto; lia. }
  { rewrite O2. exact IW. } { rewrite O3. exact IH. }
  exists o, c. split; [exact Eo|]. split; [exact Ec|]. split.
  - split; [congruence|]. split; [congruence|]. split; [congruence|].
    intros i I. rewrite C1, O1 in I. destruct (O5 i ltac:(rewrite O1; exact I)) as (a & x & Sa & Ox & Sx).
    destruct (C5 i ltac:(rewrite C1, O1; exact I)) as (x' & y & Ox' & Cy & Sy).
    rewrite Ox in Ox'. injection Ox' as <-. exists a, y. split; [exact Sa|]. split; [exact Cy|].
    apply (same_trans _ _ _ Sy).
    assert (AW : i_w a = planeW (vf_fmt src) (vf_w src) i /\ i_h a = planeH (vf_fmt src) (vf_h src) i).
    { unfold planeImg in Sa. destruct (nthz (vf_planes src) i); [|discriminate]. injection Sa as <-. split; reflexivity. }
    destruct AW as (AW & AH). rewrite O1.
    pose proof (planeW_bounds (vf_fmt src) l i V L). pose proof (planeW_bounds (vf_fmt src) r i V R).
    pose proof (planeH_bounds (vf_fmt src) t i V T). pose proof (planeH_bounds (vf_fmt src) b i V B).
    apply same_trans with (crop (planeW (vf_fmt src) l i) (planeH (vf_fmt src) t i) (i_w a) (i_h a)
       (pad (planeW (vf_fmt src) l i) (planeW (vf_fmt src) r i) (planeH (vf_fmt src) t i) (planeH (vf_fmt src) b i)
            (colour i) a)).
    + rewrite <- AW, <- AH. destruct Sx as (X1 & X2 & X3). cbn [pad i_w i_h] in X1, X2.
      apply crop_proper; [lia | lia | lia | lia |]. split; [exact X1|]. split; [exact X2|]. exact X3.
    + apply crop_pad; lia.
  - intros k. rewrite C4, O4. apply swapFields_twice.
Qed.

(** ** Fields *)

Lemma lxor_bit : forall a b, (a = 0 \/ a = 1) -> (b = 0 \/ b = 1) -> Z.lxor a b = (a + b) mod 2.
Proof. intros a b [->| ->] [->| ->]; reflexivity. Qed.

Lemma mod2 : forall n, n mod 2 = 0 \/ n mod 2 = 1.
Proof. intros n. pose proof (Z.mod_pos_bound n 2 ltac:(lia)). lia. Qed.

Lemma field_plane : forall k p q s w h, 1 <= k -> (s = 0 \/ s = 1) -> wfPlane k p w (2 * h) -> wfPlane k q w h ->
  exists b, bitblt (p_buf q) 0 (p_stride q) (p_buf p) (s * p_stride p) (p_stride p * 2) (w * k) h = Ok b /\
    b_size b = b_size (p_buf q) /\
    same (imageOf k (mkPl (p_stride q) b) w h)
         ((if s =? 0 then topField else bottomField) (imageOf k p w (2 * h))).
Proof.
  intros k p q s w h K S (P1 & P2 & P3 & P4) (Q1 & Q2 & Q3 & Q4).
  assert (0 <= p_stride p) by nia. assert (0 <= p_stride q) by nia.
  destruct (bitblt_spec (p_buf q) 0 (p_stride q) (p_buf p) (s * p_stride p) (p_stride p * 2) (w * k) h)
    as (b & E & B1 & B2 & _); [nia | lia | lia | intros i I; rewrite Q4; split; nia
    | intros i I; rewrite P4; split; destruct S; subst s; nia |].
  exists b. split; [exact E|]. split; [exact B1|].
  destruct S; subst s; cbn [Z.eqb];
    (split; [reflexivity|]; split; [cbn [imageOf topField bottomField i_h]; rewrite Z.mul_comm, Z.div_mul; lia|]);
    cbn [imageOf topField bottomField i_w i_h i_at p_stride p_buf]; intros u v U V;
    (apply sample_ext; [lia|]); intros j J;
    replace (v * p_stride q + u * k + j) with (0 + v * p_stride q + (u * k + j)) by ring;
    (rewrite B2; [f_equal; ring | lia | nia]).
Qed.

(** The picture of a field: 1 is the top field. *)
Definition fieldOf (parity : Z) : image -> image := if parity =? 1 then topField else bottomField.

Lemma separateCreate_inv : forall vi vo, fmt_valid (vi_fmt vi) -> separateCreate vi = Ok vo ->
  1 <= vi_h vi /\ 1 <= vi_w vi /\ (2 ^ (f_ssh (vi_fmt vi) + 1) | vi_h vi) /\ vi_n vi * 2 <= INT_MAX /\
  vo = mkVI (vi_fmt vi) (vi_w vi) (vi_h vi / 2) (2 * vi_n vi).
Proof.
  intros vi vo V. unfold separateCreate, constantFormat.
  destruct (Z.ltb_spec 0 (vi_h vi)); cbn [andb negb]; [|discriminate].
  destruct (Z.ltb_spec 0 (vi_w vi)); cbn [andb negb]; [|discriminate].
  destruct (f_cf (vi_fmt vi) =? cfUndefined); cbn [andb negb]; [discriminate|].
  destruct (Z.eqb_spec (Z.rem (vi_h vi) (2 ^ (f_ssh (vi_fmt vi) + 1))) 0) as [E|]; cbn [negb]; [|discriminate].
  destruct (Z.ltb_spec (INT_MAX / 2) (vi_n vi)) as [|L]; [discriminate|]. intros Q. injection Q as <-.
  split; [lia|]. split; [lia|].
  split. { pose proof (valid_ss _ V). pose proof (pow_ss (f_ssh (vi_fmt vi) + 1) ltac:(lia)).
    apply Z.rem_divide; [lia | exact E]. }
  split. { unfold INT_MAX in *. change (2147483647 / 2) with 1073741823 in L. lia. }
  rewrite Z.quot_div_nonneg by lia. f_equal. lia.
Qed.

Lemma planeH_half : forall f h i, fmt_valid f -> (2 ^ (f_ssh f + 1) | h) ->
  planeH f h i = 2 * planeH f (h / 2) i.
Proof.
  intros f h i V (q & ->). pose proof (valid_ss f V). pose proof (pow_ss (f_ssh f) ltac:(lia)).
  rewrite Z.pow_add_r by lia. change (2 ^ 1) with 2.
  replace (q * (2 ^ f_ssh f * 2)) with (q * 2 ^ f_ssh f * 2) by ring. rewrite Z.div_mul by lia.
  unfold planeH. destruct (i =? 0); [ring|].
  replace (q * 2 ^ f_ssh f * 2) with (q * 2 * 2 ^ f_ssh f) by ring. rewrite !Z.div_mul by lia. ring.
Qed.

Lemma effective_cases : forall tff p, (tff = -1 \/ tff = 0 \/ tff = 1) ->
  effectiveTFF tff p = -1 \/ effectiveTFF tff p = 0 \/ effectiveTFF tff p = 1.
Proof.
  intros tff p T. unfold effectiveTFF. destruct (p fieldBased) as [v|]; [|tauto].
  destruct (sat32 v =? 1); [auto|]. destruct (sat32 v =? 2); tauto.
Qed.

Lemma effective_order : forall tff p,
  (p fieldBased = Some 1 -> effectiveTFF tff p = 0) /\ (p fieldBased = Some 2 -> effectiveTFF tff p = 1) /\
  (p fieldBased <> Some 1 -> p fieldBased <> Some 2 -> effectiveTFF tff p = tff).
Proof.
  intros tff p. unfold effectiveTFF. split; [intros ->; reflexivity|]. split; [intros ->; reflexivity|].
  intros N1 N2. destruct (p fieldBased) as [v|]; [|reflexivity].
  assert (v <> 1 /\ v <> 2) as (V1 & V2) by (split; congruence). unfold sat32, INT_MAX, INT_MIN.
  destruct (Z.ltb_spec 2147483647 v); [reflexivity|]. destruct (Z.ltb_spec v (-2147483648)); [reflexivity|].
  destruct (Z.eqb_spec v 1); [lia|]. destruct (Z.eqb_spec v 2); [lia|]. reflexivity.
Qed.

(** Output frame [n] is the field of parity (n + order) mod 2. *)
Lemma separate_frame : forall al g tff vi vo n src, isAl al -> wfFrame al src ->
  vi_fmt vi = vf_fmt src -> vi_w vi = vf_w src -> vi_h vi = vf_h src -> separateCreate vi = Ok vo ->
  let eff := effectiveTFF tff (vf_props src) in eff = 0 \/ eff = 1 ->
  exists r, separateGetFrame al g tff vo n src = Ok r /\ wfFrame al r /\
    vf_fmt r = vf_fmt src /\ vf_w r = vf_w src /\ vf_h r = vf_h src / 2 /\
    vf_props r = delProp fieldBased (setProp fieldProp ((n + eff) mod 2) (vf_props src)) /\
    planesMap (fun _ => fieldOf ((n + eff) mod 2)) src r.
Proof.
  intros al g tff vi vo n src A WF VF VW VH C eff EFF. pose proof WF as (V & SW & SH & _).
  apply separateCreate_inv in C; [|rewrite VF; exact V]. destruct C as (C1 & C2 & C3 & C4 & ->). rewrite VF, VW, VH in *.
  unfold separateGetFrame. fold eff. destruct (Z.eqb_spec eff (-1)); [lia|]. cbn [vi_fmt vi_w vi_h].
  assert (XE : Z.lxor (n mod 2) eff = (n + eff) mod 2).
  { rewrite (lxor_bit _ _ (mod2 n) EFF). rewrite Zplus_mod_idemp_l. reflexivity. }
  rewrite XE.
  pose proof (valid_ss _ V) as (SS1 & SS2).
  assert (H2 : 1 <= vf_h src / 2).
  { destruct C3 as (q & Q). rewrite Q. rewrite Z.pow_add_r by lia. change (2 ^ 1) with 2.
    pose proof (pow_ss (f_ssh (vf_fmt src)) ltac:(lia)) as PP.
    rewrite Z.mul_assoc, Z.div_mul by lia. assert (0 < q). 2: nia.
    rewrite Q in C1. rewrite Z.pow_add_r in C1 by lia. change (2 ^ 1) with 2 in C1. nia. }
  destruct (newFrame_spec al g (vf_fmt src) (vf_w src) (vf_h src / 2) (vf_props src) A V SW H2)
    as (dst & En & WD & F1 & F2 & F3 & F4).
  rewrite En. cbn [obind].
  destruct (onPlanes_spec al src dst (separatePlane n eff (vf_fmt src) (vf_w src) (vf_h src / 2))
              (fun _ => fieldOf ((n + eff) mod 2)) A WF WD)
    as (r & Er & WR & R1 & R2 & R3 & R4 & R5);
    [rewrite F1; reflexivity | rewrite F1; reflexivity | |].
  - intros i p q I Wp Wq Sp Sq. unfold separatePlane. cbv zeta. rewrite XE.
    rewrite getHeight_planeH, getWidth_planeW by exact V. rewrite F1, F2, F3 in *.
    rewrite (planeH_half (vf_fmt src) (vf_h src) i V C3) in *.
    unfold fieldOf. destruct (mod2 (n + eff)) as [M|M]; rewrite M; cbn [Z.eqb].
    + destruct (field_plane (f_bytes (vf_fmt src)) p q 1 (planeW (vf_fmt src) (vf_w src) i)
                  (planeH (vf_fmt src) (vf_h src / 2) i)) as (b & E & B1 & B2);
        [apply valid_bytes; exact V | lia | exact Wp | exact Wq |].
      exists b. rewrite Z.mul_1_l in E. auto.
    + destruct (field_plane (f_bytes (vf_fmt src)) p q 0 (planeW (vf_fmt src) (vf_w src) i)
                  (planeH (vf_fmt src) (vf_h src / 2) i)) as (b & E & B1 & B2);
        [apply valid_bytes; exact V | lia | exact Wp | exact Wq |].
      exists b. rewrite Z.mul_0_l in E. auto.
  - rewrite Er. cbn [obind]. eexists. split; [reflexivity|]. cbn [vf_fmt vf_w vf_h vf_props vf_planes].
    split; [exact WR|]. split; [congruence|]. split; [congruence|]. split; [congruence|]. split; [congruence|].
    intros i I. destruct (R5 i I) as (a & b & Ra & Rb & Sab). exists a, b. auto.
Qed.

(** ** Weaving *)

Lemma weave_plane : forall k t b q w h, 1 <= k -> p_stride t = p_stride b ->
  wfPlane k t w h -> wfPlane k b w h -> wfPlane k q w (2 * h) ->
  exists m, forZ h (fun y m =>
      obind (memcpy m (2 * y * p_stride q) (p_buf t) (y * p_stride b) (w * k)) (fun m1 =>
      memcpy m1 (2 * y * p_stride q + p_stride q) (p_buf b) (y * p_stride b) (w * k))) (p_buf q) = Ok m /\
    b_size m = b_size (p_buf q) /\
    same (imageOf k (mkPl (p_stride q) m) w (2 * h)) (weave (imageOf k t w h) (imageOf k b w h)).
Proof.
  intros k t b q w h K TB (T1 & T2 & T3 & T4) (B1 & B2 & B3 & B4) (Q1 & Q2 & Q3 & Q4).
  assert (0 <= p_stride b) by nia. assert (DQ : 0 <= p_stride q) by nia.
  assert (Inv : exists m, forZ h (fun y m =>
      obind (memcpy m (2 * y * p_stride q) (p_buf t) (y * p_stride b) (w * k)) (fun m1 =>
      memcpy m1 (2 * y * p_stride q + p_stride q) (p_buf b) (y * p_stride b) (w * k))) (p_buf q) = Ok m /\
    b_size m = b_size (p_buf q) /\
    forall y j, 0 <= y < h -> 0 <= j < w * k ->
      b_data m (2 * y * p_stride q + j) = b_data (p_buf t) (y * p_stride b + j) /\
      b_data m (2 * y * p_stride q + p_stride q + j) = b_data (p_buf b) (y * p_stride b + j)).
  { apply (forZ_inv (fun n m => b_size m = b_size (p_buf q) /\
      forall y j, 0 <= y < n -> 0 <= j < w * k ->
      b_data m (2 * y * p_stride q + j) = b_data (p_buf t) (y * p_stride b + j) /\
      b_data m (2 * y * p_stride q + p_stride q + j) = b_data (p_buf b) (y * p_stride b + j))); [lia | |].
    - split; [reflexivity|]. intros; lia.
    - intros y m Y (M1 & M2). rewrite TB in *.
      assert (Y1 : 0 <= y * p_stride b /\ y * p_stride b + w * k <= p_stride b * h) by nia.
      assert (Y2 : 0 <= 2 * y * p_stride q /\ 2 * y * p_stride q + p_stride q + p_stride q <= p_stride q * (2 * h)) by nia.
      assert (WK : 0 <= w * k) by nia.
      destruct (memcpy_spec m (2 * y * p_stride q) (p_buf t) (y * p_stride b) (w * k)) as (m1 & E1 & A1 & A2 & A3);
        [lia | lia | lia | lia | lia |].
      rewrite E1. cbn [obind].
      destruct (memcpy_spec m1 (2 * y * p_stride q + p_stride q) (p_buf b) (y * p_stride b) (w * k))
        as (m2 & E2 & C1 & C2 & C3); [lia | lia | lia | lia | lia |].
      exists m2. split; [exact E2|]. split; [lia|]. intros y' j Y' J.
      destruct (Z.eq_dec y' y) as [->|N].
      + split; [|apply C2; exact J]. rewrite C3 by (intros; lia). apply A2. exact J.
      + assert (2 * y' * p_stride q + p_stride q + p_stride q <= 2 * y * p_stride q) by nia.
        destruct (M2 y' j ltac:(lia) J) as (N1 & N2).
        split; (rewrite C3 by (intros; lia)); (rewrite A3 by (intros; lia)); assumption. }
  destruct Inv as (m & E & M1 & M2). exists m. split; [exact E|]. split; [exact M1|].
  split; [reflexivity|]. split; [reflexivity|].
  cbn [imageOf weave i_w i_h i_at p_stride p_buf]. intros u v U V.
  pose proof (Z.div_mod v 2 ltac:(lia)) as DM. pose proof (Z.mod_pos_bound v 2 ltac:(lia)).
  assert (VD : 0 <= v / 2 < h) by lia.
  assert (UK : 0 <= u * k /\ u * k + k <= w * k) by nia.
  destruct (Z.eqb_spec (v mod 2) 0) as [M|M]; (apply sample_ext; [lia|]); intros j J;
    destruct (M2 (v / 2) (u * k + j) VD ltac:(lia)) as (N1 & N2).
  - rewrite TB. rewrite <- Z.add_assoc, <- (Z.add_assoc (v / 2 * p_stride b)), <- N1. f_equal.
    rewrite DM at 1. rewrite M. ring.
  - rewrite <- Z.add_assoc, <- (Z.add_assoc (v / 2 * p_stride b)), <- N2. f_equal.
    rewrite DM at 1. replace (v mod 2) with 1 by lia. ring.
Qed.

Lemma weaveCreate_inv : forall vi vo, weaveCreate vi = Ok vo ->
  vo = mkVI (vi_fmt vi) (vi_w vi) (2 * vi_h vi) (vi_n vi) /\ 1 <= vi_w vi /\ 1 <= vi_h vi.
Proof.
  intros vi vo. unfold weaveCreate, mulI, constantFormat. destruct (in_intb (vi_h vi * 2)); [|discriminate].
  cbn [obind vi_fmt vi_w vi_h].
  destruct (Z.ltb_spec 0 (vi_h vi * 2)); cbn [andb]; [|discriminate].
  destruct (Z.ltb_spec 0 (vi_w vi)); cbn [andb]; [|discriminate].
  destruct (f_cf (vi_fmt vi) =? cfUndefined); cbn [negb]; [discriminate|]. intros E. injection E as <-.
  split; [f_equal; lia | lia].
Qed.

(** The pictures of a woven frame. *)
Definition woven (top btm dst : vframe) : Prop :=
  forall i, 0 <= i < f_np (vf_fmt dst) -> exists a b c,
    planeImg top i = Some a /\ planeImg btm i = Some b /\ planeImg dst i = Some c /\ same c (weave a b).

Lemma planeH_double : forall f h i, fmt_valid f -> (i = 0 \/ (2 ^ f_ssh f | h)) -> planeH f (2 * h) i = 2 * planeH f h i.
Proof.
  intros f h i V D. pose proof (valid_ss f V). pose proof (pow_ss (f_ssh f) ltac:(lia)).
  unfold planeH. destruct (Z.eqb_spec i 0); [reflexivity|]. destruct D as [|(q & ->)]; [lia|].
  rewrite Z.mul_assoc, !Z.div_mul by lia. reflexivity.
Qed.

Lemma weave_frame : forall al g tff vi vo n s1 s2 first, isAl al -> wfFrame al s1 -> wfFrame al s2 ->
  vf_fmt s1 = vi_fmt vi -> vf_w s1 = vi_w vi -> vf_h s1 = vi_h vi ->
  vf_fmt s2 = vi_fmt vi -> vf_w s2 = vi_w vi -> vf_h s2 = vi_h vi ->
  (2 ^ f_ssh (vi_fmt vi) | vi_h vi) ->
  weaveCreate vi = Ok vo -> weaveOrder tff n (vf_props s1) (vf_props s2) = Ok first ->
  exists r, weaveGetFrame al g tff vo n s1 s2 = Ok r /\ wfFrame al r /\
    vf_fmt r = vi_fmt vi /\ vf_w r = vi_w vi /\ vf_h r = 2 * vi_h vi /\
    vf_props r = setProp fieldBased (if first then 2 else 1) (delProp fieldProp (vf_props s1)) /\
    woven (if first then s1 else s2) (if first then s2 else s1) r.
Proof.
  intros al g tff vi vo n s1 s2 first A W1 W2 F1 X1 Y1 F2 X2 Y2 DH C O.
  apply weaveCreate_inv in C. destruct C as (-> & CW & CH). pose proof W1 as (V & _). rewrite F1 in V.
  unfold weaveGetFrame. rewrite O. cbn [obind vi_fmt vi_w vi_h].
  destruct (newFrame_spec al g (vi_fmt vi) (vi_w vi) (2 * vi_h vi) (vf_props s1) A V CW ltac:(lia))
    as (dst & En & WD & G1 & G2 & G3 & G4).
  rewrite En. cbn [obind].
  remember (if first then s1 else s2) as top eqn:TE. remember (if first then s2 else s1) as btm eqn:BE.
  assert (WT : wfFrame al top /\ vf_fmt top = vi_fmt vi /\ vf_w top = vi_w vi /\ vf_h top = vi_h vi) by (subst top; destruct first; auto).
  assert (WB : wfFrame al btm /\ vf_fmt btm = vi_fmt vi /\ vf_w btm = vi_w vi /\ vf_h btm = vi_h vi) by (subst btm; destruct first; auto).
  destruct WT as (WT & T1 & T2 & T3). destruct WB as (WB & B1 & B2 & B3).
  destruct (eachPlane_spec (fun i pl =>
      p_stride pl = strideOf al (vi_fmt vi) (vi_w vi) i /\
      b_size (p_buf pl) = p_stride pl * planeH (vi_fmt vi) (2 * vi_h vi) i /\
      exists a b, nthz (vf_planes top) i = Some a /\ nthz (vf_planes btm) i = Some b /\
       same (imageOf (f_bytes (vi_fmt vi)) pl (planeW (vi_fmt vi) (vi_w vi) i) (planeH (vi_fmt vi) (2 * vi_h vi) i))
            (weave (imageOf (f_bytes (vi_fmt vi)) a (planeW (vi_fmt vi) (vi_w vi) i) (planeH (vi_fmt vi) (vi_h vi) i))
                   (imageOf (f_bytes (vi_fmt vi)) b (planeW (vi_fmt vi) (vi_w vi) i) (planeH (vi_fmt vi) (vi_h vi) i))))
      (fun i =>
               match nthz (vf_planes top) i, nthz (vf_planes btm) i, nthz (vf_planes dst) i with
               | Some a, Some b, Some q =>
                   obind (weavePlane (vf_fmt top) (vi_w vi) (vf_h top) i a b q)
                         (fun m => Ok (mkPl (p_stride q) m))
               | _, _, _ => UB
               end) (Z.to_nat (f_np (vi_fmt vi))) 0) as (l & E & L & P).
  - intros i I.
    destruct (wf_plane al top i A WT ltac:(rewrite T1; lia)) as (a & Ea & Wa).
    destruct (wf_plane al btm i A WB ltac:(rewrite B1; lia)) as (b & Eb & Wb).
    destruct (wf_plane al dst i A WD ltac:(rewrite G1; lia)) as (q & Eq & Wq).
    rewrite Ea, Eb, Eq. rewrite T1, T2, T3 in Wa. rewrite B1, B2, B3 in Wb. rewrite G1, G2, G3 in Wq.
    destruct WT as (_ & _ & _ & _ & PT). destruct WB as (_ & _ & _ & _ & PB). destruct WD as (_ & _ & _ & _ & PD).
    destruct (PT i a Ea) as (Pa & _). destruct (PB i b Eb) as (Pb & _). destruct (PD i q Eq) as (Pq & Pq').
    rewrite T1, T2 in Pa. rewrite B1, B2 in Pb. rewrite G1, G2 in Pq. rewrite G1, G3 in Pq'.
    assert (HD : planeH (vi_fmt vi) (2 * vi_h vi) i = 2 * planeH (vi_fmt vi) (vi_h vi) i)
      by (apply planeH_double; auto).
    rewrite HD in *.
    destruct (weave_plane (f_bytes (vi_fmt vi)) a b q (planeW (vi_fmt vi) (vi_w vi) i) (planeH (vi_fmt vi) (vi_h vi) i))
      as (m & Em & M1 & M2); [apply valid_bytes; exact V | congruence | exact Wa | exact Wb | exact Wq |].
    exists (mkPl (p_stride q) m). unfold weavePlane. cbv zeta. rewrite T1, T3.
    rewrite getHeight_planeH, getWidth_planeW by exact V. rewrite Em. cbn [obind]. split; [reflexivity|].
    cbn [p_stride p_buf]. split; [exact Pq|]. split; [rewrite M1; exact Pq'|].
    exists a, b. auto.
  - rewrite T1 in E. rewrite T1. rewrite E. cbn [obind]. eexists. split; [reflexivity|].
    pose proof (valid_np _ V). assert (ZL : zlength l = f_np (vi_fmt vi)) by (unfold zlength; lia).
    cbn [vf_fmt vf_w vf_h vf_props vf_planes].
    split; [|split; [exact G1|split; [exact G2|split; [exact G3|split; [rewrite G4; reflexivity|]]]]].
    + split; cbn [vf_fmt vf_w vf_h vf_planes]; rewrite ?G1, ?G2, ?G3; [exact V|]. split; [lia|]. split; [lia|].
      split; [exact ZL|]. intros i p Ip. destruct (P i p Ip) as (P1 & P2 & _). rewrite Z.add_0_l in *. auto.
    + intros i I. cbn [vf_fmt vf_w vf_h vf_planes] in I. rewrite G1 in I.
      destruct (nthz l i) as [pl|] eqn:Ei.
      * destruct (P i pl Ei) as (P1 & P2 & a & b & Ea & Eb & Sp). rewrite Z.add_0_l in *.
        unfold planeImg. cbn [vf_fmt vf_w vf_h vf_planes]. rewrite Ea, Eb, Ei, T1, T2, T3, B1, B2, B3, G1, G2, G3.
        eexists. eexists. eexists. split; [reflexivity|]. split; [reflexivity|]. split; [reflexivity|]. exact Sp.
      * apply nthz_None_iff in Ei. lia.
Qed.

Lemma weave_fields : forall a, (2 | i_h a) -> same (weave (topField a) (bottomField a)) a.
Proof.
  intros a (q & Q). split; [reflexivity|]. cbn [weave topField bottomField i_w i_h i_at].
  assert (i_h a / 2 = q) by (rewrite Q, Z.div_mul; lia).
  split; [lia|]. intros x y X Y. pose proof (Z.div_mod y 2 ltac:(lia)). pose proof (Z.mod_pos_bound y 2 ltac:(lia)).
  destruct (Z.eqb_spec (y mod 2) 0); f_equal; lia.
Qed.

Lemma weave_proper : forall a a' b b', same a a' -> same b b' -> i_w b = i_w a -> i_h b = i_h a ->
  same (weave a b) (weave a' b').
Proof.
  intros a a' b b' (W & H & E) (W' & H' & E') SW SH. split; [exact W|]. cbn [weave i_w i_h i_at].
  split; [lia|]. intros x y X Y. pose proof (Z.div_mod y 2 ltac:(lia)). pose proof (Z.mod_pos_bound y 2 ltac:(lia)).
  destruct (y mod 2 =? 0); [apply E | apply E']; lia.
Qed.

(** The two fields of a frame, woven together, are the frame. *)
Lemma separate_weave : forall al g1 g2 g3 tff tff' vi vs vw k src, isAl al -> wfFrame al src ->
  vi_fmt vi = vf_fmt src -> vi_w vi = vf_w src -> vi_h vi = vf_h src -> in_int (vi_h vi) ->
  separateCreate vi = Ok vs -> (tff = -1 \/ tff = 0 \/ tff = 1) ->
  let eff := effectiveTFF tff (vf_props src) in eff <> -1 ->
  weaveCreate vs = Ok vw ->
  exists f1 f2 r,
    separateGetFrame al g1 tff vs (2 * k) src = Ok f1 /\
    separateGetFrame al g2 tff vs (2 * k + 1) src = Ok f2 /\
    weaveGetFrame al g3 tff' vw (2 * k) f1 f2 = Ok r /\
    sameFrame src r /\
    vf_props r fieldBased = Some (1 + eff) /\ vf_props r fieldProp = None /\
    (forall key, key <> fieldBased -> key <> fieldProp -> vf_props r key = vf_props src key).
Proof.
  intros al g1 g2 g3 tff tff' vi vs vw k src A WF VF VW VH IH CS TFF eff NE CW.
  assert (EFF : eff = 0 \/ eff = 1) by (pose proof (effective_cases tff (vf_props src) TFF) as EC; fold eff in EC; tauto).
  destruct (separate_frame al g1 tff vi vs (2 * k) src A WF VF VW VH CS EFF) as (f1 & E1 & W1 & A1 & A2 & A3 & A4 & A5).
  destruct (separate_frame al g2 tff vi vs (2 * k + 1) src A WF VF VW VH CS EFF) as (f2 & E2 & W2 & B1 & B2 & B3 & B4 & B5).
  fold eff in A4, A5, B4, B5.
  assert (M1 : (2 * k + eff) mod 2 = eff).
  { replace (2 * k + eff) with (eff + k * 2) by ring. rewrite Z_mod_plus_full. apply Z.mod_small. lia. }
  assert (M2 : (2 * k + 1 + eff) mod 2 = 1 - eff).
  { replace (2 * k + 1 + eff) with (1 + eff + k * 2) by ring. rewrite Z_mod_plus_full.
    destruct EFF as [->| ->]; reflexivity. }
  rewrite M1 in *. rewrite M2 in *.
  pose proof WF as (V & SW & SH & _).
  pose proof (separateCreate_inv _ _ ltac:(rewrite VF; exact V) CS) as (C1 & C2 & C3 & C4 & VS).
  exists f1, f2.
  assert (O : weaveOrder tff' (2 * k) (vf_props f1) (vf_props f2) = Ok (eff =? 1)).
  { unfold weaveOrder. rewrite A4, B4. unfold delProp, setProp. cbn. destruct EFF as [->| ->]; reflexivity. }
  destruct (weave_frame al g3 tff' vs vw (2 * k) f1 f2 (eff =? 1) A W1 W2) as (r & Er & WR & R1 & R2 & R3 & R4 & R5);
    try (rewrite VS; cbn [vi_fmt vi_w vi_h]; congruence); auto.
  { rewrite VS. cbn [vi_fmt vi_h]. rewrite VF in *. rewrite VH in *. destruct C3 as (q & Q). rewrite Q.
    pose proof (valid_ss _ V). pose proof (pow_ss (f_ssh (vf_fmt src)) ltac:(lia)).
    rewrite Z.pow_add_r by lia. change (2 ^ 1) with 2. rewrite Z.mul_assoc, Z.div_mul by lia. exists q. reflexivity. }
  rewrite VS in R1, R2, R3. cbn [vi_fmt vi_w vi_h] in R1, R2, R3.
  assert (HH : 2 * (vi_h vi / 2) = vi_h vi).
  { destruct C3 as (q & Q). rewrite VF in Q. pose proof (valid_ss _ V). rewrite Z.pow_add_r in Q by lia. change (2 ^ 1) with 2 in Q.
    rewrite Q. rewrite Z.mul_assoc, Z.div_mul by lia. ring. }
  exists r. split; [exact E1|]. split; [exact E2|]. split; [exact Er|].
  split; [|split; [|split]].
  - split; [congruence|]. split; [congruence|]. split; [lia|].
    intros i I. destruct (R5 i I) as (a & b & c & Ea & Eb & Ec & Sc).
    rewrite R1, VF in I.
    destruct (A5 i ltac:(rewrite A1; exact I)) as (x & ta & Sx & Eta & Sta).
    destruct (B5 i ltac:(rewrite B1; exact I)) as (x' & tb & Sx' & Etb & Stb).
    rewrite Sx in Sx'. injection Sx' as <-. exists x, c. split; [exact Sx|]. split; [exact Ec|].
    apply (same_trans _ _ _ Sc).
    assert (HX : (2 | i_h x)).
    { unfold planeImg in Sx. destruct (nthz (vf_planes src) i); [|discriminate]. injection Sx as <-. cbn [imageOf i_h].
      rewrite VF, VH in C3. rewrite (planeH_half (vf_fmt src) (vf_h src) i V C3). exists (planeH (vf_fmt src) (vf_h src / 2) i). ring. }
    destruct EFF as [EQ|EQ]; rewrite EQ in *; cbn [Z.eqb Pos.eqb] in Ea, Eb.
    + change (0 =? 1) with false in *. change (fieldOf 0 x) with (bottomField x) in Sta.
      change (fieldOf (1 - 0) x) with (topField x) in Stb. cbn [negb] in *.
      rewrite Ea in Etb. injection Etb as <-. rewrite Eb in Eta. injection Eta as <-.
      apply same_trans with (weave (topField x) (bottomField x)); [|apply weave_fields; exact HX].
      pose proof Sta as (P1 & P2 & _). pose proof Stb as (Q1 & Q2 & _). cbn in P1, P2, Q1, Q2.
      apply weave_proper; [exact Stb | exact Sta | congruence | congruence].
    + change (fieldOf 1 x) with (topField x) in Sta.
      change (fieldOf (1 - 1) x) with (bottomField x) in Stb.
      rewrite Ea in Eta. injection Eta as <-. rewrite Eb in Etb. injection Etb as <-.
      apply same_trans with (weave (topField x) (bottomField x)); [|apply weave_fields; exact HX].
      pose proof Sta as (P1 & P2 & _). pose proof Stb as (Q1 & Q2 & _). cbn in P1, P2, Q1, Q2.
      apply weave_proper; [exact Sta | exact Stb | congruence | congruence].
  - rewrite R4. unfold setProp. rewrite String.eqb_refl. destruct EFF as [->| ->]; reflexivity.
  - rewrite R4. unfold setProp, delProp. rewrite String.eqb_refl.
    destruct (String.eqb_spec fieldProp fieldBased) as [Q|]; [discriminate Q|reflexivity].
  - intros key K1 K2. rewrite R4. unfold setProp, delProp at 1.
    destruct (String.eqb_spec key fieldBased); [contradiction|]. destruct (String.eqb_spec key fieldProp); [contradiction|].
    rewrite A4. unfold setProp, delProp.
    destruct (String.eqb_spec key fieldBased); [contradiction|]. destruct (String.eqb_spec key fieldProp); [contradiction|].
    reflexivity.
Qed.
