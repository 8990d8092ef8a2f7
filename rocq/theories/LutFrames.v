(** Lut and Lut2 on frames. *)
From Coq Require Import String.
From Coq Require Import ZArith List Lia Bool.
From Verif Require Import Common FormatSpec Format FormatLemmas FrameSpec Frame FrameLemmas FrameGeom FrameFacts ImageSpec PlaneMem Spatial
  SpatialLemmas SpatialFrames SpatialStack SpatialShuffle SpatialFacts Pixel PixelLemmas PixelSpec Lut LutLemmas.
Import ListNotations.
Open Scope Z_scope.

Section Frames.
Variable D : Type.
Variable tofloat : D -> Z.

(** The value [v] of index [i], as the caller gave it: in range when integer. *)
Definition fits (floatout : bool) (bitsout : Z) (vi : option Z) (vd : option D) (v : Z) : Prop :=
  if floatout then exists x, vd = Some x /\ v = tofloat x else vi = Some v /\ 0 <= v < 2 ^ bitsout.
Definition given (a : lutArgs D) (bitsout i v : Z) : Prop :=
  match la_func a with
  | Some f => exists vi vd, f i = RVal vi vd /\ fits (la_float a) bitsout vi vd v
  | None => fits (la_float a) bitsout (nthz (orNil (la_lut a)) i) (nthz (orNil (la_lutf a)) i) v
  end.

Lemma convert_fits : forall fo bitsout vi vd v, convert tofloat fo (if fo then 0 else 2 ^ bitsout) vi vd = Some v <-> fits fo bitsout vi vd v.
Proof.
  intros fo bitsout vi vd v. unfold convert, fits. destruct fo.
  - destruct vd as [x|]; cbn [option_map]; split.
    + intros [= <-]. eauto.
    + intros (y & [= <-] & ->). reflexivity.
    + discriminate.
    + intros (y & Q & _). discriminate.
  - destruct vi as [u|]; [|split; [discriminate | intros (Q & _); discriminate]].
    destruct (Z.ltb_spec u 0); destruct (Z.leb_spec (2 ^ bitsout) u); cbn [orb]; split; try discriminate; try (intros ([= <-] & Q); lia).
    + intros [= <-]. split; [reflexivity | lia].
    + intros (Q & _). exact Q.
Qed.

Lemma entry_given : forall a bitsout i v, entry tofloat a (if la_float a then 0 else 2 ^ bitsout) i = Some v <-> given a bitsout i v.
Proof.
  intros a bitsout i v. unfold entry, given. destruct (la_func a) as [f|].
  - destruct (f i) as [m|vi vd]; split.
    + discriminate.
    + intros (x & y & Q & _). discriminate.
    + intros E. apply convert_fits in E. eauto.
    + intros (x & y & [= <- <-] & Q). apply convert_fits. exact Q.
  - rewrite <- convert_fits. unfold arrayConv, convert. destruct (la_float a).
    + destruct (nthz (orNil (la_lutf a)) i) as [x|]; cbn [option_map]; reflexivity.
    + destruct (nthz (orNil (la_lut a)) i) as [x|]; reflexivity.
Qed.

Definition bitsOut (bits : option Z) (floatout : bool) (inbits : Z) : Z :=
  match bits with Some b => sat32 b | None => if floatout then 32 else inbits end.

Lemma valid_np_pos : forall f, fmt_valid f -> f_np f <> 0.
Proof. intros f V. pose proof (valid_np f V). lia. Qed.

Lemma query_out : forall f st bits g, fmt_valid f -> (st = stInteger /\ 8 <= bits <= 16 \/ st = stFloat /\ bits = 32) ->
  queryFmt (f_cf f) st bits (f_ssw f) (f_ssh f) = Ok g ->
  fmt_valid g /\ f_cf g = f_cf f /\ f_st g = st /\ f_bits g = bits /\ f_ssw g = f_ssw f /\ f_ssh g = f_ssh f /\ f_np g = f_np f.
Proof.
  intros f st bits g V S Q.
  assert (VP : validP (f_cf f) st bits (f_ssw f) (f_ssh f)).
  { pose proof V as (V1 & V2 & V3 & V4 & V5). unfold validP. split; [exact V1|]. split.
    - destruct S as [(-> & B)|(-> & ->)]; [left | right]; (split; [reflexivity | lia]).
    - exact V4. }
  destruct (query_valid _ _ _ _ _ VP) as (g' & Eg & Vg & F).
  unfold queryFmt in Q. rewrite Eg in Q. injection Q as <-.
  destruct F as (F1 & F2 & F3 & F4 & F5). repeat (split; [assumption|]).
  pose proof V as (_ & _ & _ & _ & V5). pose proof Vg as (_ & _ & _ & _ & V6). rewrite F1 in V6. lia.
Qed.

Lemma bytes_of : forall f, fmt_valid f -> (f_bytes f = 1 \/ f_bytes f = 2 \/ f_bytes f = 4) /\ f_bits f <= 8 * f_bytes f /\ (f_bits f <= 16 -> f_bytes f <= 2) /\ 8 <= f_bits f.
Proof.
  intros f (_ & V2 & (S1 & S2 & S3) & _). split; [exact S1|]. split; [exact S2|]. split; [|lia].
  intros B. apply S3; lia.
Qed.

Lemma lutCreate_inv : forall vbmi vi a d, fmt_valid (vi_fmt vi) -> lutCreate tofloat vbmi vi a = Ok d ->
  let bo := bitsOut (la_bits a) (la_float a) (f_bits (vi_fmt vi)) in
  f_bits (vi_fmt vi) <= 16 /\ (if la_float a then bo = 32 else 8 <= bo <= 16) /\
  getPlanesArg (la_planes a) = Some (ld_process d) /\
  buildTable tofloat (f_bits (vi_fmt vi)) (f_bytes (vi_fmt vi)) bo a = Ok (ld_tbl d) /\
  arraysFit D a (2 ^ f_bits (vi_fmt vi)) /\
  fmt_valid (vi_fmt (ld_out d)) /\ f_bits (vi_fmt (ld_out d)) = bo /\ f_st (vi_fmt (ld_out d)) = (if la_float a then stFloat else stInteger) /\
  f_cf (vi_fmt (ld_out d)) = f_cf (vi_fmt vi) /\ f_np (vi_fmt (ld_out d)) = f_np (vi_fmt vi) /\
  f_ssw (vi_fmt (ld_out d)) = f_ssw (vi_fmt vi) /\ f_ssh (vi_fmt (ld_out d)) = f_ssh (vi_fmt vi) /\
  vi_w (ld_out d) = vi_w vi /\ vi_h (ld_out d) = vi_h vi /\ vi_n (ld_out d) = vi_n vi /\
  ld_bytesIn d = f_bytes (vi_fmt vi) /\ ld_vbmi d = vbmi.
Proof.
  intros vbmi vi a d V E bo. unfold lutCreate in E. fold (bitsOut (la_bits a) (la_float a) (f_bits (vi_fmt vi))) in E. fold bo in E.
  destruct (negb (constantFormat vi)); [discriminate|].
  destruct (negb (f_st (vi_fmt vi) =? stInteger) || (16 <? f_bits (vi_fmt vi))) eqn:G1; [discriminate|].
  apply orb_false_elim in G1. destruct G1 as (_ & G1). apply Z.ltb_ge in G1.
  match type of E with (if ?b then _ else _) = _ => destruct b eqn:G2 end; [discriminate|].
  assert (BO : if la_float a then bo = 32 else 8 <= bo <= 16).
  { destruct (la_float a); cbn [andb negb orb] in G2.
    - destruct (Z.eqb_spec bo 32); [assumption|discriminate].
    - destruct (Z.ltb_spec bo 8); [discriminate|]. destruct (Z.ltb_spec 16 bo); [discriminate|]. lia. }
  clear G2. destruct (getPlanesArg (la_planes a)) as [process|] eqn:GP; [|discriminate].
  cbv zeta in E.
  match type of E with (if ?b then _ else _) = _ => destruct b eqn:G3 end; [discriminate|].
  match type of E with (if ?b then _ else _) = _ => destruct b eqn:G4 end; [discriminate|].
  match type of E with (if ?b then _ else _) = _ => destruct b eqn:G5 end; [discriminate|].
  match type of E with (if ?b then _ else _) = _ => destruct b eqn:G6 end; [discriminate|].
  match type of E with (if ?b then _ else _) = _ => destruct b eqn:G7 end; [discriminate|].
  destruct (queryFmt (f_cf (vi_fmt vi)) _ bo _ _) as [fo| |] eqn:Q; [|discriminate|discriminate].
  apply query_out in Q; [|exact V|destruct (la_float a); [right|left]; lia].
  destruct Q as (Q1 & Q2 & Q3 & Q4 & Q5 & Q6 & Q7).
  cbn [obind] in E. destruct (buildTable tofloat (f_bits (vi_fmt vi)) (f_bytes (vi_fmt vi)) bo a) as [t| |] eqn:B; [|discriminate|discriminate].
  cbn [obind] in E. apply Ok_inj in E. rewrite <- E. cbn [ld_out ld_process ld_tbl ld_bytesIn ld_vbmi vi_fmt vi_w vi_h vi_n].
  assert (AF : arraysFit D a (2 ^ f_bits (vi_fmt vi))).
  { unfold arraysFit. intros LF. rewrite LF in G3, G4. unfold isSet in G3, G4, G5, G6.
    destruct (la_lut a) as [l|]; destruct (la_lutf a) as [lf|]; destruct (la_float a); try discriminate;
      cbn [orNil option_map] in *; apply andb_false_iff in G7;
      [pose proof (zlength_nonneg _ l) as NN | pose proof (zlength_nonneg _ lf) as NN];
      destruct G7 as [G7|G7]; try (apply Z.leb_gt in G7); try (apply negb_false_iff, Z.eqb_eq in G7); lia. }
  do 16 (split; [first [assumption | reflexivity]|]). reflexivity.
Qed.

(** The planes a filter works on. *)
Definition chosen (planes : list Z) (i : Z) : bool := match planes with [] => true | _ => existsb (Z.eqb i) planes end.

Lemma getPlanesArg_chosen : forall l r, getPlanesArg l = Some r -> Forall (fun o => in_int o) l -> forall i, 0 <= i < 3 -> r i = chosen l i.
Proof.
  intros l r E F i I. pose proof (getPlanesArg_spec l r E i I) as S. unfold chosen. destruct l as [|o l].
  - destruct (r i); [reflexivity|]. exfalso. assert (false = true) by (apply S; auto). discriminate.
  - assert (SAT : map sat32 (o :: l) = o :: l).
    { rewrite <- (map_id (o :: l)) at 2. apply map_ext_in. intros x X. rewrite Forall_forall in F. specialize (F x X).
      unfold sat32, in_int in *.
      repeat match goal with |- context [if ?b then _ else _] => destruct b eqn:? end; lia. }
    rewrite SAT in S. destruct (existsb (Z.eqb i) (o :: l)) eqn:EX.
    + apply S. right. apply existsb_exists in EX. destruct EX as (x & X1 & X2). apply Z.eqb_eq in X2. subst x. exact X1.
    + destruct (r i); [|reflexivity]. exfalso. destruct (proj1 S eq_refl) as [Q|Q]; [discriminate|].
      assert (existsb (Z.eqb i) (o :: l) = true); [|congruence]. apply existsb_exists. exists i. split; [exact Q | apply Z.eqb_refl].
Qed.

Lemma given_bound : forall a bo i v, (forall x, 0 <= tofloat x < 2 ^ 32) -> given a bo i v -> (if la_float a then bo = 32 else 8 <= bo <= 16) -> 0 <= v < 2 ^ bo.
Proof.
  intros a bo i v TF G B. unfold given, fits in G. destruct (la_func a).
  - destruct G as (vi & vd & _ & G). destruct (la_float a); [|tauto]. destruct G as (x & _ & ->). subst bo. apply TF.
  - destruct (la_float a); [|tauto]. destruct G as (x & _ & ->). subst bo. apply TF.
Qed.

Lemma stride_div : forall al f w i, isAl al -> fmt_valid f -> 0 <= w -> (al | strideOf al f w i).
Proof. intros. unfold strideOf, ceilTo. apply Z.divide_factor_l. Qed.

Theorem lut_accepts : forall vbmi vi a d, fmt_valid (vi_fmt vi) -> noEmptyError D a (2 ^ f_bits (vi_fmt vi)) -> lutCreate tofloat vbmi vi a = Ok d ->
  exists T, (forall i, 0 <= i < 2 ^ f_bits (vi_fmt vi) -> given a (bitsOut (la_bits a) (la_float a) (f_bits (vi_fmt vi))) i (T i)) /\
    forall v, 0 <= v < 2 ^ (8 * f_bytes (vi_fmt vi)) -> ld_tbl d v = Some (T (legal (f_bits (vi_fmt vi)) v)).
Proof.
  intros vbmi vi a d V NE E. pose proof (lutCreate_inv vbmi vi a d V E) as I. cbv zeta in I.
  set (bo := bitsOut (la_bits a) (la_float a) (f_bits (vi_fmt vi))) in *.
  destruct I as (I1 & I2 & I3 & I4 & I5 & _). destruct (bytes_of _ V) as (_ & B2 & _ & B4).
  destruct (buildTable_spec D tofloat _ (f_bytes (vi_fmt vi)) bo a (conj (Z.le_trans 0 8 _ ltac:(lia) B4) B2) I5 NE) as (_ & S & _).
  specialize (S _ I4). set (mv := if la_float a then 0 else 2 ^ bo) in *.
  exists (fun i => match entry tofloat a mv i with Some v => v | None => 0 end).
  assert (P2 := pow2_le (f_bits (vi_fmt vi)) (8 * f_bytes (vi_fmt vi)) ltac:(lia)).
  split.
  - intros i Hi. destruct (S i ltac:(lia)) as (S1 & S2). unfold legal, top in S1. rewrite Z.min_l in S1 by lia.
    apply entry_given. fold mv. destruct (entry tofloat a mv i); [reflexivity|congruence].
  - intros v Hv. destruct (S v Hv) as (S1 & S2). rewrite S1. destruct (entry tofloat a mv (legal (f_bits (vi_fmt vi)) v)); [reflexivity|congruence].
Qed.

(** Every frame is the source with the table applied to the planes asked for. *)
Theorem lut_frame : forall al g vbmi vi a d src, alignment al -> (vbmi = true -> al = 64) ->
  (forall x, 0 <= tofloat x < 2 ^ 32) -> Forall (fun o => in_int o) (la_planes a) ->
  noEmptyError D a (2 ^ f_bits (vi_fmt vi)) -> lutCreate tofloat vbmi vi a = Ok d ->
  wfFrame al src -> byteFrame src -> matches src vi ->
  (forall i, 0 <= i < f_np (vi_fmt vi) -> chosen (la_planes a) i = false -> f_bytes (vi_fmt (ld_out d)) = f_bytes (vi_fmt vi)) ->
  exists T r, (forall i, 0 <= i < 2 ^ f_bits (vi_fmt vi) -> given a (bitsOut (la_bits a) (la_float a) (f_bits (vi_fmt vi))) i (T i)) /\
    lutGetFrame al g d src = Ok r /\ wfFrame al r /\ matches r (ld_out d) /\ vf_props r = vf_props src /\
    planesMap (fun i p => if chosen (la_planes a) i then looked (f_bits (vi_fmt vi)) T p else p) src r.
Proof.
  intros al g vbmi vi a d src A VB TF PL NE E WF BY (M1 & M2 & M3) SH.
  assert (V : fmt_valid (vi_fmt vi)) by (rewrite <- M1; apply WF).
  pose proof (lutCreate_inv vbmi vi a d V E) as I. cbv zeta in I.
  destruct (lut_accepts vbmi vi a d V NE E) as (T & T1 & T2).
  set (bo := bitsOut (la_bits a) (la_float a) (f_bits (vi_fmt vi))) in *.
  destruct I as (I1 & I2 & I3 & I4 & I5 & I6 & I7 & I8 & I9 & I10 & I11 & I12 & I13 & I14 & I15 & I16 & I17).
  destruct (bytes_of _ V) as (B1 & B2 & B3 & B4). destruct (bytes_of _ I6) as (C1 & C2 & C3 & C4).
  assert (IA : isAl al) by (destruct A as [-> | ->]; [exists 5 | exists 6]; split; [reflexivity|lia|reflexivity|lia]).
  assert (P2 := pow2_le (f_bits (vi_fmt vi)) (8 * f_bytes (vi_fmt vi)) ltac:(lia)).
  set (TT := fun v => if (0 <=? v) && (v <? 2 ^ f_bits (vi_fmt vi)) then T v else 0).
  assert (TB : forall v, 0 <= TT v < 256 ^ f_bytes (vi_fmt (ld_out d))).
  { assert (Q : 2 ^ bo <= 256 ^ f_bytes (vi_fmt (ld_out d))).
    { change 256 with (2 ^ 8). rewrite <- Z.pow_mul_r by lia. apply Z.pow_le_mono_r; lia. }
    intros v. unfold TT. destruct (Z.leb_spec 0 v); destruct (Z.ltb_spec v (2 ^ f_bits (vi_fmt vi))); cbn [andb];
      try (pose proof (Z.pow_pos_nonneg 2 bo); lia).
    pose proof (given_bound a bo v (T v) TF (T1 v ltac:(lia)) I2). lia. }
  assert (PRC : forall i, 0 <= i < f_np (vi_fmt (ld_out d)) -> ld_process d i = chosen (la_planes a) i).
  { intros i Hi. apply getPlanesArg_chosen; auto. pose proof (valid_np _ I6). lia. }
  destruct (filterFrame_map al g (vi_fmt (ld_out d)) (vf_w src) (vf_h src) (ld_process d) src
     (fun i q => match nthz (vf_planes src) i with
        | Some p => lutPlane al d (getWidth (vf_fmt src) (vf_w src) i) (getHeight (vf_fmt src) (vf_h src) i) p q
        | None => UB end)
     (fun i p => looked (f_bits (vi_fmt vi)) T p)) as (r & R1 & R2 & R3 & R4 & R5 & R6 & R7); auto.
  - rewrite M1. congruence.
  - rewrite M1. congruence.
  - rewrite M1. congruence.
  - intros i Hi PR. rewrite M1. symmetry. apply (SH i); [lia|]. rewrite <- PRC by exact Hi. exact PR.
  - intros i p q Hi PR NP WP SP WQ SQ. rewrite NP.
    pose proof WF as (WF1 & WF2 & WF3 & _).
    rewrite getWidth_planeW, getHeight_planeH by exact WF1.
    assert (EW : planeW (vf_fmt src) (vf_w src) i = planeW (vi_fmt (ld_out d)) (vf_w src) i) by (unfold planeW; rewrite M1, I11; reflexivity).
    assert (EH : planeH (vf_fmt src) (vf_h src) i = planeH (vi_fmt (ld_out d)) (vf_h src) i) by (unfold planeH; rewrite M1, I12; reflexivity).
    rewrite EW, EH. rewrite M1 in WP |- *. rewrite <- I16 in WP |- *.
    destruct (lutPlane_spec al d (planeW (vi_fmt (ld_out d)) (vf_w src) i) (planeH (vi_fmt (ld_out d)) (vf_h src) i) p q
      (fun v => TT (legal (f_bits (vi_fmt vi)) v)) A) as (m & L1 & L2 & L3); auto.
    + lia.
    + intros Q. apply VB. congruence.
    + rewrite SP. apply stride_div; auto. lia.
    + apply (BY i p NP).
    + rewrite SQ. apply stride_div; auto. lia.
    + rewrite I16. intros v Hv. rewrite T2 by exact Hv. unfold TT, legal, top.
      destruct (Z.leb_spec 0 (Z.min v (2 ^ f_bits (vi_fmt vi) - 1))); [|lia].
      destruct (Z.ltb_spec (Z.min v (2 ^ f_bits (vi_fmt vi) - 1)) (2 ^ f_bits (vi_fmt vi))); [reflexivity|lia].
    + exists m. split; [exact L1|]. split; [exact L2|].
      apply (same_trans _ _ _ L3). split; [reflexivity|]. split; [reflexivity|]. intros x y _ _. cbn [mapped looked i_at].
      unfold TT. pose proof (image_range (ld_bytesIn d) p (planeW (vi_fmt (ld_out d)) (vf_w src) i) (planeH (vi_fmt (ld_out d)) (vf_h src) i) x y ltac:(lia) (BY i p NP)) as IR.
      unfold legal, top. destruct (Z.leb_spec 0 (Z.min (i_at (imageOf (ld_bytesIn d) p (planeW (vi_fmt (ld_out d)) (vf_w src) i) (planeH (vi_fmt (ld_out d)) (vf_h src) i)) x y) (2 ^ f_bits (vi_fmt vi) - 1))); [|lia].
      destruct (Z.ltb_spec (Z.min (i_at (imageOf (ld_bytesIn d) p (planeW (vi_fmt (ld_out d)) (vf_w src) i) (planeH (vi_fmt (ld_out d)) (vf_h src) i)) x y) (2 ^ f_bits (vi_fmt vi) - 1)) (2 ^ f_bits (vi_fmt vi))); [reflexivity|lia].
  - exists T, r. split; [exact T1|]. split; [exact R1|]. split; [exact R2|].
    split; [split; [exact R3|]; split; [rewrite R4, I13; exact M2 | rewrite R5, I14; exact M3]|]. split; [exact R6|].
    intros i Hi. destruct (R7 i Hi) as (x & y & X & Y & S). exists x, y. split; [exact X|]. split; [exact Y|].
    rewrite <- PRC by (rewrite <- R3; exact Hi). exact S.
Qed.

End Frames.
