(** Consequences for the single filters, and calls they do not survive. *)
From Coq Require Import ZArith List Lia Bool.
From Coq Require Import SpecFloat.
From Verif Require Import Common FormatSpec Format Frame FrameSpec FrameGeom ImageSpec PlaneMem Spatial SpatialLemmas SpatialStack SpatialFacts FrameFacts.
From Verif Require Import PixelSpec Pixel PixelLemmas Lut LutLemmas LutFrames LutFacts.
From Verif Require Import Soft SoftLemmas SoftBounds SoftNum GenericCast GenericSpec Generic GenericLemmas GenericMedian GenericOps GenericPlanes GenericFloat GenericFrames
  GenericSingle GenericLevels.
Import ListNotations.
Open Scope Z_scope.

(** The frame [r] is [src] with [R] applied to the planes chosen. *)
Definition filtered (al : Z) (planes : list Z) (R : image -> image) (src r : vframe) : Prop :=
  wfFrame al r /\ vf_fmt r = vf_fmt src /\ vf_w r = vf_w src /\ vf_h r = vf_h src /\ vf_props r = vf_props src /\
  planesMap (fun i x => if chosen planes i then R x else x) src r.

(** What is asked of a source frame. *)
Definition goodSource (al : Z) (vi : vinfo) (src : vframe) : Prop :=
  alignment al /\ wfFrame al src /\ byteFrame src /\ belongs src vi /\ vf_w src < 2 ^ 30 /\ vf_h src < 2 ^ 30.

Definition fitting (op : gop) (a : gargs) (d : genericData) (src : vframe) : Prop :=
  fitsDims op (g_size (gd_params d)) (chosen (ga_planes a)) (vf_fmt src) (vf_w src) (vf_h src).

Lemma good_created : forall op vi a d al src, goodSource al vi src -> genericCreate op vi a = Ok d -> created op vi a d.
Proof.
  intros op vi a d al src (_ & WF & _ & (B & _) & _) E. apply create_inv; [|exact E]. rewrite <- B. exact (proj1 WF).
Qed.

Lemma good_kind : forall op vi a d al src, goodSource al vi src -> genericCreate op vi a = Ok d ->
  smallk (f_bytes (vi_fmt vi)) /\ 8 <= f_bits (vi_fmt vi) <= 16.
Proof.
  intros op vi a d al src G E. pose proof (good_created _ _ _ _ _ _ G E) as C. destruct G as (_ & WF & _ & (B & _) & _).
  destruct (smallInt_facts (vi_fmt vi)) as (K & B2 & _); [|split; assumption]. split; [rewrite <- B; exact (proj1 WF)|]. split; [apply (cr_int _ _ _ _ C) | apply (cr_bits _ _ _ _ C)].
Qed.

Lemma plain_frame : forall op vi a d al g t0 src, Forall (fun o => in_int o) (ga_planes a) -> goodSource al vi src ->
  genericCreate op vi a = Ok d -> fitting op a d src -> isGradient op = false -> (forall t, op <> OpConv t) ->
  exists r, genericGetFrame al g t0 d src = Ok r /\
    filtered al (ga_planes a) (meant op (f_bits (vi_fmt vi)) (gd_params d) (fun x => x) (fun x _ => x)) src r.
Proof.
  intros op vi a d al g t0 src PI (AL & WF & BY & BE & W & H) E FT NG NC.
  destruct (generic_frame op vi a d (fun x => x) (fun x _ => x) al g t0 src AL PI E WF BY BE W H) as (r & R1 & R2); auto.
  - intros t Q. exfalso. exact (NC t Q).
  - rewrite NG. discriminate.
  - exists r. split; [exact R1 | exact R2].
Qed.

(** Median *)
Theorem median_frame : forall vi a d al g t0 src, Forall (fun o => in_int o) (ga_planes a) -> goodSource al vi src ->
  genericCreate OpMedian vi a = Ok d -> fitting OpMedian a d src ->
  exists r, genericGetFrame al g t0 d src = Ok r /\
    filtered al (ga_planes a) (local (fun l => legal (f_bits (vi_fmt vi)) (fifth l))) src r.
Proof. intros vi a d al g t0 src PI G E FT. apply (plain_frame OpMedian vi a d al g t0 src PI G E FT); [reflexivity | discriminate]. Qed.

(** The threshold and the neighbours asked for. *)
Definition maskGiven (a : gargs) : list bool := match ga_coordinates a with Some l => selected l | None => repeat true 8 end.

Theorem extremum_frame : forall (mx : bool) vi a d al g t0 src, Forall (fun o => in_int o) (ga_planes a) -> goodSource al vi src ->
  let op := if mx then OpMaximum else OpMinimum in
  genericCreate op vi a = Ok d -> fitting op a d src ->
  exists th r, thresholdOf (f_bits (vi_fmt vi)) (ga_threshold a) = Ok th /\ 0 <= th <= top (f_bits (vi_fmt vi)) /\
    genericGetFrame al g t0 d src = Ok r /\
    filtered al (ga_planes a) (local (fun l => legal (f_bits (vi_fmt vi)) ((if mx then maximumOf else minimumOf) (maskGiven a) th l))) src r.
Proof.
  intros mx vi a d al g t0 src PI G op E FT. pose proof (good_created _ _ _ _ _ _ G E) as C. pose proof (good_kind _ _ _ _ _ _ G E) as (_ & B).
  assert (TH : thresholdOf (f_bits (vi_fmt vi)) (ga_threshold a) = Ok (g_th (gd_params d))) by (apply (cr_th _ _ _ _ C); subst op; destruct mx; reflexivity).
  assert (MK : maskOf (g_stencil (gd_params d)) = maskGiven a) by (apply (cr_mask _ _ _ _ C); subst op; destruct mx; reflexivity).
  destruct (plain_frame op vi a d al g t0 src PI G E FT) as (r & R1 & R2); [subst op; destruct mx; reflexivity | subst op; destruct mx; discriminate|].
  exists (g_th (gd_params d)), r. split; [exact TH|]. split. { pose proof (thresholdOf_range (f_bits (vi_fmt vi)) _ _ ltac:(lia) TH). unfold top. lia. }
  split; [exact R1|]. rewrite <- MK. subst op. destruct mx; exact R2.
Qed.

Theorem flate_frame : forall (inflate : bool) vi a d al g t0 src, Forall (fun o => in_int o) (ga_planes a) -> goodSource al vi src ->
  let op := if inflate then OpInflate else OpDeflate in
  genericCreate op vi a = Ok d -> fitting op a d src ->
  exists th r, thresholdOf (f_bits (vi_fmt vi)) (ga_threshold a) = Ok th /\ 0 <= th <= top (f_bits (vi_fmt vi)) /\
    genericGetFrame al g t0 d src = Ok r /\
    filtered al (ga_planes a) (local (fun l => legal (f_bits (vi_fmt vi)) ((if inflate then inflateOf else deflateOf) th l))) src r.
Proof.
  intros inflate vi a d al g t0 src PI G op E FT. pose proof (good_created _ _ _ _ _ _ G E) as C. pose proof (good_kind _ _ _ _ _ _ G E) as (_ & B).
  assert (TH : thresholdOf (f_bits (vi_fmt vi)) (ga_threshold a) = Ok (g_th (gd_params d))) by (apply (cr_th _ _ _ _ C); subst op; destruct inflate; reflexivity).
  destruct (plain_frame op vi a d al g t0 src PI G E FT) as (r & R1 & R2); [subst op; destruct inflate; reflexivity | subst op; destruct inflate; discriminate|].
  exists (g_th (gd_params d)), r. split; [exact TH|]. split. { pose proof (thresholdOf_range (f_bits (vi_fmt vi)) _ _ ltac:(lia) TH). unfold top. lia. }
  split; [exact R1|]. subst op. destruct inflate; exact R2.
Qed.

(** Integer thresholds are taken as they are. *)
Lemma threshold_num : forall bits v, 8 <= bits <= 16 -> 0 <= v < 2 ^ bits -> thresholdOf bits (Some (num v)) = Ok v.
Proof.
  intros bits v B V. assert (P : 2 ^ bits <= 65536) by (change 65536 with (2 ^ 16); apply Z.pow_le_mono_r; lia).
  pose proof (cast_exact v ltac:(lia)) as H. apply andb_true_iff in H. destruct H as (H1 & H2).
  unfold thresholdOf. cbv zeta. rewrite H1. cbn [negb]. destruct (floatToInt64S (to32 (num v))) as [w| |]; try discriminate.
  apply Z.eqb_eq in H2. subst w. cbn [obind]. destruct (Z.ltb_spec v 0); [lia|]. destruct (Z.ltb_spec (2 ^ bits - 1) v); [lia|]. reflexivity.
Qed.

(** ** What the operations do to a sample *)

Lemma largest_in : forall l x, largest x l = x \/ In (largest x l) l.
Proof.
  induction l as [|v l IH]; intros x; [left; reflexivity|]. cbn [largest fold_right]. fold (largest x l).
  destruct (Z.max_spec v (largest x l)) as [(_ & ->)|(_ & ->)]; [destruct (IH x) as [Q|Q]; [left; exact Q | right; right; exact Q] | right; left; reflexivity].
Qed.
Lemma largest_all : forall l x v, In v l -> v <= largest x l.
Proof.
  induction l as [|u l IH]; intros x v I; [contradiction|]. cbn [largest fold_right]. fold (largest x l). destruct I as [->|I]; [lia|]. specialize (IH x v I). lia.
Qed.
Lemma smallest_in : forall l x, smallest x l = x \/ In (smallest x l) l.
Proof.
  induction l as [|v l IH]; intros x; [left; reflexivity|]. cbn [smallest fold_right]. fold (smallest x l).
  destruct (Z.min_spec v (smallest x l)) as [(_ & ->)|(_ & ->)]; [right; left; reflexivity | destruct (IH x) as [Q|Q]; [left; exact Q | right; right; exact Q]].
Qed.
Lemma smallest_all : forall l x v, In v l -> smallest x l <= v.
Proof.
  induction l as [|u l IH]; intros x v I; [contradiction|]. cbn [smallest fold_right]. fold (smallest x l). destruct I as [->|I]; [lia|]. specialize (IH x v I). lia.
Qed.

Theorem maximum_value : forall mask th l, 0 <= th -> let m := maximumOf mask th l in
  centre l <= m <= centre l + th /\
  (m = centre l + th \/ m = centre l \/ In m (picked mask (neighbours l))) /\
  (forall v, In v (picked mask (neighbours l)) -> v <= m \/ m = centre l + th).
Proof.
  intros mask th l TH m. subst m. unfold maximumOf. pose proof (largest_ge (picked mask (neighbours l)) (centre l)) as L. split; [lia|]. split.
  - destruct (Z.min_spec (largest (centre l) (picked mask (neighbours l))) (centre l + th)) as [(_ & ->)|(_ & ->)]; [|tauto].
    destruct (largest_in (picked mask (neighbours l)) (centre l)); tauto.
  - intros v V. pose proof (largest_all _ (centre l) v V). lia.
Qed.
Theorem minimum_value : forall mask th l, 0 <= th -> let m := minimumOf mask th l in
  centre l - th <= m <= centre l /\
  (m = centre l - th \/ m = centre l \/ In m (picked mask (neighbours l))) /\
  (forall v, In v (picked mask (neighbours l)) -> m <= v \/ m = centre l - th).
Proof.
  intros mask th l TH m. subst m. unfold minimumOf. pose proof (smallest_le (picked mask (neighbours l)) (centre l)) as L. split; [lia|]. split.
  - destruct (Z.max_spec (smallest (centre l) (picked mask (neighbours l))) (centre l - th)) as [(_ & ->)|(_ & ->)]; [tauto|].
    destruct (smallest_in (picked mask (neighbours l)) (centre l)); tauto.
  - intros v V. pose proof (smallest_all _ (centre l) v V). lia.
Qed.

(** Minimum is Maximum of the negative. *)
Lemma picked_map : forall (f : Z -> Z) mask l, picked mask (map f l) = map f (picked mask l).
Proof. intros f. induction mask as [|[] mask IH]; intros [|v l]; cbn [picked map]; rewrite ?IH; reflexivity. Qed.
Lemma smallest_dual : forall t l x, smallest (t - x) (map (fun v => t - v) l) = t - largest x l.
Proof. intros t. induction l as [|v l IH]; intros x; cbn [smallest largest map fold_right]; [reflexivity|]. fold (smallest (t - x) (map (fun v => t - v) l)). fold (largest x l). rewrite IH. lia. Qed.
Theorem minimum_dual : forall mask th t l, zlength l = 9 ->
  minimumOf mask th (map (fun v => t - v) l) = t - maximumOf mask th l.
Proof.
  intros mask th t l L.
  destruct l as [|s0 [|s1 [|s2 [|s3 [|s4 [|s5 [|s6 [|s7 [|s8 [|? ?]]]]]]]]]]; try (unfold zlength in L; cbn [length] in L; lia).
  unfold minimumOf, maximumOf. set (ll := [s0; s1; s2; s3; s4; s5; s6; s7; s8]) in *.
  assert (C : centre (map (fun v => t - v) ll) = t - centre ll) by reflexivity.
  assert (N : neighbours (map (fun v => t - v) ll) = map (fun v => t - v) (neighbours ll)) by reflexivity.
  rewrite C, N, picked_map, smallest_dual. lia.
Qed.

Theorem flate_value : forall th l, 0 <= th ->
  centre l <= inflateOf th l <= centre l + th /\ centre l - th <= deflateOf th l <= centre l /\
  (centre l <= mean8 l <= centre l + th -> inflateOf th l = mean8 l) /\ (mean8 l <= centre l -> inflateOf th l = centre l) /\
  (centre l - th <= mean8 l <= centre l -> deflateOf th l = mean8 l) /\ (centre l <= mean8 l -> deflateOf th l = centre l).
Proof. intros th l TH. unfold inflateOf, deflateOf. lia. Qed.

(** A legal neighbourhood keeps its results legal: no clamping to the format takes place. *)
Theorem local_legal : forall bits th l, zlength l = 9 -> Forall (fun v => 0 <= v <= top bits) l -> 0 <= th ->
  (forall mask, 0 <= minimumOf mask th l <= top bits /\ 0 <= maximumOf mask th l <= top bits) /\
  0 <= inflateOf th l <= top bits /\ 0 <= deflateOf th l <= top bits /\ 0 <= fifth l <= top bits.
Proof.
  intros bits th l L F TH.
  assert (FI : forall v, In v l -> 0 <= v <= top bits) by (rewrite Forall_forall in F; exact F).
  pose proof (fifth_in l L) as F5. apply FI in F5.
  assert (PK : forall mask v, In v (picked mask (neighbours l)) -> 0 <= v <= top bits).
  { intros mask v I. apply FI. assert (IN : In v (neighbours l)).
    { revert I. generalize (neighbours l). revert mask. induction mask as [|[] mask IH]; intros [|u n]; cbn [picked]; try contradiction; intros I.
      - destruct I as [->|I]; [left; reflexivity | right; exact (IH _ I)].
      - right. exact (IH _ I). }
    unfold neighbours in IN. apply in_app_iff in IN. rewrite <- (firstn_skipn 4 l). apply in_app_iff. destruct IN as [IN|IN]; [left; exact IN|].
    right. destruct l as [|s0 [|s1 [|s2 [|s3 [|s4 l]]]]]; try contradiction. right. exact IN. }
  assert (CE : 0 <= centre l <= top bits).
  { apply FI. unfold centre. apply nth_In. unfold zlength in L. lia. }
  assert (M8 : 0 <= mean8 l <= top bits).
  { unfold mean8.
    destruct l as [|s0 [|s1 [|s2 [|s3 [|s4 [|s5 [|s6 [|s7 [|s8 [|? ?]]]]]]]]]]; try (unfold zlength in L; cbn [length] in L; lia).
    unfold neighbours. cbn [firstn skipn app sumL fold_right].
    pose proof (FI s0 ltac:(cbn; tauto)). pose proof (FI s1 ltac:(cbn; tauto)). pose proof (FI s2 ltac:(cbn; tauto)). pose proof (FI s3 ltac:(cbn; tauto)).
    pose proof (FI s5 ltac:(cbn; tauto)). pose proof (FI s6 ltac:(cbn; tauto)). pose proof (FI s7 ltac:(cbn; tauto)). pose proof (FI s8 ltac:(cbn; tauto)).
    split; [apply Z.div_pos; lia|]. apply Z.lt_succ_r. apply Z.div_lt_upper_bound; lia. }
  split; [|split; [unfold inflateOf; lia|]; split; [unfold deflateOf; lia | exact F5]].
  intros mask. split.
  - unfold minimumOf. destruct (smallest_in (picked mask (neighbours l)) (centre l)) as [Q|Q]; [lia|]. apply PK in Q. lia.
  - unfold maximumOf. destruct (largest_in (picked mask (neighbours l)) (centre l)) as [Q|Q]; [lia|]. apply PK in Q. lia.
Qed.

(** ** Convolution *)

Theorem convolution_frame : forall t vi a d al g t0 src, Forall (fun o => in_int o) (ga_planes a) -> goodSource al vi src ->
  genericCreate (OpConv t) vi a = Ok d -> fitting (OpConv t) a d src -> divisorOk (ga_divisor a) ->
  let p := gd_params d in
  exists m F r, coefsOf (ga_matrix a) = Ok m /\ finishes (f_bytes (vi_fmt vi)) p F /\
    genericGetFrame al g t0 d src = Ok r /\
    filtered al (ga_planes a)
      (let fin := fun s => legal (f_bits (vi_fmt vi)) (F s) in
       match t with
       | CSquare => weighed fin (square (Z.sqrt (zlength m)) m)
       | CHorizontal => weighed fin (horizontal m)
       | CVertical => weighed fin (vertical m)
       | CSeparable => fun x => weighed fin (horizontal m) (weighed fin (vertical m) x)
       end) src r.
Proof.
  intros t vi a d al g t0 src PI G E FT DV p. pose proof (good_created _ _ _ _ _ _ G E) as C. pose proof (good_kind _ _ _ _ _ _ G E) as (K & B).
  destruct (cr_conv _ _ _ _ C t eq_refl) as (MO & CO & RD & BF & BS & _). fold p in CO, RD, BF, BS.
  destruct (coefsOf_spec _ _ CO) as (LM & _).
  assert (DF : isFin (g_div p) = true) by (apply (rdivOf_fin _ _ _ LM DV RD)).
  destruct (finish_total _ p K (conj DF (conj BF BS))) as (F & FN).
  destruct G as (AL & WF & BY & BE & W & H).
  destruct (generic_frame (OpConv t) vi a d F (fun x _ => x) al g t0 src AL PI E WF BY BE W H) as (r & R1 & R2); auto.
  - discriminate.
  - exists (g_matrix p), F, r. split; [exact CO|]. split; [exact FN|]. split; [exact R1|]. destruct t; exact R2.
Qed.

(** With divisor 1 and bias 0 the result is the exact weighted sum. *)
Theorem convolution_exact : forall k g F s, smallk k -> finishes k g F -> g_div g = of32 1 0 -> g_bias g = of32 0 0 -> Z.abs s < 2 ^ 24 ->
  F s = Z.min (256 ^ k - 1) (Z.max 0 (if g_sat g then s else Z.abs s)).
Proof.
  intros k g F s K FN D B S. destruct (FN s ltac:(lia)) as (E & _). rewrite finish_unit in E by assumption. apply Ok_inj in E. symmetry. exact E.
Qed.

(** ** Gradients *)

Theorem gradient_frame : forall (sobel : bool) vi a d al g t0 src, Forall (fun o => in_int o) (ga_planes a) -> goodSource al vi src ->
  let op := if sobel then OpSobel else OpPrewitt in let c := if sobel then 2 else 1 in
  genericCreate op vi a = Ok d -> fitting op a d src ->
  exists G r, gradients (f_bytes (vi_fmt vi)) (gd_params d) G /\ G 0 0 = 0 /\
    (forall gx gy, G gx gy = G gy gx /\ G (- gx) gy = G gx gy /\ G gx (- gy) = G gx gy /\ 0 <= G gx gy) /\
    genericGetFrame al g t0 d src = Ok r /\
    filtered al (ga_planes a) (local (fun l => legal (f_bits (vi_fmt vi)) (G (gradV c l) (gradH c l)))) src r.
Proof.
  intros sobel vi a d al g t0 src PI GS op c E FT. pose proof (good_created _ _ _ _ _ _ GS E) as C. pose proof (good_kind _ _ _ _ _ _ GS E) as (K & B).
  destruct (cr_scale _ _ _ _ C ltac:(subst op; destruct sobel; reflexivity)) as (SC & _).
  set (k := f_bytes (vi_fmt vi)) in *. set (p := gd_params d) in *.
  set (G := fun gx gy => match gradLen k p gx gy with Ok v => Z.max 0 v | _ => 0 end).
  assert (GR : gradients k p G).
  { intros gx gy X Y. destruct (gradLen_total k p gx gy K SC X Y) as (v & V & R). unfold G. rewrite V. f_equal. lia. }
  destruct GS as (AL & WF & BY & BE & W & H).
  destruct (generic_frame op vi a d (fun x => x) G al g t0 src AL PI E WF BY BE W H) as (r & R1 & R2); auto.
  - subst op. destruct sobel; discriminate.
  - exists G, r. split; [exact GR|]. split. { unfold G. rewrite gradLen_flat by assumption. reflexivity. }
    split. { intros gx gy. unfold G. destruct (gradLen_sym k p gx gy) as (S1 & S2 & S3). split; [rewrite S1; reflexivity|]. split; [rewrite S2; reflexivity|].
             split; [rewrite S3; reflexivity|]. destruct (gradLen k p gx gy); lia. }
    split; [exact R1|]. subst op c. destruct sobel; exact R2.
Qed.

(** Turned and mirrored pictures have turned and mirrored gradients; flat ones have none. *)
Lemma edge_flip : forall n i, 0 < n -> edge n (n - 1 - i) = n - 1 - edge n i.
Proof. intros n i N. unfold edge. lia. Qed.

Definition turn9 (f : Z * Z -> Z * Z) (l : list Z) : list Z := map (fun d => at3 l (fst (f d)) (snd (f d))) offsets.

Lemma around_flipH : forall a x y, 0 < i_w a -> around (flipH a) x y = turn9 (fun d => (- fst d, snd d)) (around a (i_w a - 1 - x) y).
Proof.
  intros a x y W. unfold around, turn9, offsets. cbn [map fst snd flipH i_w i_h i_at].
  unfold at3. cbn [Z.opp Z.add Z.mul Pos.mul Pos.add Z.pos_sub Z.to_nat Pos.to_nat Pos.iter_op Nat.add nth Pos.succ].
  assert (Q : forall i j, i = - j -> edge (i_w a) (i_w a - 1 - x + i) = i_w a - 1 - edge (i_w a) (x + j)).
  { intros i j ->. rewrite <- edge_flip by exact W. f_equal. lia. }
  rewrite (Q 1 (-1) eq_refl), (Q (-1) 1 eq_refl), (Q 0 0 eq_refl). reflexivity.
Qed.
Lemma around_flipV : forall a x y, 0 < i_h a -> around (flipV a) x y = turn9 (fun d => (fst d, - snd d)) (around a x (i_h a - 1 - y)).
Proof.
  intros a x y W. unfold around, turn9, offsets. cbn [map fst snd flipV i_w i_h i_at].
  unfold at3. cbn [Z.opp Z.add Z.mul Pos.mul Pos.add Z.pos_sub Z.to_nat Pos.to_nat Pos.iter_op Nat.add nth Pos.succ].
  assert (Q : forall i j, i = - j -> edge (i_h a) (i_h a - 1 - y + i) = i_h a - 1 - edge (i_h a) (y + j)).
  { intros i j ->. rewrite <- edge_flip by exact W. f_equal. lia. }
  rewrite (Q 1 (-1) eq_refl), (Q (-1) 1 eq_refl), (Q 0 0 eq_refl). reflexivity.
Qed.
Lemma around_transposed : forall a x y, around (transposed a) x y = turn9 (fun d => (snd d, fst d)) (around a y x).
Proof.
  intros a x y. unfold around, turn9, offsets. cbn [map fst snd transposed i_w i_h i_at].
  unfold at3. cbn [Z.opp Z.add Z.mul Pos.mul Pos.add Z.pos_sub Z.to_nat Pos.to_nat Pos.iter_op Nat.add nth Pos.succ]. reflexivity.
Qed.

Lemma gradV_list : forall c s0 s1 s2 s3 s4 s5 s6 s7 s8, gradV c [s0; s1; s2; s3; s4; s5; s6; s7; s8] = (s6 + c * s7 + s8) - (s0 + c * s1 + s2).
Proof. reflexivity. Qed.
Lemma gradH_list : forall c s0 s1 s2 s3 s4 s5 s6 s7 s8, gradH c [s0; s1; s2; s3; s4; s5; s6; s7; s8] = (s2 + c * s5 + s8) - (s0 + c * s3 + s6).
Proof. reflexivity. Qed.
Lemma grad_turned : forall c l, zlength l = 9 ->
  (gradV c (turn9 (fun d => (- fst d, snd d)) l) = gradV c l /\ gradH c (turn9 (fun d => (- fst d, snd d)) l) = - gradH c l) /\
  (gradV c (turn9 (fun d => (fst d, - snd d)) l) = - gradV c l /\ gradH c (turn9 (fun d => (fst d, - snd d)) l) = gradH c l) /\
  (gradV c (turn9 (fun d => (snd d, fst d)) l) = gradH c l /\ gradH c (turn9 (fun d => (snd d, fst d)) l) = gradV c l).
Proof.
  intros c l L.
  destruct l as [|s0 [|s1 [|s2 [|s3 [|s4 [|s5 [|s6 [|s7 [|s8 [|? ?]]]]]]]]]]; try (unfold zlength in L; cbn [length] in L; lia).
  change (turn9 (fun d => (- fst d, snd d)) [s0; s1; s2; s3; s4; s5; s6; s7; s8]) with [s2; s1; s0; s5; s4; s3; s8; s7; s6].
  change (turn9 (fun d => (fst d, - snd d)) [s0; s1; s2; s3; s4; s5; s6; s7; s8]) with [s6; s7; s8; s3; s4; s5; s0; s1; s2].
  change (turn9 (fun d => (snd d, fst d)) [s0; s1; s2; s3; s4; s5; s6; s7; s8]) with [s0; s3; s6; s1; s4; s7; s2; s5; s8].
  rewrite !gradV_list, !gradH_list. repeat split; ring.
Qed.

Definition symmetric (G : Z -> Z -> Z) : Prop := forall gx gy, G gx gy = G gy gx /\ G (- gx) gy = G gx gy /\ G gx (- gy) = G gx gy.
Definition gradientOf (c : Z) (fin : Z -> Z) (G : Z -> Z -> Z) : image -> image := local (fun l => fin (G (gradV c l) (gradH c l))).

Theorem gradient_symmetric : forall c fin G a, symmetric G -> 0 < i_w a -> 0 < i_h a ->
  same (gradientOf c fin G (flipH a)) (flipH (gradientOf c fin G a)) /\
  same (gradientOf c fin G (flipV a)) (flipV (gradientOf c fin G a)) /\
  same (gradientOf c fin G (transposed a)) (transposed (gradientOf c fin G a)).
Proof.
  intros c fin G a S W H. assert (AL : forall x y, zlength (around a x y) = 9) by reflexivity.
  split; [|split]; (split; [reflexivity|]; split; [reflexivity|]); intros x y X Y; unfold gradientOf; cbn [local i_at i_w i_h flipH flipV transposed].
  - rewrite around_flipH by exact W. destruct (grad_turned c _ (AL (i_w a - 1 - x) y)) as ((-> & ->) & _).
    destruct (S (gradV c (around a (i_w a - 1 - x) y)) (gradH c (around a (i_w a - 1 - x) y))) as (_ & _ & ->). reflexivity.
  - rewrite around_flipV by exact H. destruct (grad_turned c _ (AL x (i_h a - 1 - y))) as (_ & (-> & ->) & _).
    destruct (S (gradV c (around a x (i_h a - 1 - y))) (gradH c (around a x (i_h a - 1 - y)))) as (_ & -> & _). reflexivity.
  - rewrite around_transposed. destruct (grad_turned c _ (AL y x)) as (_ & _ & (-> & ->)).
    destruct (S (gradH c (around a y x)) (gradV c (around a y x))) as (-> & _). reflexivity.
Qed.

Theorem gradient_flat : forall c l v, l = repeat v 9 -> gradV c l = 0 /\ gradH c l = 0.
Proof.
  intros c l v ->. cbn [repeat]. rewrite gradV_list, gradH_list. split; ring.
Qed.

(** Edge detection along one axis: a vertical edge of height v has a purely horizontal gradient. *)
Theorem gradient_edge : forall c l (f : Z -> Z), l = map (fun d => f (fst d)) offsets -> gradV c l = 0 /\ gradH c l = (2 + c) * (f 1 - f (-1)).
Proof.
  intros c l f ->. unfold offsets. cbn [map fst]. rewrite gradV_list, gradH_list. split; ring.
Qed.

(** ** Calls that do not survive *)

Definition noArgs : gargs := mkGA [] None None None [] None None None None.
Definition conv3 (m : list Z) (div : option fl) : gargs := mkGA [] None None None (map num m) None None div None.
Definition anyPow (x _ : fl) : fl := x.

Lemma range_below_accepted : rangeArgs gray8 RangeLower [of64 (-5) (-2)] = Ok [0; 0; 0].
Proof. vm_compute. reflexivity. Qed.
Lemma range_nan : limitCreate gray8 [] [S754_nan] [] = UB.
Proof. vm_compute. reflexivity. Qed.
Lemma range_huge : limitCreate gray8 [] [of64 1 63] [] = UB.
Proof. vm_compute. reflexivity. Qed.

(** A divisor of 2^-140: its reciprocal is infinite, and a black pixel times it is not a number. *)
Definition tinyDivisor : gargs := conv3 [1; 1; 1; 1; 1; 1; 1; 1; 1] (Some (of64 1 (-140))).
Lemma tiny_divisor : exists d, genericCreate (OpConv CSquare) (viOf gray8 4 4) tinyDivisor = Ok d /\
  genericGetFrame 32 (fun _ _ => 0) (fun _ => 0) d (drawn 32 gray8 4 4 (fun _ _ _ => 0)) = UB.
Proof.
  assert (H : match genericCreate (OpConv CSquare) (viOf gray8 4 4) tinyDivisor with
    | Ok d => match genericGetFrame 32 (fun _ _ => 0) (fun _ => 0) d (drawn 32 gray8 4 4 (fun _ _ _ => 0)) with UB => true | _ => false end
    | _ => false end = true) by (vm_compute; reflexivity).
  destruct (genericCreate (OpConv CSquare) (viOf gray8 4 4) tinyDivisor) as [d| |]; try discriminate. exists d. split; [reflexivity|].
  destruct (genericGetFrame _ _ _ _ _); try discriminate. reflexivity.
Qed.

(** A reflected column of a plane of 2^30 columns. *)
Lemma mirror_overflow : mirrorIndex (2 ^ 30) (2 ^ 30) = UB.
Proof. vm_compute. reflexivity. Qed.

(** An output range of -3e38 .. 3e38: its width is infinite, and the darkest sample gives 0 * infinity. *)
Definition wideLevels : levels := mkLv (of32 0 0) (of32 255 0) (of32 (-15) 124) (of32 15 124) (of32 1 0).
Lemma wide_levels : levelsCheck wideLevels = true /\ levelsCreate anyPow gray8 [] (fun _ => wideLevels) = UB.
Proof. vm_compute. split; reflexivity. Qed.
