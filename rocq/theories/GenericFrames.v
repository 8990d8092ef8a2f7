(** The neighbourhood filters on frames. *)
From Coq Require Import ZArith List Lia Bool.
From Coq Require Import SpecFloat.
From Verif Require Import Common FormatSpec Format Frame FrameSpec FrameGeom ImageSpec PlaneMem Spatial SpatialLemmas SpatialStack FrameFacts.
From Verif Require Import PixelSpec Pixel PixelLemmas Lut LutLemmas LutFrames.
From Verif Require Import Soft SoftLemmas SoftBounds GenericCast GenericSpec Generic GenericLemmas GenericMedian GenericOps GenericPlanes GenericFloat.
Import ListNotations.
Open Scope Z_scope.

(** ** Arguments *)

Lemma thresholdOf_range : forall bits t v, 0 <= bits -> thresholdOf bits t = Ok v -> 0 <= v < 2 ^ bits.
Proof.
  intros bits t v B E. assert (0 < 2 ^ bits) by (apply Z.pow_pos_nonneg; lia). unfold thresholdOf in E. destruct t as [x|].
  - destruct (negb (isFin (to32 x))); [discriminate|]. destruct (floatToInt64S (to32 x)) as [i| |]; unfold obind in E; try discriminate.
    destruct (Z.ltb_spec i 0); [discriminate|]. destruct (Z.ltb_spec (2 ^ bits - 1) i); [discriminate|]. apply Ok_inj in E. subst v. lia.
  - apply Ok_inj in E. subst v. lia.
Qed.

Definition selected (l : list Z) : list bool := map (fun v => negb (v =? 0)) l.

Lemma enableBits_bit : forall l i j, 0 <= i -> 0 <= j ->
  Z.testbit (enableBits i l) j = (i <=? j) && (match nthz l (j - i) with Some v => negb (v =? 0) | None => false end).
Proof.
  induction l as [|v l IH]; intros i j I J.
  - cbn [enableBits]. rewrite Z.bits_0. unfold nthz. destruct (j - i <? 0); [rewrite andb_false_r; reflexivity|].
    destruct (Z.to_nat (j - i)); rewrite andb_false_r; reflexivity.
  - cbn [enableBits]. rewrite Z.lor_spec, IH by lia. destruct (Z.eq_dec j i) as [->|N].
    + rewrite Z.sub_diag, nthz_cons_0. destruct (Z.leb_spec (i + 1) i); [lia|]. destruct (Z.leb_spec i i); [|lia]. cbn [andb]. rewrite orb_false_r.
      destruct (v =? 0); cbn [negb]; [apply Z.bits_0 | apply Z.pow2_bits_true; lia].
    + assert (B : Z.testbit (if v =? 0 then 0 else 2 ^ i) j = false) by (destruct (v =? 0); [apply Z.bits_0 | apply Z.pow2_bits_false; lia]).
      rewrite B. cbn [orb]. destruct (Z.leb_spec (i + 1) j); destruct (Z.leb_spec i j); try (exfalso; lia); try reflexivity.
      cbn [andb]. rewrite nthz_cons_S by lia. replace (j - (i + 1)) with (j - i - 1) by lia. reflexivity.
Qed.

Lemma maskOf_enable : forall l, zlength l = 8 -> maskOf (enableBits 0 l) = selected l.
Proof.
  intros l L. unfold maskOf, selected. apply nthz_ext; [rewrite !zlength_map, zlength_zseq; lia|].
  intros i I. rewrite zlength_map, zlength_zseq in I. rewrite !nthz_map.
  rewrite nthz_zseq by lia. cbn [option_map]. rewrite enableBits_bit by lia. rewrite Z.sub_0_r.
  destruct (Z.leb_spec 0 i); [|lia]. cbn [andb]. destruct (nthz l i) eqn:E; [reflexivity|].
  exfalso. apply nthz_None_iff in E. lia.
Qed.

Lemma coefsOf_spec : forall l m, coefsOf l = Ok m -> legalMatrix m /\ zlength m = zlength l /\
  Forall (fun c => isFin c = true) l /\ m = map roundZ l.
Proof.
  induction l as [|c l IH]; intros m E; cbn [coefsOf] in E.
  - apply Ok_inj in E. subst m. split; [apply Forall_nil|]. split; [reflexivity|]. split; [apply Forall_nil | reflexivity].
  - destruct (isFin c) eqn:F; cbn [negb] in E; [|discriminate]. cbv zeta in E.
    destruct (Z.ltb_spec (roundZ c) (-1023)); [discriminate|]. destruct (Z.ltb_spec 1023 (roundZ c)); [discriminate|]. cbn [orb] in E.
    destruct (coefsOf l) as [s| |]; unfold obind in E; try discriminate. apply Ok_inj in E. subst m.
    destruct (IH s eq_refl) as (I1 & I2 & I3 & I4). split; [apply Forall_cons; [lia | exact I1]|].
    split; [rewrite !zlength_cons; lia|]. split; [apply Forall_cons; assumption|]. cbn [map]. f_equal. exact I4.
Qed.

Lemma to32_short : forall x, isFin (to32 x) = true -> short 24 (to32 x).
Proof. intros [s|s| |s m e] F; try discriminate; cbn [to32] in *; [exact I | apply round_short; lia]. Qed.

(** Divisors that are normal numbers have a finite reciprocal; so has the default divisor. *)
Definition normal (x : fl) : Prop := match x with S754_finite _ m e => -125 <= Zdigits2 (Z.pos m) + e | _ => False end.
Definition divisorOk (divisor : option fl) : Prop :=
  match divisor with None => True | Some x => match to32 x with S754_zero _ => True | y => normal y end end.

Lemma recip_normal : forall x, normal x -> isFin (div32 (of32 1 0) x) = true.
Proof.
  intros [s|s| |s m e] N; try contradiction. change (of32 1 0) with (S754_finite false 8388608 (-23)). unfold normal in N.
  assert (B : expLe 24 (103 + 1) (div32 (S754_finite false 8388608 (-23)) (S754_finite s m e))).
  { unfold div32. apply (div_exp 24 128 ltac:(lia) false 8388608 (-23) s m e 103); [reflexivity | | unfold emin, SpecFloat.emin; lia | lia].
    change (Zdigits2 8388608) with 24. lia. }
  apply (expLe_fin 24 104). exact B.
Qed.

Lemma rdivOf_fin : forall m divisor d, legalMatrix m -> divisorOk divisor -> rdivOf m divisor = Ok d -> isFin d = true.
Proof.
  intros m divisor d LM DV E. unfold rdivOf in E. cbv zeta in E.
  set (sum0 := fold_left (fun s c => add32 s (of32 c 0)) m (of32 0 0)) in E.
  assert (SH : short 24 sum0).
  { assert (G : forall l s, short 24 s -> legalMatrix l -> short 24 (fold_left (fun s c => add32 s (of32 c 0)) l s)).
    { induction l as [|c l IH]; intros s S L; [exact S|]. cbn [fold_left]. inversion L as [|x y L1 L2]; subst. apply IH; [|exact L2].
      apply add_short; [lia | exact S | apply normalize_short; lia | apply of32_fin; lia]. }
    apply G; [exact I | exact LM]. }
  assert (SN : match sum0 with S754_nan => False | S754_infinity _ => True | _ => SFltb (SFabs sum0) eps32 = true \/ normal sum0 end).
  { destruct sum0 as [s|s| |s m0 e]; [left; reflexivity | exact I | exact SH |].
    destruct (SFltb (SFabs (S754_finite s m0 e)) eps32) eqn:Q; [left; reflexivity|]. right. unfold normal.
    change eps32 with (S754_finite false 8388608 (-46)) in Q. unfold SFltb in Q. cbn [SFabs SFcompare] in Q.
    assert (D : 1 <= Zdigits2 (Z.pos m0)) by (cbn [Zdigits2]; lia).
    destruct (e ?= -46) eqn:C; [apply Z.compare_eq_iff in C; lia | discriminate | apply Z.compare_gt_iff in C; lia]. }
  set (sum := if SFltb (SFabs sum0) eps32 then of32 1 0 else sum0) in E.
  assert (RS : isFin (div32 (of32 1 0) sum) = true).
  { unfold sum. destruct (SFltb (SFabs sum0) eps32) eqn:Q; [reflexivity|].
    destruct sum0 as [s|s| |s m0 e]; [discriminate Q | reflexivity | contradiction |].
    destruct SN as [SN|SN]; [discriminate SN | apply recip_normal; exact SN]. }
  unfold divisorOk in DV. destruct divisor as [x|].
  - destruct (isFin (to32 x)) eqn:F; cbn [negb] in E; [|discriminate]. apply Ok_inj in E. subst d.
    destruct (to32 x) as [s|s| |s m0 e]; try discriminate F; [exact RS | apply recip_normal; exact DV].
  - cbn [isFin] in E. change (of32 0 0) with (S754_zero false) in E. cbn [isFin negb] in E. apply Ok_inj in E. subst d. exact RS.
Qed.

(** ** Creation *)

Definition fitsDims (op : gop) (elements : Z) (process : Z -> bool) (f : vfmt) (w h : Z) : Prop :=
  forall i, 0 <= i < f_np f -> process i = true -> checkPlaneDims op elements (planeW f w i) (planeH f h i) = true.

Lemma fits_forallb : forall op n process f w h, fmt_valid f ->
  forallb (fun i => negb (process i) || checkPlaneDims op n (getWidth f w i) (getHeight f h i)) (zseq (f_np f)) = true <->
  fitsDims op n process f w h.
Proof.
  intros op n process f w h V. rewrite forallb_forall. unfold fitsDims. split.
  - intros H i I PR. specialize (H i (proj2 (In_zseq _ _) I)). rewrite PR in H. cbn [negb orb] in H. rewrite getWidth_planeW, getHeight_planeH in H by exact V. exact H.
  - intros H i I. apply In_zseq in I. destruct (process i) eqn:PR; [|reflexivity]. cbn [negb orb]. rewrite getWidth_planeW, getHeight_planeH by exact V. apply H; assumption.
Qed.

Record created (op : gop) (vi : vinfo) (a : gargs) (d : genericData) : Prop := {
  cr_op : gd_op d = op; cr_vi : gd_vi d = vi;
  cr_int : f_st (vi_fmt vi) = stInteger; cr_bits : f_bits (vi_fmt vi) <= 16;
  cr_planes : getPlanesArg (ga_planes a) = Some (gd_process d);
  cr_max : g_maxval (gd_params d) = 2 ^ f_bits (vi_fmt vi) - 1;
  cr_sat : g_sat (gd_params d) = match ga_saturate a with Some v => negb (v =? 0) | None => true end;
  cr_th : isThresholded op = true -> thresholdOf (f_bits (vi_fmt vi)) (ga_threshold a) = Ok (g_th (gd_params d));
  cr_mask : isMinMax op = true -> maskOf (g_stencil (gd_params d)) = match ga_coordinates a with Some l => selected l | None => repeat true 8 end;
  cr_scale : isGradient op = true -> isFin (g_scale (gd_params d)) = true /\
     g_scale (gd_params d) = match ga_scale a with Some x => to32 x | None => of32 1 0 end;
  cr_conv : forall t, op = OpConv t -> matrixOk t (zlength (ga_matrix a)) = true /\ coefsOf (ga_matrix a) = Ok (g_matrix (gd_params d)) /\
     rdivOf (g_matrix (gd_params d)) (ga_divisor a) = Ok (g_div (gd_params d)) /\ isFin (g_bias (gd_params d)) = true /\ short 24 (g_bias (gd_params d)) /\
     g_bias (gd_params d) = match ga_bias a with Some x => to32 x | None => of32 0 0 end;
  cr_fits : vi_w vi <> 0 -> vi_h vi <> 0 -> fitsDims op (g_size (gd_params d)) (gd_process d) (vi_fmt vi) (vi_w vi) (vi_h vi) }.

Lemma create_inv : forall op vi a d, fmt_valid (vi_fmt vi) -> genericCreate op vi a = Ok d -> created op vi a d.
Proof.
  intros op vi a d V E. unfold genericCreate in E. cbv zeta in E.
  destruct (f_cf (vi_fmt vi) =? cfUndefined); cbn [orb] in E; [discriminate|].
  destruct (Z.eqb_spec (f_st (vi_fmt vi)) stInteger) as [ST|]; cbn [negb orb] in E; [|discriminate].
  destruct (Z.ltb_spec 16 (f_bits (vi_fmt vi))) as [|BI]; [discriminate|].
  destruct (getPlanesArg (ga_planes a)) as [process|] eqn:GP; [|discriminate].
  set (TH := if isThresholded op then thresholdOf (f_bits (vi_fmt vi)) (ga_threshold a) else Ok 0) in E.
  destruct TH as [th| |] eqn:TE; unfold obind in E at 1; try discriminate.
  set (EN := if isMinMax op then match ga_coordinates a with None => Ok 255 | Some l => if zlength l =? 8 then Ok (enableBits 0 l) else Err end else Ok 0) in E.
  destruct EN as [en| |] eqn:EE; unfold obind in E at 1; try discriminate.
  set (SC := if isGradient op then _ else Ok (of32 0 0)) in E.
  destruct SC as [sc| |] eqn:SE; unfold obind in E at 1; try discriminate.
  set (MD := match op with OpConv t => _ | _ => Ok ([], of32 0 0, of32 0 0) end) in E.
  destruct MD as [((m & dv) & bias)| |] eqn:ME; unfold obind in E at 1; try discriminate. cbv beta iota in E.
  match type of E with (if ?c then _ else _) = _ => destruct c eqn:FC; [discriminate|] end.
  apply Ok_inj in E. subst d. constructor; cbn [gd_op gd_vi gd_process gd_params g_maxval g_scale g_th g_stencil g_matrix g_div g_bias g_sat]; auto.
  - intros Q. subst TH. rewrite Q in TE. exact TE.
  - intros Q. subst EN. rewrite Q in EE. destruct (ga_coordinates a) as [l|].
    + destruct (Z.eqb_spec (zlength l) 8); [|discriminate]. apply Ok_inj in EE. subst en. apply maskOf_enable. assumption.
    + apply Ok_inj in EE. subst en. reflexivity.
  - intros Q. subst SC. rewrite Q in SE. destruct (ga_scale a) as [x|].
    + destruct (isFin (to32 x)) eqn:F; cbn [negb orb] in SE; [|discriminate]. destruct (SFltb (to32 x) (of32 0 0)); [discriminate|].
      apply Ok_inj in SE. subst sc. split; [exact F | reflexivity].
    + apply Ok_inj in SE. subst sc. split; reflexivity.
  - intros t ->. subst MD. set (b0 := match ga_bias a with Some x => to32 x | None => of32 0 0 end) in *.
    destruct (isFin b0) eqn:BF; cbn [negb] in ME; [|discriminate].
    destruct (matrixOk t (zlength (ga_matrix a))); cbn [negb] in ME; [|discriminate].
    destruct (coefsOf (ga_matrix a)) as [m'| |]; unfold obind in ME at 1; try discriminate.
    destruct (rdivOf m' (ga_divisor a)) as [d'| |] eqn:RD; unfold obind in ME; try discriminate.
    apply Ok_inj in ME. injection ME as <- <- <-. split; [reflexivity|]. split; [reflexivity|]. split; [exact RD|]. split; [exact BF|].
    split; [|reflexivity]. unfold b0 in *. destruct (ga_bias a); [apply to32_short; exact BF | exact I].
  - intros W0 H0. destruct (Z.eqb_spec (vi_w vi) 0); [contradiction|]. destruct (Z.eqb_spec (vi_h vi) 0); [contradiction|]. cbn [negb andb] in FC.
    apply negb_false_iff in FC. apply fits_forallb in FC; [|exact V]. exact FC.
Qed.

(** ** Frames *)

(** What the filters show, given the functions that finish sums ([F]) and gradients ([G]). *)
Definition meant (op : gop) (bits : Z) (p : gparams) (F : Z -> Z) (G : Z -> Z -> Z) : image -> image :=
  match op with
  | OpPrewitt => local (fun l => legal bits (G (gradV 1 l) (gradH 1 l)))
  | OpSobel => local (fun l => legal bits (G (gradV 2 l) (gradH 2 l)))
  | OpMinimum => local (fun l => legal bits (minimumOf (maskOf (g_stencil p)) (g_th p) l))
  | OpMaximum => local (fun l => legal bits (maximumOf (maskOf (g_stencil p)) (g_th p) l))
  | OpMedian => local (fun l => legal bits (fifth l))
  | OpDeflate => local (fun l => legal bits (deflateOf (g_th p) l))
  | OpInflate => local (fun l => legal bits (inflateOf (g_th p) l))
  | OpConv CSquare => weighed (fun s => legal bits (F s)) (square (Z.sqrt (g_size p)) (g_matrix p))
  | OpConv CHorizontal => weighed (fun s => legal bits (F s)) (horizontal (g_matrix p))
  | OpConv CVertical => weighed (fun s => legal bits (F s)) (vertical (g_matrix p))
  | OpConv CSeparable => fun a => weighed (fun s => legal bits (F s)) (horizontal (g_matrix p)) (weighed (fun s => legal bits (F s)) (vertical (g_matrix p)) a)
  end.

Definition gradients (k : Z) (p : gparams) (G : Z -> Z -> Z) : Prop :=
  forall gx gy, Z.abs gx < 2 ^ 24 -> Z.abs gy < 2 ^ 24 -> gradLen k p gx gy = Ok (G gx gy).

Lemma kernel_spec : forall op vi a d F G t0 src w h dst, fmt_valid (vi_fmt vi) -> created op vi a d ->
  let k := f_bytes (vi_fmt vi) in let p := gd_params d in
  (forall t, op = OpConv t -> finishes k p F) -> (isGradient op = true -> gradients k p G) ->
  1 <= w < 2 ^ 30 -> 1 <= h < 2 ^ 30 -> checkPlaneDims op (g_size p) w h = true ->
  wfPlane k src w h -> wfPlane k dst w h -> byteBuf src ->
  exists m, kernelOf op k p t0 src w h dst = Ok m /\ b_size m = b_size (p_buf dst) /\
    same (imageOf k (mkPl (p_stride dst) m) w h) (meant op (f_bits (vi_fmt vi)) p F G (imageOf k src w h)).
Proof.
  intros op vi a d F G t0 src w h dst V C k p FN GR W H CK WS WD B.
  destruct (bytes_of _ V) as (B1 & B2 & B3 & B4). destruct C as [C1 C2 C3 C4 C5 C6 C7 C8 C9 C10 C11 C12].
  fold p in C6, C8, C9, C10, C11. fold k in B1, B2, B3. specialize (B3 C4).
  assert (K : smallk k) by (unfold smallk; lia). pose proof (smallk_pow k K) as PK.
  assert (MX : 0 <= g_maxval p < 256 ^ k).
  { rewrite C6. assert (2 ^ 8 <= 2 ^ f_bits (vi_fmt vi)) by (apply Z.pow_le_mono_r; lia).
    assert (2 ^ f_bits (vi_fmt vi) <= 2 ^ (8 * k)) by (apply Z.pow_le_mono_r; lia). rewrite Z.pow_mul_r in * by (unfold smallk in K; lia). change (2 ^ 8) with 256 in *. lia. }
  assert (LG : forall v, Z.min v (g_maxval p) = legal (f_bits (vi_fmt vi)) v) by (intros v; unfold legal, top; rewrite C6; reflexivity).
  assert (TH : isThresholded op = true -> 0 <= g_th p < 256 ^ k).
  { intros Q. specialize (C8 Q). apply thresholdOf_range in C8; [|lia]. rewrite C6 in MX. lia. }
  assert (LOC : forall opf FF, (forall l, zlength l = 9 -> samples k l -> opf l = Ok (FF l) /\ 0 <= FF l < 256 ^ k) ->
     exists m, filter3x3 k (g_maxval p) opf src w h dst = Ok m /\ b_size m = b_size (p_buf dst) /\
       same (imageOf k (mkPl (p_stride dst) m) w h) (local (fun l => legal (f_bits (vi_fmt vi)) (FF l)) (imageOf k src w h))).
  { intros opf FF Q. destruct (filter3x3_spec k (g_maxval p) opf FF src w h dst K MX ltac:(lia) ltac:(lia) WS WD B Q) as (m & E & S & I).
    exists m. split; [exact E|]. split; [exact S|]. apply (same_trans _ _ _ I). split; [reflexivity|]. split; [reflexivity|].
    intros x y _ _. cbn [local i_at]. apply LG. }
  assert (WEI : forall s, (exists m, kernelOf op k p t0 src w h dst = Ok m /\ b_size m = b_size (p_buf dst) /\
       same (imageOf k (mkPl (p_stride dst) m) w h) (weighed (fun s => Z.min (F s) (g_maxval p)) s (imageOf k src w h))) ->
     exists m, kernelOf op k p t0 src w h dst = Ok m /\ b_size m = b_size (p_buf dst) /\
       same (imageOf k (mkPl (p_stride dst) m) w h) (weighed (fun s => legal (f_bits (vi_fmt vi)) (F s)) s (imageOf k src w h))).
  { intros s (m & E & S & I). exists m. split; [exact E|]. split; [exact S|]. apply (same_trans _ _ _ I). split; [reflexivity|]. split; [reflexivity|].
    intros x y _ _. cbn [weighed i_at]. apply LG. }
  destruct op as [ | | | | | | |t]; cbn [kernelOf meant].
  - apply LOC. intros l L S. specialize (C10 eq_refl). specialize (GR eq_refl).
    destruct (gradientOp_spec false k p l K (proj1 C10) L S) as (E & X & Y). rewrite E. split; [apply GR; assumption|].
    destruct (gradLen_total k p (gradV 1 l) (gradH 1 l) K (proj1 C10) X Y) as (v & Q & R). rewrite GR in Q by assumption. apply Ok_inj in Q. rewrite Q. exact R.
  - apply LOC. intros l L S. specialize (C10 eq_refl). specialize (GR eq_refl).
    destruct (gradientOp_spec true k p l K (proj1 C10) L S) as (E & X & Y). rewrite E. split; [apply GR; assumption|].
    destruct (gradLen_total k p (gradV 2 l) (gradH 2 l) K (proj1 C10) X Y) as (v & Q & R). rewrite GR in Q by assumption. apply Ok_inj in Q. rewrite Q. exact R.
  - apply LOC. intros l L S. destruct (minimumOp_spec k p l K (TH eq_refl) L S) as (E & R). rewrite E. split; [f_equal; lia | exact R].
  - apply LOC. intros l L S. apply maximumOp_spec; auto.
  - apply LOC. intros l L S. rewrite (medianOp_spec l L). split; [reflexivity|].
    unfold samples in S. rewrite Forall_forall in S. apply S. apply fifth_in. exact L.
  - apply LOC. intros l L S. apply (flateOp_spec false); auto.
  - apply LOC. intros l L S. apply (flateOp_spec true); auto.
  - destruct (C11 t eq_refl) as (MO & CO & RD & BF & BS & _). destruct (coefsOf_spec _ _ CO) as (LM & LL & _ & _). specialize (FN t eq_refl).
    assert (SZ : g_size p = zlength (ga_matrix a)) by (unfold g_size; exact LL). rewrite <- SZ in MO.
    assert (CKF : match t with CHorizontal | CSeparable => g_size p / 2 < w | _ => True end /\ match t with CVertical | CSeparable => g_size p / 2 < h | _ => True end).
    { revert CK. unfold checkPlaneDims. destruct ((w <? 4) || (h <? 4)); [discriminate|].
      destruct (Z.leb_spec w (g_size p / 2)); destruct (Z.leb_spec h (g_size p / 2)); destruct t; cbn [andb]; intros; try discriminate; split; try exact I; lia. }
    assert (L1 : t <> CSquare -> 3 <= g_size p <= 25 /\ Z.odd (g_size p) = true).
    { intros N. destruct t; [contradiction| | |]; cbn [matrixOk] in MO; rewrite !andb_true_iff, !Z.leb_le in MO; tauto. }
    destruct t.
    + apply WEI. cbn [kernelOf matrixOk] in *. rewrite !orb_true_iff, !Z.eqb_eq in MO.
      destruct (Z.eqb_spec (g_size p) 9) as [N|N9].
      * rewrite N. change (Z.sqrt 9) with 3.
        destruct (filter3x3_spec k (g_maxval p) (convOp k p) (fun l => F (sumL (map (fun cv : Z * Z => fst cv * snd cv) (combine (g_matrix p) l)))) src w h dst K MX ltac:(lia) ltac:(lia) WS WD B) as (m & E & S & I).
        { intros l L S. apply convOp_spec; auto. }
        exists m. split; [exact E|]. split; [exact S|]. apply (same_trans _ _ _ I). split; [reflexivity|]. split; [reflexivity|].
        intros x y X Y. cbn [local weighed i_at]. rewrite square3; [reflexivity | exact N | cbn; lia | cbn; lia | exact X | exact Y].
      * assert (SQ : exists n, (n = 5 \/ n = 7 \/ n = 9 \/ n = 11) /\ Z.sqrt (g_size p) = n /\ g_size p = n * n /\
          (if g_size p =? 25 then convSquare k 5 p src w h dst else if g_size p =? 49 then convSquare k 7 p src w h dst
           else if g_size p =? 81 then convSquare k 9 p src w h dst else convSquare k 11 p src w h dst) = convSquare k n p src w h dst).
        { destruct MO as [[[[N|N]|N]|N]|N]; try contradiction; rewrite N; [exists 5 | exists 7 | exists 9 | exists 11]; (split; [tauto|]; split; [reflexivity|]; split; reflexivity). }
        destruct SQ as (n & NN & -> & NS & ->). apply convSquare_spec; auto.
    + apply WEI. cbn [kernelOf]. destruct (L1 ltac:(discriminate)) as (L2 & L3).
      apply convH_spec; auto; try lia. split; [exact LM|]. split; [lia|]. split; [exact L3 | lia].
    + apply WEI. cbn [kernelOf]. destruct (L1 ltac:(discriminate)) as (L2 & L3).
      apply convV_spec; auto; try lia. split; [exact LM|]. split; [lia|]. split; [exact L3 | lia].
    + destruct (L1 ltac:(discriminate)) as (L2 & L3).
      destruct (convX_spec k p F t0 src w h dst K) as (m & E & S & I); auto; try lia.
      { split; [exact LM|]. split; [lia|]. split; [exact L3 | lia]. }
      { split; [exact LM|]. split; [lia|]. split; [exact L3 | lia]. }
      exists m. split; [exact E|]. split; [exact S|]. apply (same_trans _ _ _ I). split; [reflexivity|]. split; [reflexivity|].
      intros x y _ _. cbn [weighed i_at]. rewrite LG. f_equal. f_equal. unfold horizontal. cbn [weighed i_at i_w]. f_equal. apply map_ext. intros c. rewrite LG. reflexivity.
Qed.

(** The size of a plane is below that of the frame. *)
Lemma planeW_le : forall f w i, fmt_valid f -> 1 <= w -> planeW f w i <= w.
Proof.
  intros f w i V W. pose proof (valid_ss f V) as (S & _). unfold planeW. destruct (i =? 0); [lia|].
  apply Z.div_le_upper_bound; [apply Z.pow_pos_nonneg; lia|]. assert (1 <= 2 ^ f_ssw f) by (pose proof (Z.pow_pos_nonneg 2 (f_ssw f)); lia). nia.
Qed.
Lemma planeH_le : forall f h i, fmt_valid f -> 1 <= h -> planeH f h i <= h.
Proof.
  intros f h i V W. pose proof (valid_ss f V) as (_ & S). unfold planeH. destruct (i =? 0); [lia|].
  apply Z.div_le_upper_bound; [apply Z.pow_pos_nonneg; lia|]. assert (1 <= 2 ^ f_ssh f) by (pose proof (Z.pow_pos_nonneg 2 (f_ssh f)); lia). nia.
Qed.

(** The source of a filter on a clip of constant format: of the clip's size unless that varies. *)
Definition belongs (s : vframe) (vi : vinfo) : Prop :=
  vf_fmt s = vi_fmt vi /\ (vi_w vi <> 0 -> vi_h vi <> 0 -> vf_w s = vi_w vi /\ vf_h s = vi_h vi).

Lemma dims_4 : forall op n w h, checkPlaneDims op n w h = true -> 4 <= w /\ 4 <= h.
Proof. intros op n w h E. unfold checkPlaneDims in E. destruct (Z.ltb_spec w 4); [discriminate|]. destruct (Z.ltb_spec h 4); [discriminate|]. lia. Qed.

Lemma generic_frame : forall op vi a d F G al g t0 src, alignment al -> Forall (fun o => in_int o) (ga_planes a) ->
  genericCreate op vi a = Ok d -> wfFrame al src -> byteFrame src -> belongs src vi -> vf_w src < 2 ^ 30 -> vf_h src < 2 ^ 30 ->
  let k := f_bytes (vi_fmt vi) in let p := gd_params d in
  (forall t, op = OpConv t -> finishes k p F) -> (isGradient op = true -> gradients k p G) ->
  fitsDims op (g_size p) (chosen (ga_planes a)) (vf_fmt src) (vf_w src) (vf_h src) ->
  exists r, genericGetFrame al g t0 d src = Ok r /\ wfFrame al r /\ vf_fmt r = vf_fmt src /\ vf_w r = vf_w src /\ vf_h r = vf_h src /\
    vf_props r = vf_props src /\
    planesMap (fun i x => if chosen (ga_planes a) i then meant op (f_bits (vi_fmt vi)) p F G x else x) src r.
Proof.
  intros op vi a d F G al g t0 src AL PI E WF BY (M1 & M2) W H k p FN GR FT. pose proof WF as (V & W1 & H1 & _).
  assert (A : isAl al) by (apply alignment_isAl; exact AL).
  assert (V' : fmt_valid (vi_fmt vi)) by (rewrite <- M1; exact V).
  pose proof (create_inv op vi a d V' E) as C.
  assert (PRC : forall i, 0 <= i < f_np (vf_fmt src) -> gd_process d i = chosen (ga_planes a) i).
  { intros i I. pose proof (valid_np _ V). apply getPlanesArg_chosen; [apply (cr_planes _ _ _ _ C) | exact PI | lia]. }
  unfold genericGetFrame. cbv zeta.
  assert (FB : forallb (fun i => negb (gd_process d i) || checkPlaneDims (gd_op d) (g_size (gd_params d)) (getWidth (vf_fmt src) (vf_w src) i) (getHeight (vf_fmt src) (vf_h src) i)) (zseq (f_np (vf_fmt src))) = true).
  { apply fits_forallb; [exact V|]. rewrite (cr_op _ _ _ _ C). intros i I PR. apply FT; [exact I|]. rewrite <- PRC by exact I. exact PR. }
  rewrite FB. cbn [negb]. rewrite andb_false_r.
  destruct (filterFrame_map al g (vf_fmt src) (vf_w src) (vf_h src) (gd_process d) src
     (fun i q => match nthz (vf_planes src) i with
         | Some p => kernelOf (gd_op d) (f_bytes (vf_fmt src)) (gd_params d) t0 p (getWidth (vf_fmt src) (vf_w src) i) (getHeight (vf_fmt src) (vf_h src) i) q
         | None => UB end)
     (fun _ => meant op (f_bits (vi_fmt vi)) p F G) A V WF eq_refl eq_refl eq_refl eq_refl eq_refl) as (r & R1 & R2 & R3 & R4 & R5 & R6 & R7).
  - reflexivity.
  - intros i pl q I PR NP WP SP WQ SQ. rewrite NP. rewrite getWidth_planeW, getHeight_planeH by exact V. rewrite (cr_op _ _ _ _ C).
    pose proof (FT i I ltac:(rewrite <- PRC by exact I; exact PR)) as CK. pose proof (dims_4 _ _ _ _ CK) as (D1 & D2).
    pose proof (planeW_le (vf_fmt src) (vf_w src) i V W1). pose proof (planeH_le (vf_fmt src) (vf_h src) i V H1).
    rewrite M1 in WP, WQ |- *. unfold k, p in *. rewrite M1 in CK, D1, D2, H0, H2.
    apply (kernel_spec op vi a d F G t0 pl); auto; try lia. exact (BY i pl NP).
  - exists r. split; [exact R1|]. split; [exact R2|]. split; [exact R3|]. split; [exact R4|]. split; [exact R5|]. split; [exact R6|].
    intros i I. destruct (R7 i I) as (x & y & X & Y & S). exists x, y. split; [exact X|]. split; [exact Y|]. rewrite <- PRC by (rewrite <- R3; exact I). exact S.
Qed.

(** Too small planes are refused: at creation, or per frame when the size varies. *)
Lemma generic_small : forall op vi a d al g t0 src, fmt_valid (vi_fmt vi) -> Forall (fun o => in_int o) (ga_planes a) ->
  genericCreate op vi a = Ok d -> wfFrame al src -> belongs src vi ->
  fitsDims op (g_size (gd_params d)) (chosen (ga_planes a)) (vf_fmt src) (vf_w src) (vf_h src) \/ genericGetFrame al g t0 d src = Err.
Proof.
  intros op vi a d al g t0 src V' PI E WF (M1 & M2). pose proof WF as (V & W1 & H1 & _).
  pose proof (create_inv op vi a d V' E) as C.
  assert (PRC : forall i, 0 <= i < f_np (vf_fmt src) -> gd_process d i = chosen (ga_planes a) i).
  { intros i I. pose proof (valid_np _ V). apply getPlanesArg_chosen; [apply (cr_planes _ _ _ _ C) | exact PI | lia]. }
  assert (TR : forall n w h, fitsDims op n (gd_process d) (vf_fmt src) w h -> fitsDims op n (chosen (ga_planes a)) (vf_fmt src) w h).
  { intros n w h Q i I PR. apply Q; [exact I|]. rewrite PRC by exact I. exact PR. }
  destruct (Z.eq_dec (vi_w vi) 0) as [Z1|Z1]; [|destruct (Z.eq_dec (vi_h vi) 0) as [Z2|Z2]].
  3:{ left. destruct (M2 Z1 Z2) as (-> & ->). apply TR. rewrite M1. apply (cr_fits _ _ _ _ C); assumption. }
  all: unfold genericGetFrame; cbv zeta; rewrite (cr_vi _ _ _ _ C), (cr_op _ _ _ _ C).
  all: set (c := forallb _ _); destruct c eqn:FB.
  1,3: left; apply TR; apply fits_forallb in FB; [exact FB | exact V].
  all: right; rewrite ?Z1, ?Z2; cbn [negb]; rewrite ?orb_true_r; reflexivity.
Qed.
