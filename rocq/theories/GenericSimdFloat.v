(** Finishing a float result: std::max, std::min and lrint of the scalar kernels against the
    conversion and the saturating packs of the vector kernels. *)
From Coq Require Import ZArith List Lia Bool.
From Coq Require Import SpecFloat.
From Verif Require Import Common PlaneMem Pixel Soft SoftLemmas SoftBounds SoftErr SoftLe Generic GenericOps GenericFloat Simd MergeSimdLemmas GenericSimd GenericSimdLanes.
Import Soft ListNotations.
Open Scope Z_scope.

(** ** Exact sums and products *)

Lemma floatOf_mul : forall s t x y, Z.pos x * Z.pos y < 2 ^ 24 -> mul32 (floatOf s x) (floatOf t y) = floatOf (xorb s t) (x * y).
Proof.
  intros s t x y B. destruct (floatOf_spec x ltac:(lia)) as (D1 & M1 & R1). destruct (floatOf_spec y ltac:(lia)) as (D2 & M2 & R2).
  destruct (floatOf_spec (x * y) ltac:(lia)) as (D3 & M3 & R3). unfold floatOf, mul32. cbn [SFmul].
  set (mx := fst (shl_align x 0 _)) in *. set (my := fst (shl_align y 0 _)) in *. set (mz := fst (shl_align (x * y) 0 _)) in *.
  assert (LO : Z.pos (digits2_pos x) + Z.pos (digits2_pos y) - 1 <= Z.pos (digits2_pos (x * y)) <= Z.pos (digits2_pos x) + Z.pos (digits2_pos y)).
  { pose proof (digits2_low x) as A1. pose proof (digits2_bound x) as A2. pose proof (digits2_low y) as B1. pose proof (digits2_bound y) as B2.
    pose proof (digits2_low (x * y)) as C1. pose proof (digits2_bound (x * y)) as C2. rewrite Pos2Z.inj_mul in C1, C2.
    set (dx := Z.pos (digits2_pos x)) in *. set (dy := Z.pos (digits2_pos y)) in *. set (dz := Z.pos (digits2_pos (x * y))) in *.
    assert (P1 : 2 ^ (dx - 1 + (dy - 1)) <= Z.pos x * Z.pos y) by (rewrite Z.pow_add_r by lia; apply Z.mul_le_mono_nonneg; lia).
    assert (P2 : Z.pos x * Z.pos y < 2 ^ (dx + dy)) by (rewrite Z.pow_add_r by lia; apply Z.mul_lt_mono_nonneg; lia).
    split.
    - destruct (Z_le_gt_dec (dx + dy - 1) dz) as [Q|Q]; [exact Q|]. assert (2 ^ dz <= 2 ^ (dx - 1 + (dy - 1))) by (apply Z.pow_le_mono_r; lia). lia.
    - destruct (Z_le_gt_dec dz (dx + dy)) as [Q|Q]; [exact Q|]. assert (2 ^ (dx + dy) <= 2 ^ (dz - 1)) by (apply Z.pow_le_mono_r; lia). lia. }
  set (dx := Z.pos (digits2_pos x)) in *. set (dy := Z.pos (digits2_pos y)) in *. set (dz := Z.pos (digits2_pos (x * y))) in *.
  replace (Z.pos (mx * my)) with (Z.pos mz * 2 ^ (24 - dx - dy + dz)).
  2:{ rewrite Pos2Z.inj_mul, M1, M2, M3, Pos2Z.inj_mul, <- Z.mul_assoc, <- Z.pow_add_r by lia.
      replace (24 - dz + (24 - dx - dy + dz)) with ((24 - dx) + (24 - dy)) by lia. rewrite Z.pow_add_r by lia. ring. }
  replace (dx - 24 + (dy - 24)) with (dz - 24 - (24 - dx - dy + dz)) by lia. apply round_aux_exact; lia.
Qed.

Lemma floatOf_add : forall x y, Z.pos x + Z.pos y < 2 ^ 24 -> add32 (floatOf false x) (floatOf false y) = floatOf false (x + y).
Proof.
  intros x y B. destruct (floatOf_spec x ltac:(lia)) as (D1 & M1 & R1). destruct (floatOf_spec y ltac:(lia)) as (D2 & M2 & R2).
  destruct (floatOf_spec (x + y) ltac:(lia)) as (D3 & M3 & R3). unfold floatOf, add32. cbn [SFadd].
  set (mx := fst (shl_align x 0 _)) in *. set (my := fst (shl_align y 0 _)) in *. set (mz := fst (shl_align (x + y) 0 _)) in *.
  assert (LO : Z.max (Z.pos (digits2_pos x)) (Z.pos (digits2_pos y)) <= Z.pos (digits2_pos (x + y))).
  { pose proof (digits2_low x) as A1. pose proof (digits2_low y) as B1. pose proof (digits2_bound (x + y)) as C2.
    destruct (Z_le_gt_dec (Z.max (Z.pos (digits2_pos x)) (Z.pos (digits2_pos y))) (Z.pos (digits2_pos (x + y)))) as [Q|Q]; [exact Q|]. exfalso.
    assert (2 ^ Z.pos (digits2_pos (x + y)) <= 2 ^ (Z.max (Z.pos (digits2_pos x)) (Z.pos (digits2_pos y)) - 1)) by (apply Z.pow_le_mono_r; lia).
    destruct (Z.max_spec (Z.pos (digits2_pos x)) (Z.pos (digits2_pos y))) as [(_ & E)|(_ & E)]; rewrite E in H; lia. }
  set (dx := Z.pos (digits2_pos x)) in *. set (dy := Z.pos (digits2_pos y)) in *. set (dz := Z.pos (digits2_pos (x + y))) in *.
  set (ez := Z.min (dx - 24) (dy - 24)).
  pose proof (shl_align_spec mx (dx - 24) ez) as (_ & SX). pose proof (shl_align_spec my (dy - 24) ez) as (_ & SY).
  rewrite Z.min_r in SX, SY by (unfold ez; lia).
  set (ax := fst (shl_align mx _ _)) in *. set (ay := fst (shl_align my _ _)) in *.
  change (cond_Zopp false (Z.pos ax) + cond_Zopp false (Z.pos ay)) with (Z.pos (ax + ay)). cbn [binary_normalize].
  assert (SM : Z.pos (ax + ay) = Z.pos mz * 2 ^ (dz - 24 - ez)).
  { rewrite Pos2Z.inj_add, SX, SY, M1, M2, M3, Pos2Z.inj_add, <- !Z.mul_assoc, <- !Z.pow_add_r by (unfold ez; lia).
    replace (24 - dx + (dx - 24 - ez)) with (- ez) by lia. replace (24 - dy + (dy - 24 - ez)) with (- ez) by lia.
    replace (24 - dz + (dz - 24 - ez)) with (- ez) by lia. ring. }
  assert (DG : Z.pos (digits2_pos (ax + ay)) = 24 + (dz - 24 - ez)).
  { change (Z.pos (digits2_pos (ax + ay))) with (Zdigits2 (Z.pos (ax + ay))). rewrite SM, Zdigits2_mul by (unfold ez; lia). f_equal.
    apply Z.le_antisymm; [apply Zdigits2_le; lia | apply full_digits; lia]. }
  unfold binary_round. rewrite DG. replace (fexp 24 128 (24 + (dz - 24 - ez) + ez)) with (dz - 24) by (unfold fexp, SpecFloat.emin; lia).
  pose proof (shl_align_spec (ax + ay) ez (dz - 24)) as (S1 & S2). destruct (shl_align (ax + ay) ez (dz - 24)) as (mq & eq). cbn [fst snd] in *.
  rewrite Z.min_l in S1, S2 by (unfold ez; lia). subst eq. rewrite Z.sub_diag, Z.pow_0_r, Z.mul_1_r in S2. rewrite S2, SM.
  replace ez with (dz - 24 - (dz - 24 - ez)) at 2 by lia. apply round_aux_exact; unfold ez; lia.
Qed.

Lemma squares_exact : forall x y, x * x + y * y < 2 ^ 24 ->
  add32 (mul32 (of32 x 0) (of32 x 0)) (mul32 (of32 y 0) (of32 y 0)) = of32 (x * x + y * y) 0.
Proof.
  assert (SQ : forall v, v * v < 2 ^ 24 -> mul32 (of32 v 0) (of32 v 0) = floatZ (v * v)).
  { intros v V. assert (Z.abs v < 2 ^ 24) by nia. rewrite of32_exact by assumption. destruct v as [|p|p]; [reflexivity| |]; cbn [floatZ].
    - rewrite floatOf_mul by exact V. reflexivity.
    - rewrite floatOf_mul by (change (Z.neg p * Z.neg p) with (Z.pos p * Z.pos p) in V; exact V). reflexivity. }
  intros x y B. rewrite (SQ x) by nia. rewrite (SQ y) by nia. rewrite of32_exact by nia.
  assert (X : 0 <= x * x) by nia. assert (Y : 0 <= y * y) by nia.
  destruct (x * x) as [|p|p]; [|destruct (y * y) as [|q|q]|lia]; [| |apply floatOf_add; exact B|lia].
  - cbn [floatZ Z.add]. destruct (y * y) as [|q|q]; [reflexivity | reflexivity | lia].
  - reflexivity.
Qed.

(** ** The clamp *)

Lemma mag_rne_low : forall m e B, 0 <= B -> e < 0 -> B * 2 ^ (- e) <= Z.pos m -> B <= mag_rne m e.
Proof.
  intros m e B B0 E M. unfold mag_rne. destruct (Z.leb_spec 0 e); [lia|]. cbv zeta.
  set (d := 2 ^ (- e)) in *. assert (D : 0 < d) by (apply Z.pow_pos_nonneg; lia).
  assert (B <= Z.pos m / d) by (apply Z.div_le_lower_bound; lia).
  destruct (Z.ltb (2 * (Z.pos m mod d)) d); [lia|]. destruct (Z.ltb d _); [lia|]. destruct (Z.even _); lia.
Qed.
Lemma mag_rne_nonneg : forall m e, 0 <= mag_rne m e.
Proof.
  intros m e. unfold mag_rne. destruct (Z.leb_spec 0 e); [assert (0 < 2 ^ e) by (apply Z.pow_pos_nonneg; lia); lia|]. cbv zeta.
  assert (0 <= Z.pos m / 2 ^ (- e)) by (apply Z.div_pos; [lia | apply Z.pow_pos_nonneg; lia]).
  destruct (Z.ltb _ _); [lia|]. destruct (Z.ltb _ _); [lia|]. destruct (Z.even _); lia.
Qed.

Lemma clamp_sat : forall x v B mb eb, canon x -> lrint x = Ok v -> of32 B 0 = S754_finite false mb eb ->
  0 <= B < 2 ^ 20 -> -149 < eb < 0 -> Z.pos mb = B * 2 ^ (- eb) -> 2 ^ 23 <= Z.pos mb < 2 ^ 24 ->
  lrint (fmin (fmax x (of32 0 0)) (of32 B 0)) = Ok (Z.min B (Z.max 0 v)).
Proof.
  intros x v B mb eb C LX E BB EB MB NB. rewrite E, of32_zero.
  assert (IB : forall v, 0 <= v <= B -> in_int64b v = true).
  { intros u U. apply in_int64b_spec. unfold in_int64, INT64_MIN, INT64_MAX. lia. }
  assert (LT : lrint (S754_finite false mb eb) = Ok B).
  { cbn [lrint signed]. pose proof (mag_rne_bounds mb eb B ltac:(lia) ltac:(lia) ltac:(lia)). pose proof (mag_rne_low mb eb B ltac:(lia) ltac:(lia) ltac:(lia)).
    replace (mag_rne mb eb) with B by lia. rewrite (IB B) by lia. reflexivity. }
  destruct x as [s|s| |s m e]; try contradiction.
  - cbn [lrint] in LX. injection LX as <-. cbn [fmax SFltb SFcompare fmin lrint]. f_equal. lia.
  - cbn [lrint] in LX. destruct (in_int64b (signed s (mag_rne m e))) eqn:I64; [|discriminate]. injection LX as <-.
    pose proof (mag_rne_nonneg m e) as NN. destruct s.
    + cbn [fmax SFltb SFcompare fmin lrint signed]. f_equal. lia.
    + cbn [signed] in *. cbn [canon] in C. unfold fmax, SFltb. cbn [SFcompare]. unfold fmin, SFltb. cbn [SFcompare].
      assert (K : e < eb \/ e = eb /\ Z.pos m <= Z.pos mb \/ (eb < e \/ e = eb /\ Z.pos mb < Z.pos m)) by lia.
      destruct K as [K|[K|K]].
      * assert (CC : (eb ?= e) = Gt) by (apply Z.compare_gt_iff; lia). rewrite CC. cbn [lrint signed].
        assert (MM : Z.pos m <= B * 2 ^ (- e)).
        { replace (- e) with (- eb + (eb - e)) by lia. rewrite Z.pow_add_r, Z.mul_assoc, <- MB by lia.
          replace (eb - e) with (1 + (eb - e - 1)) by lia. rewrite Z.pow_add_r by lia.
          assert (1 <= 2 ^ (eb - e - 1)) by (pose proof (Z.pow_pos_nonneg 2 (eb - e - 1)); lia). nia. }
        pose proof (mag_rne_bounds m e B ltac:(lia) ltac:(lia) MM). rewrite I64. f_equal. lia.
      * destruct K as (-> & K). rewrite Z.compare_refl.
        assert (CC : Pos.compare_cont Eq mb m <> Lt).
        { change (Pos.compare mb m <> Lt). intros X. apply Pos.compare_lt_iff, Pos2Z.pos_lt_pos in X. clear - K X. lia. }
        pose proof (mag_rne_bounds m eb B ltac:(lia) ltac:(lia) ltac:(lia)).
        destruct (Pos.compare_cont Eq mb m); [| contradiction |]; cbn [lrint signed]; rewrite I64; f_equal; lia.
      * assert (HI : B <= mag_rne m e).
        { destruct K as [K|(-> & K)].
          - assert (M23 : 2 ^ 23 <= Z.pos m) by lia. destruct (Z_lt_le_dec e 0) as [Q|Q].
            + apply mag_rne_low; [lia | exact Q |]. assert (X : B * 2 ^ (- e) * 2 ^ (e - eb) = Z.pos mb).
              { rewrite MB, <- Z.mul_assoc, <- Z.pow_add_r by lia. f_equal. f_equal. lia. }
              assert (2 ^ 1 <= 2 ^ (e - eb)) by (apply Z.pow_le_mono_r; lia). change (2 ^ 1) with 2 in *. nia.
            + unfold mag_rne. destruct (Z.leb_spec 0 e); [|lia]. assert (0 < 2 ^ e) by (apply Z.pow_pos_nonneg; lia). nia.
          - apply mag_rne_low; lia. }
        replace (Z.min B (Z.max 0 (mag_rne m e))) with B by lia. destruct K as [K|(-> & K)].
        -- assert (CC : (eb ?= e) = Lt) by (apply Z.compare_lt_iff; lia). rewrite CC. exact LT.
        -- rewrite Z.compare_refl. assert (CC : Pos.compare_cont Eq mb m = Lt) by (change (Pos.compare mb m = Lt); apply Pos.compare_lt_iff; lia).
           rewrite CC. exact LT.
Qed.

Lemma xrint_sat : forall k x v, smallk k -> canon x -> lrint x = Ok v -> xrint k x = Ok (Z.min (256 ^ k - 1) (Z.max 0 v)).
Proof.
  intros k x v K C E. pose proof (smallk_pow k K) as PK. unfold xrint.
  replace (lrint (fmin (fmax x (of32 0 0)) (of32 (256 ^ k - 1) 0))) with (Ok (Z.min (256 ^ k - 1) (Z.max 0 v))).
  - cbn [obind]. rewrite Z.mod_small by lia. reflexivity.
  - symmetry. destruct K as [->| ->]; [apply (clamp_sat x v 255 16711680 (-16)) | apply (clamp_sat x v 65535 16776960 (-8))]; try assumption; try reflexivity; try lia; vm_compute; split; discriminate.
Qed.

(** ** Packs *)

(** A float the conversion can represent; 32768 below it there is still room for the bias of
    the SSE2 words. *)
Definition calm (x : fl) : Prop := canon x /\ exists v, lrint x = Ok v /\ - 2 ^ 31 + 2 ^ 15 <= v < 2 ^ 31.

Lemma s32_wrap32 : forall v, - 2 ^ 31 <= v < 2 ^ 31 -> s32 (wrapu32 v) = v.
Proof.
  intros v V. unfold s32, wrapu32. destruct (Z_lt_le_dec v 0).
  - replace (v mod 4294967296) with (v + 4294967296); [destruct (Z.ltb_spec (v + 4294967296) 2147483648); lia|].
    symmetry. rewrite <- (Z.mod_add v 1 4294967296) by lia. apply Z.mod_small. lia.
  - rewrite Z.mod_small by lia. destruct (Z.ltb_spec v 2147483648); lia.
Qed.
Lemma s16_wrap16 : forall v, -32768 <= v < 32768 -> s16 (wrapu16 v) = v.
Proof.
  intros v V. unfold s16, wrapu16. destruct (Z_lt_le_dec v 0).
  - replace (v mod 65536) with (v + 65536); [destruct (Z.ltb_spec (v + 65536) 32768); lia|].
    symmetry. rewrite <- (Z.mod_add v 1 65536) by lia. apply Z.mod_small. lia.
  - rewrite Z.mod_small by lia. destruct (Z.ltb_spec v 32768); lia.
Qed.
Lemma cvtI_ok : forall x v, lrint x = Ok v -> - 2 ^ 31 <= v < 2 ^ 31 -> cvtI x = wrapu32 v.
Proof. intros x v E V. unfold cvtI. rewrite E. replace (in_intb v) with true; [reflexivity|]. symmetry. apply in_intb_spec. unfold in_int, INT_MIN, INT_MAX. lia. Qed.

Lemma packByte : forall v, - 2 ^ 31 <= v < 2 ^ 31 -> satu8of16 (sats16of32 (wrapu32 v)) = Z.min 255 (Z.max 0 v).
Proof.
  intros v V. unfold satu8of16, sats16of32. rewrite s32_wrap32 by exact V. rewrite (clampZ_minmax (-32768)) by lia.
  rewrite s16_wrap16 by lia. rewrite clampZ_minmax by lia. lia.
Qed.

(** The biased words: order and saturation are those of the plain ones. *)

Lemma wsign_biased : forall B, be_biased B = true -> forall x, 0 <= x < 65536 -> s16 (wsignL B x) = x - 32768 /\ wsignL B x = wrapu16 (x - 32768).
Proof.
  intros B E x X. unfold wsignL. rewrite E. unfold add16. change (wrapu16 (-32768)) with 32768.
  assert (Q : wrapu16 (x + 32768) = wrapu16 (x - 32768)).
  { unfold wrapu16. replace (x + 32768) with (x - 32768 + 1 * 65536) by lia. apply Z.mod_add. lia. }
  rewrite Q. split; [apply s16_wrap16; lia | reflexivity].
Qed.
Lemma wmin_sign : forall B x y, 0 <= x < 65536 -> 0 <= y < 65536 -> wminL B (wsignL B x) (wsignL B y) = wsignL B (Z.min x y).
Proof.
  intros B x y X Y. unfold wminL. destruct (be_biased B) eqn:E.
  - unfold min16. rewrite (proj1 (wsign_biased B E x X)), (proj1 (wsign_biased B E y Y)).
    destruct (Z.ltb_spec (x - 32768) (y - 32768)); [rewrite Z.min_l | rewrite Z.min_r]; (reflexivity || lia).
  - unfold minu, wsignL. rewrite E. destruct (Z.ltb_spec x y); lia.
Qed.
Lemma wmax_sign : forall B x y, 0 <= x < 65536 -> 0 <= y < 65536 -> wmaxL B (wsignL B x) (wsignL B y) = wsignL B (Z.max x y).
Proof.
  intros B x y X Y. unfold wmaxL. destruct (be_biased B) eqn:E.
  - unfold max16. rewrite (proj1 (wsign_biased B E x X)), (proj1 (wsign_biased B E y Y)).
    destruct (Z.ltb_spec (x - 32768) (y - 32768)); [rewrite Z.max_r | rewrite Z.max_l]; (reflexivity || lia).
  - unfold maxu, wsignL. rewrite E. destruct (Z.ltb_spec x y); lia.
Qed.
Lemma wunsign_sign : forall B x, 0 <= x < 65536 -> wunsignL B (wsignL B x) = x.
Proof.
  intros B x X. unfold wunsignL, wsignL. destruct (be_biased B); [|reflexivity]. unfold sub16, add16, wrapu16. rewrite Zminus_mod_idemp_l.
  replace (x + -32768 mod 65536 - -32768 mod 65536) with x by lia. apply Z.mod_small. exact X.
Qed.
Lemma wmaxval_sign : forall B x, 0 <= x < 65536 -> wmaxvalL B x = wsignL B x.
Proof.
  intros B x X. unfold wmaxvalL. destruct (be_biased B) eqn:E; [symmetry; apply wsign_biased; assumption|].
  unfold wsignL. rewrite E. unfold wrapu16. apply Z.mod_small. exact X.
Qed.
Lemma packWord_sign : forall B v, - 2 ^ 31 + 2 ^ 15 <= v < 2 ^ 31 -> packWordL B (wsign32L B (wrapu32 v)) = wsignL B (Z.min 65535 (Z.max 0 v)).
Proof.
  intros B v V. unfold packWordL, wsign32L. destruct (be_biased B) eqn:E.
  - rewrite (proj2 (wsign_biased B E (Z.min 65535 (Z.max 0 v)) ltac:(lia))). unfold sats16of32, Simd.add32.
    replace (wrapu32 (wrapu32 v + wrapu32 (-32768))) with (wrapu32 (v - 32768)).
    2:{ unfold wrapu32. rewrite Zplus_mod_idemp_l, Zplus_mod_idemp_r. reflexivity. }
    rewrite s32_wrap32 by lia. rewrite clampZ_minmax by lia. f_equal. lia.
  - unfold satu16of32, wsignL. rewrite E, s32_wrap32 by lia. rewrite clampZ_minmax by lia. reflexivity.
Qed.

Lemma finishByte : forall x v, lrint x = Ok v -> - 2 ^ 31 <= v < 2 ^ 31 -> satu8of16 (sats16of32 (cvtI x)) = Z.min 255 (Z.max 0 v).
Proof. intros x v E V. rewrite (cvtI_ok x v E V). apply packByte. exact V. Qed.
Lemma finishWord : forall B x v mv, lrint x = Ok v -> - 2 ^ 31 + 2 ^ 15 <= v < 2 ^ 31 -> 0 <= mv < 65536 ->
  wunsignL B (wminL B (packWordL B (wsign32L B (cvtI x))) (wmaxvalL B mv)) = Z.min (Z.min 65535 (Z.max 0 v)) mv.
Proof.
  intros B x v mv E V M. rewrite (cvtI_ok x v E) by lia. rewrite packWord_sign by exact V. rewrite wmaxval_sign by exact M.
  rewrite wmin_sign by lia. apply wunsign_sign. lia.
Qed.

(** Bounded floats are calm. *)
Lemma calm_le : forall b n x, canon x -> magLe b n x -> 0 <= b -> 0 <= n -> b * 2 ^ n <= 2 ^ 31 - 2 ^ 15 -> calm x.
Proof.
  intros b n x C L B N P. split; [exact C|]. destruct x as [s|s| |s m e]; try contradiction; cbn [canon magLe] in *.
  - exists 0. split; [reflexivity | lia].
  - assert (MB : 0 <= mag_rne m e <= 2 ^ 31 - 2 ^ 15).
    { split; [apply mag_rne_nonneg|]. apply Z.le_trans with (2 := P). destruct (Z_lt_le_dec e 0) as [E|E].
      - apply mag_rne_bounds; [nia | exact E |]. rewrite <- Z.mul_assoc, <- Z.pow_add_r by lia. replace (n + - e) with (n - e) by lia. apply L.
      - unfold mag_rne. destruct (Z.leb_spec 0 e); [|lia]. replace n with ((n - e) + e) by lia. rewrite Z.pow_add_r, Z.mul_assoc by lia.
        apply Z.mul_le_mono_nonneg_r; [apply Z.pow_nonneg; lia | apply L]. }
    exists (signed s (mag_rne m e)). assert (R : - 2 ^ 31 + 2 ^ 15 <= signed s (mag_rne m e) < 2 ^ 31) by (destruct s; cbn [signed]; lia).
    split; [|exact R]. cbn [lrint]. replace (in_int64b _) with true; [reflexivity|]. symmetry. apply in_int64b_spec. unfold in_int64, INT64_MIN, INT64_MAX. lia.
Qed.
