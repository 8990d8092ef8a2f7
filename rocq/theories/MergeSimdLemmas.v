(** Each lane computes what the scalar kernel computes, for in-range samples. *)
From Coq Require Import ZArith List Lia Bool.
From Verif Require Import Common Simd MergeSpec Merge MergeLemmas MergeLemmas2 MergeSimd MergeSimdLanes.
Import ListNotations.
Open Scope Z_scope.

Lemma s16_small : forall x, 0 <= x < 32768 -> s16 x = x.
Proof. intros x H. unfold s16. destruct (Z.ltb_spec x 32768); lia. Qed.
Lemma s8_wrap : forall x, -128 <= x < 128 -> s8 (wrapu8 x) = x.
Proof.
  intros x H. unfold s8, wrapu8. destruct (Z_lt_le_dec x 0) as [N|N].
  - replace (x mod 256) with (x + 256)
      by (rewrite <- (Z.mod_add x 1 256) by lia; rewrite Z.mod_small; lia).
    destruct (Z.ltb_spec (x + 256) 128); lia.
  - rewrite Z.mod_small by lia. destruct (Z.ltb_spec x 128); lia.
Qed.
Lemma clampZ_id : forall lo hi x, lo <= x <= hi -> clampZ lo hi x = x.
Proof.
  intros lo hi x H. unfold clampZ.
  destruct (Z.ltb_spec x lo); [lia|]. destruct (Z.ltb_spec hi x); [lia|reflexivity].
Qed.
Lemma clampZ_minmax : forall lo hi x, lo <= hi -> clampZ lo hi x = Z.min hi (Z.max lo x).
Proof.
  intros lo hi x H. unfold clampZ.
  destruct (Z.ltb_spec x lo); [lia|]. destruct (Z.ltb_spec hi x); lia.
Qed.
Lemma satu8_small : forall x, 0 <= x < 256 -> satu8of16 x = x.
Proof. intros x H. unfold satu8of16. rewrite s16_small by lia. apply clampZ_id; lia. Qed.
Lemma join8_0 : forall x, join8 x 0 = x.
Proof. intros; unfold join8; lia. Qed.
Lemma s16_wrap_eq : forall x, exists k, s16 x = x + k * 65536.
Proof.
  intros x. unfold s16. destruct (x <? 32768); [exists 0|exists (-1)]; lia.
Qed.
Lemma mullo16_mod : forall a b, mullo16 a b = wrapu16 (a * b).
Proof.
  intros a b. unfold mullo16. destruct (s16_wrap_eq a) as [k ->]. destruct (s16_wrap_eq b) as [j ->].
  unfold wrapu16. replace ((a + k * 65536) * (b + j * 65536))
    with (a * b + (k * b + a * j + k * j * 65536) * 65536) by ring.
  apply Z.mod_add; lia.
Qed.
Lemma mul_join : forall a b, 0 <= a -> 0 <= b -> join16 (mullo16 a b) (mulhiu16 a b) = a * b.
Proof.
  intros a b A B. rewrite mullo16_mod. unfold join16, mulhiu16, wrapu16.
  pose proof (Z.div_mod (a * b) 65536 ltac:(lia)). lia.
Qed.

(** ** merge *)

Lemma lane_merge_byte_sse2 : forall w x y, 0 <= w <= 32767 -> 0 <= x < 256 -> 0 <= y < 256 ->
  l_merge_byte_sse2 w x y = mergeVal w x y.
Proof.
  intros w x y Hw Hx Hy.
  assert (B : 0 <= mergeVal w x y < 256)
    by (pose proof (mergeVal_between w x y ltac:(lia)) as Q; unfold between in Q; lia).
  unfold l_merge_byte_sse2. cbv zeta. rewrite !join8_0.
  unfold slli16, sub16. change (2 ^ 1) with 2.
  assert (E : wrapu16 (wrapu16 (y - x) * 2) = wrapu16 ((y - x) * 2))
    by (unfold wrapu16; apply Zmult_mod_idemp_l).
  rewrite E. unfold mulhi16, mullo16. rewrite !(s16_wrap ((y - x) * 2)) by lia.
  rewrite (s16_wrap w) by lia.
  unfold srli16. change (2 ^ 15) with 32768. unfold add16.
  set (P := (y - x) * 2 * w).
  assert (S : wrapu16 (wrapu16 (P / 65536) + wrapu16 P / 32768) = wrapu16 ((P + 32768) / 65536)).
  { rewrite wrap_16_add. f_equal. unfold wrapu16.
    pose proof (Z.div_mod P 65536 ltac:(lia)). pose proof (Z.mod_pos_bound P 65536 ltac:(lia)).
    pose proof (Z.div_mod (P mod 65536) 32768 ltac:(lia)).
    pose proof (Z.mod_pos_bound (P mod 65536) 32768 ltac:(lia)).
    pose proof (Z.div_mod (P + 32768) 65536 ltac:(lia)).
    pose proof (Z.mod_pos_bound (P + 32768) 65536 ltac:(lia)). lia. }
  rewrite S, wrap_16_add.
  assert (Q : (P + 32768) / 65536 + x = mergeVal w x y).
  { unfold mergeVal, P. replace ((y - x) * 2 * w + 32768) with (2 * ((y - x) * w + 16384)) by ring.
    change 65536 with (2 * 32768). rewrite Z.div_mul_cancel_l by lia. ring. }
  rewrite Q, wrapu16_small by lia. apply satu8_small; lia.
Qed.

Lemma lane_merge_byte_avx2 : forall w x y, 0 <= w <= 32767 -> 0 <= x < 256 -> 0 <= y < 256 ->
  l_merge_byte_avx2 w x y = mergeVal w x y.
Proof.
  intros w x y Hw Hx Hy.
  assert (B : 0 <= mergeVal w x y < 256)
    by (pose proof (mergeVal_between w x y ltac:(lia)) as Q; unfold between in Q; lia).
  unfold l_merge_byte_avx2, mulhrs16, sub16, add16.
  rewrite (s16_wrap (y - x)) by lia. rewrite (s16_wrap w) by lia. rewrite wrap_16_add.
  assert (Q : ((y - x) * w / 16384 + 1) / 2 + x = mergeVal w x y).
  { unfold mergeVal. change 32768 with (16384 * 2). rewrite <- Z.div_div by lia.
    replace ((y - x) * w + 16384) with ((y - x) * w + 1 * 16384) by ring.
    rewrite Z.div_add by lia. ring. }
  rewrite Q, wrapu16_small by lia. apply satu8_small; lia.
Qed.

Lemma lane_merge_word : forall w x y, 1 <= w <= 32767 -> 0 <= x < 65536 -> 0 <= y < 65536 ->
  l_merge_word w x y = mergeVal w x y.
Proof.
  intros w x y Hw Hx Hy.
  assert (B : 0 <= mergeVal w x y < 65536)
    by (pose proof (mergeVal_between w x y ltac:(lia)) as Q; unfold between in Q; lia).
  unfold l_merge_word. cbv zeta.
  rewrite (Z.max_l w 1), (Z.min_l w 32767) by lia.
  rewrite (wrapu32_small (32768 - w)) by lia.
  rewrite (wrapu32_small (w * 65536 + (32768 - w))) by lia.
  unfold madd16. unfold join16, min16v.
  assert (R : forall v, 0 <= v < 65536 -> 0 <= add16 v 32768 < 65536 /\ s16 (add16 v 32768) = v - 32768).
  { intros v Hv. unfold add16. split; [unfold wrapu16; apply Z.mod_pos_bound; lia|].
    rewrite <- (s16_wrap (v - 32768)) by lia. f_equal. unfold wrapu16.
    replace (v + 32768) with (v - 32768 + 1 * 65536) by ring. apply Z.mod_add; lia. }
  destruct (R x Hx) as [Rx Sx]. destruct (R y Hy) as [Ry Sy].
  replace ((w * 65536 + (32768 - w)) mod 65536) with (32768 - w)
    by (apply (Z.mod_unique _ _ w); lia).
  replace ((w * 65536 + (32768 - w)) / 65536) with w
    by (apply (Z.div_unique _ _ _ (32768 - w)); lia).
  replace ((add16 x 32768 + 65536 * add16 y 32768) mod 65536) with (add16 x 32768)
    by (apply (Z.mod_unique _ _ (add16 y 32768)); lia).
  replace ((add16 x 32768 + 65536 * add16 y 32768) / 65536) with (add16 y 32768)
    by (apply (Z.div_unique _ _ _ (add16 x 32768)); lia).
  rewrite Sx, Sy, !s16_small by lia.
  set (P := (32768 - w) * (x - 32768) + w * (y - 32768)).
  assert (HP : P = 32768 * x + (y - x) * w - 32768 * 32768) by (unfold P; ring).
  assert (PR : - (32768 * 32768) <= P <= 32768 * 32767).
  { assert (0 <= (32768 - w) * x <= (32768 - w) * 65535) by nia.
    assert (0 <= w * y <= w * 65535) by nia. lia. }
  unfold srai32, add32. replace (wrapu32 (wrapu32 P + 16384)) with (wrapu32 (P + 16384))
    by (unfold wrapu32; symmetry; apply Zplus_mod_idemp_l).
  rewrite (s32_wrap (P + 16384)) by lia. change (2 ^ 15) with 32768.
  assert (Q : (P + 16384) / 32768 = mergeVal w x y - 32768).
  { rewrite HP. unfold mergeVal.
    replace (32768 * x + (y - x) * w - 32768 * 32768 + 16384)
      with ((y - x) * w + 16384 + (x - 32768) * 32768) by ring.
    rewrite Z.div_add by lia. lia. }
  rewrite Q. unfold sats16of32. rewrite (s32_wrap (mergeVal w x y - 32768)) by lia.
  rewrite clampZ_id by lia. unfold sub16. unfold wrapu16.
  rewrite Zminus_mod_idemp_l. replace (mergeVal w x y - 32768 - 32768) with (mergeVal w x y + (-1) * 65536) by ring.
  rewrite Z.mod_add by lia. apply Z.mod_small; lia.
Qed.

(** ** mask merge *)

Lemma l_div255_ok : forall x, 0 <= x < 65536 -> l_div255 x = x / 255.
Proof.
  intros x H. unfold l_div255, srli16, mulhiu16. change (2 ^ 7) with 128.
  rewrite Z.div_div by lia. change (65536 * 128) with 8388608. apply div255_exact; lia.
Qed.

Lemma l_divX_ok : forall d x, 9 <= d <= 16 ->
  0 <= x <= (2 ^ d - 1) * (2 ^ d - 1) + 2 ^ (d - 1) ->
  l_divX d x = x / (2 ^ d - 1).
Proof.
  intros d x Hd Hx. rewrite <- divX_exact by assumption.
  unfold l_divX, srl32, mulhiu32. rewrite Z.pow_add_r by (unfold shift_table; lia).
  apply Z.div_div; [lia|]. apply Z.pow_pos_nonneg; unfold shift_table; lia.
Qed.

Lemma lane_mm_byte : forall x y m, sample 8 x -> sample 8 y -> sample 8 m ->
  l_mm_byte x y m = maskVal 8 x y m.
Proof.
  intros x y m Hx Hy Hm.
  pose proof (mask_rounds 8 x y m ltac:(lia) Hx Hy Hm) as [_ [_ S8]].
  rewrite maskKernel_exact in S8 by (assumption || lia).
  unfold sample in *. change (2 ^ 8) with 256 in *.
  unfold l_mm_byte. rewrite !mullo16_mod. unfold sub16, add16.
  rewrite (wrapu16_small (255 - m)) by lia.
  assert (0 <= x * (255 - m) <= 255 * (255 - m)) by nia. assert (0 <= y * m <= 255 * m) by nia.
  rewrite (wrapu16_small (x * (255 - m))), (wrapu16_small (y * m)) by lia.
  rewrite (wrapu16_small (x * (255 - m) + y * m)) by lia.
  rewrite (wrapu16_small (x * (255 - m) + y * m + 127)) by lia.
  rewrite l_div255_ok by lia.
  assert (E : (x * (255 - m) + y * m + 127) / 255 = maskVal 8 x y m)
    by (unfold maskVal, maxOf; change (2 ^ 8 - 1) with 255; change (255 / 2) with 127; f_equal; ring).
  rewrite E. apply satu8_small; lia.
Qed.

Lemma lane_mm_div : forall d x y m, 9 <= d <= 16 -> sample d x -> sample d y -> sample d m ->
  l_divX d (l_mm_sum (wrapu16 (2 ^ d - 1)) (sub16 (wrapu16 (2 ^ d - 1)) m) x m y) = maskVal d x y m.
Proof.
  intros d x y m Hd Hx Hy Hm. pose proof (pow_word d Hd) as HP.
  pose proof (maxOf_half d ltac:(lia)) as HH. pose proof (pow2_half d ltac:(lia)).
  unfold sample in *. unfold l_mm_sum, sub16. rewrite (wrapu16_small (2 ^ d - 1)) by lia.
  rewrite (wrapu16_small (2 ^ d - 1 - m)) by lia. rewrite !mul_join by lia.
  fold (maxOf d) in *. assert (HM : maxOf d = 2 ^ d - 1) by reflexivity.
  assert (0 <= (maxOf d - m) * x <= (maxOf d - m) * maxOf d) by nia.
  assert (0 <= m * y <= m * maxOf d) by nia.
  assert (maxOf d * maxOf d <= 65535 * 65535) by nia.
  unfold add32. rewrite (wrapu32_small ((maxOf d - m) * x + m * y)) by lia.
  rewrite wrapu32_small by lia. unfold maskVal. rewrite l_divX_ok; fold (maxOf d); [reflexivity|exact Hd|lia].
Qed.

Lemma lane_mm_word_avx : forall d x y m, 9 <= d <= 16 -> sample d x -> sample d y -> sample d m ->
  l_mm_word_avx d x y m = maskVal d x y m.
Proof.
  intros d x y m Hd Hx Hy Hm. unfold l_mm_word_avx. cbv zeta. rewrite lane_mm_div by assumption.
  pose proof (mask_rounds d x y m ltac:(lia) Hx Hy Hm) as [_ [_ S8]].
  rewrite maskKernel_exact in S8 by (assumption || lia). apply sample_le16 in S8; [|lia].
  unfold satu16of32, s32. destruct (Z.ltb_spec (maskVal d x y m) 2147483648); [|lia].
  apply clampZ_id; lia.
Qed.

(* add INT16_MIN, pack with signed saturation, subtract INT16_MIN: unsigned saturation *)
Lemma bias_pack : forall v, -65536 <= v <= 131072 -> 
  sats16of32 (add32 (wrapu32 v) min16d) = wrapu16 (clampZ 0 65535 v - 32768).
Proof.
  intros v Hv. unfold sats16of32, add32, min16d.
  replace (wrapu32 (wrapu32 v + 4294934528)) with (wrapu32 (v - 32768)).
  2: { unfold wrapu32. rewrite Zplus_mod_idemp_l.
       replace (v + 4294934528) with (v - 32768 + 1 * 4294967296) by ring.
       symmetry. apply Z.mod_add; lia. }
  rewrite (s32_wrap (v - 32768)) by lia. f_equal. rewrite !clampZ_minmax by lia. lia.
Qed.

Lemma unbias : forall c, 0 <= c < 65536 -> sub16 (wrapu16 (c - 32768)) min16v = c.
Proof.
  intros c H. unfold sub16, min16v, wrapu16. rewrite Zminus_mod_idemp_l.
  replace (c - 32768 - 32768) with (c + (-1) * 65536) by ring. rewrite Z.mod_add by lia.
  apply Z.mod_small; lia.
Qed.

Lemma lane_mm_word_sse2 : forall d x y m, 9 <= d <= 16 -> sample d x -> sample d y -> sample d m ->
  l_mm_word_sse2 d x y m = maskVal d x y m.
Proof.
  intros d x y m Hd Hx Hy Hm. unfold l_mm_word_sse2. cbv zeta. rewrite lane_mm_div by assumption.
  pose proof (mask_rounds d x y m ltac:(lia) Hx Hy Hm) as [_ [_ S8]].
  rewrite maskKernel_exact in S8 by (assumption || lia). apply sample_le16 in S8; [|lia].
  replace (maskVal d x y m) with (wrapu32 (maskVal d x y m)) at 1 by (apply wrapu32_small; lia).
  rewrite bias_pack by lia. rewrite clampZ_id by lia. apply unbias; lia.
Qed.

(** ** conditional negation *)

Lemma land_mask16 : forall x, 0 <= x < 65536 -> Z.land 65535 x = x.
Proof. intros x H. rewrite Z.land_comm. change 65535 with (Z.ones 16). rewrite Z.land_ones by lia. apply Z.mod_small. change (2 ^ 16) with 65536; lia. Qed.
Lemma land_mask32 : forall x, 0 <= x < 4294967296 -> Z.land 4294967295 x = x.
Proof. intros x H. rewrite Z.land_comm. change 4294967295 with (Z.ones 32). rewrite Z.land_ones by lia. apply Z.mod_small. change (2 ^ 32) with 4294967296; lia. Qed.
Lemma lxor_ones : forall n x, 0 <= n -> 0 <= x < 2 ^ n -> Z.lxor x (Z.ones n) = Z.ones n - x.
Proof.
  intros n x Hn Hx.
  assert (HB : forall i, n <= i -> Z.testbit x i = false).
  { intros i Hi. destruct (Z.eq_dec x 0) as [->|N]; [apply Z.testbit_0_l|].
    apply Z.bits_above_log2; [lia|]. apply Z.log2_lt_pow2; [lia|].
    apply Z.lt_le_trans with (2 ^ n); [lia|]. apply Z.pow_le_mono_r; lia. }
  rewrite Z.sub_nocarry_ldiff.
  - apply Z.bits_inj'. intros i Hi. rewrite Z.lxor_spec, Z.ldiff_spec.
    destruct (Z_lt_le_dec i n).
    + rewrite Z.ones_spec_low by lia. destruct (Z.testbit x i); reflexivity.
    + rewrite Z.ones_spec_high by lia. rewrite HB by lia. reflexivity.
  - apply Z.bits_inj'. intros i Hi. rewrite Z.ldiff_spec, Z.testbit_0_l.
    destruct (Z_lt_le_dec i n).
    + rewrite Z.ones_spec_low by lia. apply andb_false_r.
    + rewrite HB by lia. reflexivity.
Qed.

(* sign ? -t : t on 16 bit and 32 bit lanes *)
Definition neg16ok (f : Z -> Z -> Z) : Prop :=
  forall t, 0 <= t < 65536 -> f 0 t = t /\ f 65535 t = wrapu16 (- t).
Definition neg32ok (f : Z -> Z -> Z) : Prop :=
  forall t, 0 <= t < 4294967296 -> f 0 t = t /\ f 4294967295 t = wrapu32 (- t).

Lemma wrapu16_range : forall x, 0 <= wrapu16 x < 65536.
Proof. intros; unfold wrapu16; apply Z.mod_pos_bound; lia. Qed.
Lemma wrapu32_range : forall x, 0 <= wrapu32 x < 4294967296.
Proof. intros; unfold wrapu32; apply Z.mod_pos_bound; lia. Qed.

Lemma neg16_or : neg16ok (negIf selOr16 sub16).
Proof.
  intros t H. unfold negIf, selOr16, orL, andL, andnot16, sub16.
  change (65535 - 0) with 65535. change (65535 - 65535) with 0. cbn [Z.land].
  rewrite Z.lor_0_r, Z.lor_0_l, Z.sub_0_l.
  split; apply land_mask16; [assumption|apply wrapu16_range].
Qed.
Lemma neg32_or : neg32ok (negIf selOr32 sub32).
Proof.
  intros t H. unfold negIf, selOr32, orL, andL, andnot32, sub32.
  change (4294967295 - 0) with 4294967295. change (4294967295 - 4294967295) with 0. cbn [Z.land].
  rewrite Z.lor_0_r, Z.lor_0_l, Z.sub_0_l.
  split; apply land_mask32; [assumption|apply wrapu32_range].
Qed.
Lemma neg16_blend : neg16ok (negIf selBlend16 sub16).
Proof.
  intros t H. unfold negIf, selBlend16, blendv16, blend8, sub16. rewrite Z.sub_0_l.
  change (0 mod 256) with 0. change (0 / 256) with 0. change (65535 mod 256) with 255.
  change (65535 / 256) with 255. cbn [Z.leb Z.compare Pos.compare Pos.compare_cont].
  pose proof (Z.div_mod t 256 ltac:(lia)). pose proof (Z.div_mod (wrapu16 (- t)) 256 ltac:(lia)). lia.
Qed.
Lemma neg32_blend : neg32ok (negIf selBlend32 sub32).
Proof.
  intros t H. unfold negIf, selBlend32, blendv32, blendv16, blend8, sub32. rewrite Z.sub_0_l.
  change (0 mod 65536) with 0. change (0 / 65536) with 0.
  change (4294967295 mod 65536) with 65535. change (4294967295 / 65536) with 65535.
  change (0 mod 256) with 0. change (0 / 256) with 0. change (65535 mod 256) with 255.
  change (65535 / 256) with 255. cbn [Z.leb Z.compare Pos.compare Pos.compare_cont].
  assert (E : forall u, (u mod 65536) mod 256 + 256 * (u mod 65536 / 256)
     + 65536 * ((u / 65536) mod 256 + 256 * (u / 65536 / 256)) = u).
  { intros u. pose proof (Z.div_mod u 65536 ltac:(lia)).
    pose proof (Z.div_mod (u mod 65536) 256 ltac:(lia)).
    pose proof (Z.div_mod (u / 65536) 256 ltac:(lia)). lia. }
  split; apply E.
Qed.
Lemma neg16_mask : neg16ok (negIf selMask sub16).
Proof. intros t H. unfold negIf, selMask, sub16. cbn [Z.eqb]. rewrite Z.sub_0_l. auto. Qed.
Lemma neg16_xor : neg16ok negXor16.
Proof.
  intros t H. unfold negXor16, xorL, sub16. rewrite Z.lxor_0_r, Z.sub_0_r.
  split; [apply wrapu16_small; lia|].
  change 65535 with (Z.ones 16) at 1. rewrite lxor_ones by (change (2 ^ 16) with 65536; lia).
  f_equal. change (Z.ones 16) with 65535. ring.
Qed.
Lemma neg32_xor : neg32ok negXor32.
Proof.
  intros t H. unfold negXor32, xorL, sub32. rewrite Z.lxor_0_r, Z.sub_0_r.
  split; [apply wrapu32_small; lia|].
  change 4294967295 with (Z.ones 32) at 1. rewrite lxor_ones by (change (2 ^ 32) with 4294967296; lia).
  f_equal. change (Z.ones 32) with 4294967295. ring.
Qed.
