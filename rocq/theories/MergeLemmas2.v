(** Premultiplication and difference kernels. *)
From Coq Require Import ZArith Znumtheory List Lia Bool.
From Verif Require Import Common Simd MergeSpec Merge MergeLemmas.
Import ListNotations.
Open Scope Z_scope.

Lemma s16_wrap : forall x, -32768 <= x < 32768 -> s16 (wrapu16 x) = x.
Proof.
  intros x H. unfold s16, wrapu16.
  destruct (Z_lt_le_dec x 0) as [N|N].
  - replace (x mod 65536) with (x + 65536)
      by (symmetry; rewrite <- (Z.mod_add _ 1) by lia; apply Z.mod_small; lia).
    destruct (Z.ltb_spec (x + 65536) 32768); lia.
  - rewrite Z.mod_small by lia. destruct (Z.ltb_spec x 32768); lia.
Qed.

Lemma s32_wrap : forall x, -2147483648 <= x < 2147483648 -> s32 (wrapu32 x) = x.
Proof.
  intros x H. unfold s32, wrapu32.
  destruct (Z_lt_le_dec x 0) as [N|N].
  - replace (x mod 4294967296) with (x + 4294967296)
      by (symmetry; rewrite <- (Z.mod_add _ 1) by lia; apply Z.mod_small; lia).
    destruct (Z.ltb_spec (x + 4294967296) 2147483648); lia.
  - rewrite Z.mod_small by lia. destruct (Z.ltb_spec x 2147483648); lia.
Qed.

Lemma wrapu16_small : forall x, 0 <= x < 65536 -> wrapu16 x = x.
Proof. intros; unfold wrapu16; apply Z.mod_small; lia. Qed.
Lemma wrapu8_small : forall x, 0 <= x < 256 -> wrapu8 x = x.
Proof. intros; unfold wrapu8; apply Z.mod_small; lia. Qed.

Lemma wrapu16_neg_wrap : forall x, wrapu16 (- wrapu16 x) = wrapu16 (- x).
Proof.
  intros; unfold wrapu16. rewrite <- (Z.sub_0_l (x mod 65536)), <- (Z.sub_0_l x).
  apply Zminus_mod_idemp_r.
Qed.
Lemma wrapu32_neg_wrap : forall x, wrapu32 (- wrapu32 x) = wrapu32 (- x).
Proof.
  intros; unfold wrapu32. rewrite <- (Z.sub_0_l (x mod 4294967296)), <- (Z.sub_0_l x).
  apply Zminus_mod_idemp_r.
Qed.

(* rounding the product of a magnitude and a coefficient *)
Definition magVal (d t a : Z) : Z := (t * a + maxOf d / 2) / maxOf d.

Lemma magVal_bound : forall d t a, 8 <= d -> 0 <= t -> 0 <= a <= maxOf d ->
  0 <= magVal d t a <= t.
Proof.
  intros d t a Hd Ht Ha. pose proof (maxOf_pos d Hd). unfold magVal.
  assert (0 <= maxOf d / 2) by (apply Z.div_pos; lia).
  assert (maxOf d / 2 < maxOf d) by (apply Z.div_lt; lia).
  assert (0 <= t * a <= t * maxOf d) by nia.
  split; [apply Z.div_pos; lia|].
  apply Z.lt_succ_r. apply Z.div_lt_upper_bound; lia.
Qed.

Lemma premulVal_cases : forall d x a o, 8 <= d ->
  premulVal d x a o = if x - o <? 0 then - magVal d (o - x) a else magVal d (x - o) a.
Proof.
  intros d x a o Hd. pose proof (maxOf_pos d Hd). unfold premulVal, magVal. destruct (Z.ltb_spec (x - o) 0).
  - rewrite Z.sgn_neg, Z.abs_neq by lia. replace (- (x - o)) with (o - x) by ring. lia.
  - destruct (Z.eq_dec (x - o) 0) as [E|E].
    + rewrite E. change (Z.sgn 0) with 0. change (Z.abs 0) with 0. cbn [Z.mul Z.add].
      pose proof (Z.mul_div_le (maxOf d) 2 ltac:(lia)).
      symmetry. apply Z.div_small. split; [apply Z.div_pos; lia|apply Z.div_lt; lia].
    + rewrite Z.sgn_pos, Z.abs_eq by lia. lia.
Qed.

Lemma premulVal_bound : forall d x a o, 8 <= d -> 0 <= a <= maxOf d ->
  Z.min 0 (x - o) <= premulVal d x a o <= Z.max 0 (x - o).
Proof.
  intros d x a o Hd Ha. rewrite premulVal_cases by lia. destruct (Z.ltb_spec (x - o) 0).
  - pose proof (magVal_bound d (o - x) a Hd ltac:(lia) Ha). lia.
  - pose proof (magVal_bound d (x - o) a Hd ltac:(lia) Ha). lia.
Qed.

Lemma premul_u8_exact : forall x a o, sample 8 x -> sample 8 a -> sample 8 o ->
  premul_u8 x a o = wrapu16 (premulVal 8 x a o).
Proof.
  unfold sample. change (2 ^ 8) with 256. intros x a o Hx Ha Ho.
  rewrite premulVal_cases by lia. unfold premul_u8. cbv zeta.
  rewrite s16_wrap by lia.
  assert (E : forall t, 0 <= t <= 255 ->
    wrapu16 ((t * a + 127) / 255) = magVal 8 t a).
  { intros t Ht. pose proof (magVal_bound 8 t a ltac:(lia) ltac:(lia) ltac:(unfold maxOf; lia)) as B.
    unfold magVal, maxOf in *. change ((2 ^ 8 - 1) / 2) with 127 in *.
    change (2 ^ 8 - 1) with 255 in *. apply wrapu16_small. lia. }
  destruct (Z.ltb_spec (x - o) 0).
  - rewrite (wrapu16_neg_wrap (x - o)). replace (- (x - o)) with (o - x) by ring.
    rewrite (wrapu16_small (o - x)) by lia. rewrite E by lia. reflexivity.
  - rewrite (wrapu16_small (x - o)) by lia. rewrite E by lia.
    symmetry. apply wrapu16_small.
    pose proof (magVal_bound 8 (x - o) a ltac:(lia) ltac:(lia) ltac:(unfold maxOf; lia)). lia.
Qed.

Lemma div_table_range : forall d, 0 < div_table d < 4294967296.
Proof. intros; unfold div_table; repeat destruct (_ =? _); lia. Qed.

Lemma premul_u16_exact : forall d x a o, 9 <= d <= 16 ->
  sample d x -> sample d a -> sample d o ->
  premul_u16 x a o d = wrapu32 (premulVal d x a o).
Proof.
  intros d x a o Hd Hx Ha Ho.
  pose proof (pow_word d Hd) as HP. pose proof (maxOf_half d ltac:(lia)) as HH.
  assert (HM : maxOf d = 2 ^ d - 1) by reflexivity.
  assert (H2d : 2 ^ d = 2 * 2 ^ (d - 1))
    by (replace d with (d - 1 + 1) at 1 by lia; rewrite Z.pow_add_r by lia; ring).
  unfold sample in *. rewrite premulVal_cases by lia. unfold premul_u16. cbv zeta.
  rewrite s32_wrap by lia. change (2 ^ d - 1) with (maxOf d).
  assert (E : forall t, 0 <= t <= maxOf d ->
    wrapu32 (wrapu64 (wrapu64 (t * a + maxOf d / 2) * div_table d) / 2 ^ (32 + shift_table d))
    = magVal d t a).
  { intros t Ht. pose proof (magVal_bound d t a ltac:(lia) ltac:(lia) ltac:(lia)) as B.
    assert (0 <= t * a <= maxOf d * maxOf d) by nia.
    assert (maxOf d * maxOf d <= 65535 * 65535) by nia.
    pose proof (div_table_range d) as DT.
    assert (W1 : wrapu64 (t * a + maxOf d / 2) = t * a + maxOf d / 2)
      by (unfold wrapu64; apply Z.mod_small; lia).
    rewrite W1. set (p := t * a + maxOf d / 2) in *.
    assert (W2 : wrapu64 (p * div_table d) = p * div_table d)
      by (unfold wrapu64; apply Z.mod_small; nia).
    rewrite W2, divX_exact; [|exact Hd|fold (maxOf d); lia].
    fold (maxOf d). fold (magVal d t a). apply wrapu32_small. lia. }
  destruct (Z.ltb_spec (x - o) 0).
  - rewrite (wrapu32_neg_wrap (x - o)). replace (- (x - o)) with (o - x) by ring.
    rewrite (wrapu32_small (o - x)) by lia. rewrite E by lia. reflexivity.
  - rewrite (wrapu32_small (x - o)) by lia. rewrite E by lia.
    symmetry. apply wrapu32_small.
    pose proof (magVal_bound d (x - o) a ltac:(lia) ltac:(lia) ltac:(lia)). lia.
Qed.

Lemma wrap_8_16 : forall x, wrapu8 (wrapu16 x) = wrapu8 x.
Proof. intros; unfold wrapu8, wrapu16. symmetry. apply Zmod_div_mod; [lia|lia|exists 256; lia]. Qed.
Lemma wrap_8_32 : forall x, wrapu8 (wrapu32 x) = wrapu8 x.
Proof. intros; unfold wrapu8, wrapu32. symmetry. apply Zmod_div_mod; [lia|lia|exists 16777216; lia]. Qed.
Lemma wrap_16_32 : forall x, wrapu16 (wrapu32 x) = wrapu16 x.
Proof. intros; unfold wrapu16, wrapu32. symmetry. apply Zmod_div_mod; [lia|lia|exists 65536; lia]. Qed.
Lemma wrap_8_add : forall x y, wrapu8 (wrapu8 x + y) = wrapu8 (x + y).
Proof. intros; unfold wrapu8. apply Zplus_mod_idemp_l. Qed.
Lemma wrap_16_add : forall x y, wrapu16 (wrapu16 x + y) = wrapu16 (x + y).
Proof. intros; unfold wrapu16. apply Zplus_mod_idemp_l. Qed.

Lemma premultiplyKernel_exact : forall d o x a, 8 <= d <= 16 ->
  sample d x -> sample d a -> sample d o ->
  premultiplyKernel d o x a = o + premulVal d x a o.
Proof.
  intros d o x a Hd Hx Ha Ho.
  pose proof (maxOf_pos d ltac:(lia)). assert (HM : maxOf d = 2 ^ d - 1) by reflexivity.
  assert (B := premulVal_bound d x a o ltac:(lia) ltac:(unfold sample in Ha; lia)).
  unfold premultiplyKernel, bytesOf. destruct (Z.leb_spec d 8) as [L|L]; cbn [Z.eqb Pos.eqb].
  - assert (d = 8) by lia; subst d. unfold premultiply_byte_c.
    rewrite premul_u8_exact by assumption. unfold sample in *. change (2 ^ 8) with 256 in *.
    rewrite wrap_8_32, wrap_8_16, wrap_8_add. rewrite wrapu8_small by lia. lia.
  - pose proof (pow_word d ltac:(lia)) as HP. unfold premultiply_word_c.
    rewrite premul_u16_exact by (assumption || lia). unfold sample in *.
    rewrite !wrap_16_32, wrap_16_add. rewrite wrapu16_small by lia. lia.
Qed.

Lemma premultiply_rounds : forall d o x a, 8 <= d <= 16 ->
  sample d x -> sample d a -> sample d o ->
  nearest ((x - o) * a + o * maxOf d) (maxOf d) (premultiplyKernel d o x a)
  /\ between o x (premultiplyKernel d o x a) /\ sample d (premultiplyKernel d o x a).
Proof.
  intros d o x a Hd Hx Ha Ho. rewrite premultiplyKernel_exact by assumption.
  assert (HM : maxOf d = 2 ^ d - 1) by reflexivity.
  assert (B := premulVal_bound d x a o ltac:(lia) ltac:(unfold sample in Ha; lia)).
  pose proof (premulVal_nearest d x a o ltac:(lia) ltac:(unfold sample in Ha; lia)) as N.
  unfold nearest, between, sample in *. split; [|lia].
  replace ((o + premulVal d x a o) * maxOf d - ((x - o) * a + o * maxOf d))
    with (premulVal d x a o * maxOf d - (x - o) * a) by ring. exact N.
Qed.

Lemma premultiply_ends : forall d o x, 8 <= d <= 16 -> sample d x -> sample d o ->
  premultiplyKernel d o x 0 = o /\ premultiplyKernel d o x (maxOf d) = x.
Proof.
  intros d o x Hd Hx Ho. pose proof (maxOf_pos d ltac:(lia)) as HM.
  assert (S0 : sample d 0) by (unfold sample, maxOf in *; lia).
  assert (SM : sample d (maxOf d)) by (unfold sample, maxOf in *; lia).
  pose proof (maxOf_odd d ltac:(lia)) as OD.
  destruct (premultiply_rounds d o x 0 Hd Hx S0 Ho) as [N0 _].
  destruct (premultiply_rounds d o x (maxOf d) Hd Hx SM Ho) as [N1 _].
  split; eapply nearest_unique; try eassumption; try lia; unfold nearest.
  - replace (o * maxOf d - ((x - o) * 0 + o * maxOf d)) with 0 by ring. cbn. lia.
  - replace (x * maxOf d - ((x - o) * maxOf d + o * maxOf d)) with 0 by ring. cbn. lia.
Qed.

(** Premultiplied MaskedMerge: the second clip plus what the mask leaves of the first. *)
Lemma maskPremul_exact : forall d o v1 v2 m, 8 <= d <= 16 ->
  sample d v1 -> sample d v2 -> sample d m -> sample d o ->
  maskMergePremulKernel d o v1 v2 m
  = clampTo d (v2 + premulVal d v1 (maxOf d - m) o).
Proof.
  intros d o v1 v2 m Hd H1 H2 H3 Ho.
  pose proof (maxOf_pos d ltac:(lia)). assert (HM : maxOf d = 2 ^ d - 1) by reflexivity.
  assert (B := premulVal_bound d v1 (maxOf d - m) o ltac:(lia) ltac:(unfold sample in H3; lia)).
  unfold maskMergePremulKernel, bytesOf, clampTo.
  destruct (Z.leb_spec d 8) as [L|L]; cbn [Z.eqb Pos.eqb].
  - assert (d = 8) by lia; subst d. unfold mask_merge_premul_byte_c. cbv zeta.
    unfold sample in *. change (2 ^ 8) with 256 in *. change (maxOf 8) with 255 in *.
    rewrite (wrapu8_small (255 - m)) by lia.
    rewrite premul_u8_exact by (unfold sample; change (2 ^ 8) with 256; lia).
    rewrite (s16_wrap (premulVal 8 v1 (255 - m) o)) by lia. rewrite s16_wrap by lia. lia.
  - pose proof (pow_word d ltac:(lia)) as HP. unfold mask_merge_premul_word_c. cbv zeta.
    fold (maxOf d). unfold sample in *. rewrite !(wrapu16_small (maxOf d)) by lia.
    rewrite (wrapu16_small (maxOf d - m)) by lia.
    rewrite premul_u16_exact by (unfold sample; lia).
    rewrite s32_wrap by lia. rewrite wrap32_id by (unfold in_int, INT_MIN, INT_MAX; lia). lia.
Qed.

Lemma maskPremul_rounds : forall d o v1 v2 m, 8 <= d <= 16 ->
  sample d v1 -> sample d v2 -> sample d m -> sample d o ->
  exists q, nearest ((v1 - o) * (maxOf d - m)) (maxOf d) q /\
    maskMergePremulKernel d o v1 v2 m = clampTo d (v2 + q).
Proof.
  intros d o v1 v2 m Hd H1 H2 H3 Ho. exists (premulVal d v1 (maxOf d - m) o). split.
  - apply premulVal_nearest; [lia|]. unfold sample, maxOf in *; lia.
  - apply maskPremul_exact; assumption.
Qed.

(** Premultiplying first and merging premultiplied with the same mask is the plain
    masked merge up to one unit (both roundings are to nearest). *)
Lemma premul_then_merge : forall d o v1 v2 m, 8 <= d <= 16 ->
  sample d v1 -> sample d v2 -> sample d m -> sample d o ->
  Z.abs (maskMergePremulKernel d o v1 (premultiplyKernel d o v2 m) m
         - maskMergeKernel d v1 v2 m) <= 1.
Proof.
  intros d o v1 v2 m Hd H1 H2 H3 Ho.
  pose proof (maxOf_pos d ltac:(lia)) as HP. assert (HM : maxOf d = 2 ^ d - 1) by reflexivity.
  destruct (premultiply_rounds d o v2 m Hd H2 H3 Ho) as (N1 & _ & S1).
  destruct (maskPremul_rounds d o v1 (premultiplyKernel d o v2 m) m Hd H1 S1 H3 Ho)
    as (q & N2 & ->).
  destruct (mask_rounds d v1 v2 m Hd H1 H2 H3) as (N3 & _ & S3).
  set (p := premultiplyKernel d o v2 m) in *. set (r := maskMergeKernel d v1 v2 m) in *.
  assert (K : Z.abs (p + q - r) <= 1).
  { unfold nearest in *.
    assert (A : 2 * Z.abs ((p + q - r) * maxOf d) <= 3 * maxOf d).
    { replace ((p + q - r) * maxOf d)
        with ((p * maxOf d - ((v2 - o) * m + o * maxOf d))
              + (q * maxOf d - (v1 - o) * (maxOf d - m))
              - (r * maxOf d - ((maxOf d - m) * v1 + m * v2))) by ring. lia. }
    rewrite Z.abs_mul, (Z.abs_eq (maxOf d)) in A by lia. nia. }
  unfold clampTo, sample in *. lia.
Qed.

(** ** Differences *)

Lemma pow2_half : forall d, 1 <= d -> 2 ^ d = 2 * 2 ^ (d - 1).
Proof.
  intros. replace d with (d - 1 + 1) at 1 by lia. rewrite Z.pow_add_r by lia. ring.
Qed.

Lemma makediff_spec : forall d a b, 8 <= d <= 16 -> sample d a -> sample d b ->
  makediffKernel d a b = clampTo d (a - b + 2 ^ (d - 1)).
Proof.
  intros d a b Hd Ha Hb. unfold makediffKernel, bytesOf, clampTo, maxOf.
  destruct (Z.leb_spec d 8) as [L|L]; cbn [Z.eqb Pos.eqb].
  - assert (d = 8) by lia; subst d. unfold makediff_byte_c. cbn [Z.sub Z.pow]. 
    change (2 ^ (8 - 1)) with 128. change (2 ^ 8 - 1) with 255. lia.
  - unfold makediff_word_c. pose proof (pow_word d ltac:(lia)). lia.
Qed.

Lemma mergediff_spec : forall d a b, 8 <= d <= 16 -> sample d a -> sample d b ->
  mergediffKernel d a b = clampTo d (a + (b - 2 ^ (d - 1))).
Proof.
  intros d a b Hd Ha Hb. unfold mergediffKernel, bytesOf, clampTo, maxOf.
  destruct (Z.leb_spec d 8) as [L|L]; cbn [Z.eqb Pos.eqb].
  - assert (d = 8) by lia; subst d. unfold mergediff_byte_c.
    change (2 ^ (8 - 1)) with 128. change (2 ^ 8 - 1) with 255. lia.
  - unfold mergediff_word_c. pose proof (pow_word d ltac:(lia)). lia.
Qed.

Lemma pow8 : forall d, 8 <= d <= 16 -> 256 <= 2 ^ d <= 65536.
Proof.
  intros d H. split.
  - change 256 with (2 ^ 8). apply Z.pow_le_mono_r; lia.
  - change 65536 with (2 ^ 16). apply Z.pow_le_mono_r; lia.
Qed.

(** The difference clip stores a - b whenever it fits, and then restores a. *)
Lemma diff_roundtrip : forall d a b, 8 <= d <= 16 -> sample d a -> sample d b ->
  - 2 ^ (d - 1) <= a - b < 2 ^ (d - 1) ->
  sample d (makediffKernel d a b) /\ mergediffKernel d b (makediffKernel d a b) = a.
Proof.
  intros d a b Hd Ha Hb Hr. pose proof (pow2_half d ltac:(lia)).
  pose proof (pow8 d Hd).
  assert (E : makediffKernel d a b = a - b + 2 ^ (d - 1)).
  { rewrite makediff_spec by assumption. unfold clampTo, maxOf. lia. }
  assert (S1 : sample d (makediffKernel d a b)) by (rewrite E; unfold sample in *; lia).
  split; [exact S1|]. rewrite mergediff_spec by assumption. rewrite E.
  unfold clampTo, maxOf, sample in *. lia.
Qed.

(** Otherwise the reconstruction moves from b towards a as far as the difference
    format allows, and never overshoots. *)
Lemma diff_saturates : forall d a b, 8 <= d <= 16 -> sample d a -> sample d b ->
  sample d (makediffKernel d a b) /\
  mergediffKernel d b (makediffKernel d a b)
  = b + Z.max (- 2 ^ (d - 1)) (Z.min (2 ^ (d - 1) - 1) (a - b)) /\
  between a b (mergediffKernel d b (makediffKernel d a b)).
Proof.
  intros d a b Hd Ha Hb. pose proof (pow2_half d ltac:(lia)).
  pose proof (pow8 d Hd).
  assert (S1 : sample d (makediffKernel d a b))
    by (rewrite makediff_spec by assumption; unfold clampTo, maxOf, sample in *; lia).
  split; [exact S1|]. rewrite mergediff_spec by assumption. rewrite makediff_spec by assumption.
  unfold between, clampTo, maxOf, sample in *. lia.
Qed.

Lemma fulldiff_value : forall d a b, 8 <= d <= 16 -> sample d a -> sample d b ->
  makefulldiffKernel d a b = a - b + 2 ^ d /\ sample (d + 1) (makefulldiffKernel d a b).
Proof.
  intros d a b Hd Ha Hb. pose proof (pow8 d Hd) as HP.
  assert (P1 : 2 ^ (d + 1) = 2 * 2 ^ d) by (rewrite Z.pow_add_r by lia; ring).
  unfold sample in *. rewrite P1.
  assert (E : makefulldiffKernel d a b = a - b + 2 ^ d); [|rewrite E; lia].
  unfold makefulldiffKernel. destruct (Z.eqb_spec d 8).
  - subst d. unfold makefulldiff_byte_word_c. change (2 ^ 8) with 256 in *.
    apply wrapu16_small. lia.
  - destruct (Z.ltb_spec d 16).
    + assert (Q : 2 ^ d <= 32768) by (change 32768 with (2 ^ 15); apply Z.pow_le_mono_r; lia).
      unfold makefulldiff_word_word_c. rewrite (wrapu16_small (2 ^ d)) by lia.
      apply wrapu16_small. lia.
    + unfold makefulldiff_word_dword_c. apply wrapu32_small. lia.
Qed.

Lemma mergefull_value : forall d a t, 8 <= d <= 16 -> sample d a -> sample (d + 1) t ->
  mergefulldiffKernel d a t = clampTo d (a + (t - 2 ^ d)).
Proof.
  intros d a t Hd Ha Ht. pose proof (pow8 d Hd) as HP.
  assert (P1 : 2 ^ (d + 1) = 2 * 2 ^ d) by (rewrite Z.pow_add_r by lia; ring).
  unfold sample in *. rewrite P1 in Ht. unfold mergefulldiffKernel, clampTo, maxOf.
  destruct (Z.eqb_spec d 8).
  - subst d. unfold mergefulldiff_word_byte_c. change (2 ^ 8) with 256 in *. lia.
  - destruct (Z.ltb_spec d 16).
    + unfold mergefulldiff_word_word_c. lia.
    + unfold mergefulldiff_dword_word_c.
      rewrite (wrap32_id t) by (unfold in_int, INT_MIN, INT_MAX; lia).
      rewrite wrap32_id by (unfold in_int, INT_MIN, INT_MAX; lia). lia.
Qed.

Lemma fulldiff_roundtrip : forall d a b, 8 <= d <= 16 -> sample d a -> sample d b ->
  mergefulldiffKernel d b (makefulldiffKernel d a b) = a.
Proof.
  intros d a b Hd Ha Hb. destruct (fulldiff_value d a b Hd Ha Hb) as [E S1].
  rewrite mergefull_value by assumption. rewrite E.
  unfold clampTo, maxOf, sample in *. lia.
Qed.
