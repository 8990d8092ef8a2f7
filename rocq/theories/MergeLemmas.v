(** The scalar merge kernels compute the specified values. *)
From Coq Require Import ZArith List Lia Bool.
From Verif Require Import Common Simd MergeSpec Merge.
Import ListNotations.
Open Scope Z_scope.

Ltac wraps := unfold wrapu8, wrapu16, wrapu32, wrapu64, wrap32 in *.
Ltac depths d :=
  let H := fresh in
  assert (H : d = 9 \/ d = 10 \/ d = 11 \/ d = 12 \/ d = 13 \/ d = 14 \/ d = 15 \/ d = 16) by lia;
  destruct H as [H|[H|[H|[H|[H|[H|[H|H]]]]]]]; subst d.

Lemma pow_word : forall d, 9 <= d <= 16 -> 512 <= 2 ^ d <= 65536.
Proof.
  intros d H. split.
  - change 512 with (2 ^ 9). apply Z.pow_le_mono_r; lia.
  - change 65536 with (2 ^ 16). apply Z.pow_le_mono_r; lia.
Qed.

(** ** Merge *)

Definition mergeVal (w v1 v2 : Z) : Z := v1 + ((v2 - v1) * w + 16384) / 32768.

Lemma wrapu32_small : forall x, 0 <= x < 4294967296 -> wrapu32 x = x.
Proof. intros; unfold wrapu32; apply Z.mod_small; lia. Qed.

Lemma mergeVal_between : forall w v1 v2, 0 <= w <= 32768 -> between v1 v2 (mergeVal w v1 v2).
Proof.
  intros w v1 v2 Hw. unfold between, mergeVal.
  assert (H : 0 <= v2 - v1 -> 0 <= (v2 - v1) * w <= (v2 - v1) * 32768) by (intros; nia).
  assert (K : v2 - v1 <= 0 -> (v2 - v1) * 32768 <= (v2 - v1) * w <= 0) by (intros; nia).
  set (p := (v2 - v1) * w) in *.
  pose proof (Z.div_mod (p + 16384) 32768 ltac:(lia)).
  pose proof (Z.mod_pos_bound (p + 16384) 32768 ltac:(lia)). lia.
Qed.

Lemma mergeVal_nearest : forall w v1 v2,
  nearest ((32768 - w) * v1 + w * v2) 32768 (mergeVal w v1 v2).
Proof.
  intros w v1 v2. unfold nearest, mergeVal.
  replace ((32768 - w) * v1 + w * v2) with (32768 * v1 + (v2 - v1) * w) by ring.
  set (p := (v2 - v1) * w).
  pose proof (Z.div_mod (p + 16384) 32768 ltac:(lia)).
  pose proof (Z.mod_pos_bound (p + 16384) 32768 ltac:(lia)). lia.
Qed.

(** The 32 bit wrap-around differs from exact arithmetic by a multiple of 65536. *)
Lemma merge_core_exact : forall w v1 v2,
  0 <= w <= 32768 -> 0 <= v1 < 65536 -> 0 <= v2 < 65536 ->
  merge_core w v1 v2 = mergeVal w v1 v2 \/
  merge_core w v1 v2 = mergeVal w v1 v2 + 131072.
Proof.
  intros w v1 v2 Hw H1 H2.
  pose proof (mergeVal_between w v1 v2 ltac:(lia)) as HB. unfold between in HB.
  unfold merge_core.
  assert (E : wrapu32 (wrapu32 (wrapu32 (v2 - v1) * w) + 16384)
              = wrapu32 ((v2 - v1) * w + 16384)).
  { unfold wrapu32. rewrite Zplus_mod_idemp_l.
    rewrite <- (Zplus_mod_idemp_l (((v2 - v1) mod 4294967296) * w)).
    rewrite Zmult_mod_idemp_l, Zplus_mod_idemp_l. reflexivity. }
  rewrite E. clear E. unfold mergeVal in *.
  assert (H : -2147483648 <= (v2 - v1) * w <= 2147483648) by nia.
  set (p := (v2 - v1) * w) in *.
  destruct (Z_lt_le_dec (p + 16384) 0) as [N|N].
  - right. unfold wrapu32 at 2.
    replace ((p + 16384) mod 4294967296) with (p + 16384 + 4294967296)
      by (symmetry; rewrite <- (Z.mod_add _ 1) by lia; apply Z.mod_small; lia).
    replace (p + 16384 + 4294967296) with (p + 16384 + 131072 * 32768) by lia.
    rewrite Z.div_add by lia. rewrite wrapu32_small by lia. lia.
  - left. rewrite (wrapu32_small (p + 16384)) by lia. rewrite wrapu32_small by lia. reflexivity.
Qed.

Lemma merge_byte_exact : forall w v1 v2,
  0 <= w <= 32768 -> 0 <= v1 < 256 -> 0 <= v2 < 256 ->
  merge_byte_c w v1 v2 = mergeVal w v1 v2.
Proof.
  intros w v1 v2 Hw H1 H2. unfold merge_byte_c, wrapu8.
  pose proof (mergeVal_between w v1 v2 ltac:(lia)) as HB. unfold between in HB.
  destruct (merge_core_exact w v1 v2 Hw ltac:(lia) ltac:(lia)) as [E|E]; rewrite E.
  - apply Z.mod_small; lia.
  - replace (mergeVal w v1 v2 + 131072) with (mergeVal w v1 v2 + 512 * 256) by lia.
    rewrite Z.mod_add by lia. apply Z.mod_small; lia.
Qed.

Lemma merge_word_exact : forall w v1 v2,
  0 <= w <= 32768 -> 0 <= v1 < 65536 -> 0 <= v2 < 65536 ->
  merge_word_c w v1 v2 = mergeVal w v1 v2.
Proof.
  intros w v1 v2 Hw H1 H2. unfold merge_word_c, wrapu16.
  pose proof (mergeVal_between w v1 v2 ltac:(lia)) as HB. unfold between in HB.
  destruct (merge_core_exact w v1 v2 Hw H1 H2) as [E|E]; rewrite E.
  - apply Z.mod_small; lia.
  - replace (mergeVal w v1 v2 + 131072) with (mergeVal w v1 v2 + 2 * 65536) by lia.
    rewrite Z.mod_add by lia. apply Z.mod_small; lia.
Qed.

Lemma sample_le16 : forall d x, 8 <= d <= 16 -> sample d x -> 0 <= x < 65536.
Proof.
  intros d x Hd H. unfold sample in H.
  assert (2 ^ d <= 2 ^ 16) by (apply Z.pow_le_mono_r; lia).
  change (2 ^ 16) with 65536 in *. lia.
Qed.

Lemma mergeKernel_exact : forall d w v1 v2,
  8 <= d <= 16 -> 0 <= w <= 32768 -> sample d v1 -> sample d v2 ->
  mergeKernel d w v1 v2 = mergeVal w v1 v2.
Proof.
  intros d w v1 v2 Hd Hw H1 H2. unfold mergeKernel, bytesOf.
  destruct (Z.leb_spec d 8) as [L|L].
  - assert (d = 8) by lia; subst d. cbn [Z.eqb Pos.eqb].
    apply merge_byte_exact; auto.
  - cbn [Z.eqb Pos.eqb].
    apply merge_word_exact; auto; eapply sample_le16; eauto.
Qed.

Lemma merge_rounds : forall d w v1 v2,
  8 <= d <= 16 -> 0 <= w <= 32768 -> sample d v1 -> sample d v2 ->
  nearest ((32768 - w) * v1 + w * v2) 32768 (mergeKernel d w v1 v2)
  /\ between v1 v2 (mergeKernel d w v1 v2) /\ sample d (mergeKernel d w v1 v2).
Proof.
  intros d w v1 v2 Hd Hw H1 H2. rewrite mergeKernel_exact by assumption.
  pose proof (mergeVal_between w v1 v2 Hw) as B.
  split; [apply mergeVal_nearest|]. split; [exact B|].
  unfold sample, between in *. lia.
Qed.

Lemma mergeVal_mono : forall w a b a' b', 0 <= w <= 32768 -> a <= a' -> b <= b' ->
  mergeVal w a b <= mergeVal w a' b'.
Proof.
  intros w a b a' b' Hw Ha Hb. unfold mergeVal.
  assert (E : forall a b, a + ((b - a) * w + 16384) / 32768
              = ((32768 - w) * a + w * b + 16384) / 32768).
  { intros x y. replace ((32768 - w) * x + w * y + 16384) with ((y - x) * w + 16384 + x * 32768)
      by ring. rewrite Z.div_add by lia. lia. }
  rewrite !E. apply Z.div_le_mono; [lia|]. nia.
Qed.

Lemma merge_monotone : forall d w a b a' b',
  8 <= d <= 16 -> 0 <= w <= 32768 -> sample d a -> sample d b -> sample d a' -> sample d b' ->
  a <= a' -> b <= b' -> mergeKernel d w a b <= mergeKernel d w a' b'.
Proof. intros. rewrite !mergeKernel_exact by assumption. apply mergeVal_mono; assumption. Qed.

(** Weights *)

Lemma weightOf_range : forall f, 0 < snd f -> inUnit f = true -> 0 <= weightOf f <= 32767.
Proof.
  intros [n d] Hd H. unfold inUnit, weightOf in *. cbn [fst snd] in *.
  apply andb_true_iff in H. destruct H as [A B].
  assert (0 <= n <= d) by lia.
  assert (0 <= (2 * n * 32768 + d) / (2 * d)) by (apply Z.div_pos; lia). lia.
Qed.

Lemma weightOf_close : forall f, 0 < snd f -> inUnit f = true -> fst f < snd f ->
  Z.abs (weightOf f * snd f - fst f * 32768) <= snd f.
Proof.
  intros [n d] Hd H Hlt. unfold inUnit, weightOf in *. cbn [fst snd] in *.
  apply andb_true_iff in H. destruct H as [A B]. assert (Hn : 0 <= n < d) by lia.
  pose proof (Z.div_mod (2 * n * 32768 + d) (2 * d) ltac:(lia)) as E.
  pose proof (Z.mod_pos_bound (2 * n * 32768 + d) (2 * d) ltac:(lia)) as M.
  set (q := (2 * n * 32768 + d) / (2 * d)) in *.
  set (r := (2 * n * 32768 + d) mod (2 * d)) in *.
  destruct (Z_le_gt_dec q 32767) as [L|L].
  - rewrite Z.min_l by lia.
    assert (2 * (q * d) = 2 * n * 32768 + d - r) by (rewrite E; ring). lia.
  - rewrite Z.min_r by lia. assert (d * 32768 <= d * q) by nia. nia.
Qed.

Lemma mergeSample_close : forall d f v1 v2,
  8 <= d <= 16 -> 0 < snd f -> inUnit f = true -> sample d v1 -> sample d v2 ->
  let out := mergeSample d (planeCfg f) v1 v2 in
  between v1 v2 out /\
  Z.abs (65536 * (snd f * out - ((snd f - fst f) * v1 + fst f * v2)))
    <= 32768 * snd f + 2 * (Z.abs (v2 - v1) * snd f).
Proof.
  intros d f v1 v2 Hd Hs Hu H1 H2 out.
  assert (G : 0 <= Z.abs (v2 - v1) * snd f) by nia.
  unfold out, mergeSample, planeCfg, processOf; cbn [pc_process pc_weight].
  pose proof (weightOf_range f Hs Hu) as HW.
  assert (HU : 0 <= fst f <= snd f).
  { unfold inUnit in Hu. apply andb_true_iff in Hu. lia. }
  destruct (Z.eqb_spec (weightOf f) 0) as [Z0|Z0].
  - split; [unfold between; lia|].
    assert (HL : fst f < snd f).
    { destruct (Z.eq_dec (fst f) (snd f)) as [E|]; [|lia]. exfalso.
      unfold weightOf in Z0. rewrite E in Z0.
      replace (2 * snd f * 32768 + snd f) with (snd f + 32768 * (2 * snd f)) in Z0 by ring.
      rewrite Z.div_add in Z0 by lia.
      assert (0 <= snd f / (2 * snd f)) by (apply Z.div_pos; lia). lia. }
    pose proof (weightOf_close f Hs Hu HL) as C. rewrite Z0 in C.
    replace (65536 * (snd f * v1 - ((snd f - fst f) * v1 + fst f * v2)))
      with (- 2 * ((v2 - v1) * (fst f * 32768))) by ring.
    rewrite Z.abs_mul, Z.abs_mul. change (Z.abs (-2)) with 2.
    assert (Z.abs (v2 - v1) * Z.abs (fst f * 32768) <= Z.abs (v2 - v1) * snd f)
      by (apply Z.mul_le_mono_nonneg_l; lia). lia.
  - destruct (Z.eqb_spec (fst f) (snd f)) as [E|E].
    + split; [unfold between; lia|]. rewrite E.
      replace (65536 * (snd f * v2 - ((snd f - snd f) * v1 + snd f * v2))) with 0 by ring. lia.
    + destruct (merge_rounds d (weightOf f) v1 v2 Hd ltac:(lia) H1 H2) as (N & B & _).
      split; [exact B|]. set (o := mergeKernel d (weightOf f) v1 v2) in *.
      pose proof (weightOf_close f Hs Hu ltac:(lia)) as C. unfold nearest in N.
      set (w := weightOf f) in *.
      replace (65536 * (snd f * o - ((snd f - fst f) * v1 + fst f * v2)))
        with (2 * (snd f * (o * 32768 - ((32768 - w) * v1 + w * v2)))
              + 2 * ((v2 - v1) * (w * snd f - fst f * 32768))) by ring.
      set (e1 := o * 32768 - ((32768 - w) * v1 + w * v2)) in *.
      set (e2 := w * snd f - fst f * 32768) in *.
      assert (Z.abs (snd f * e1) <= snd f * 16384)
        by (rewrite Z.abs_mul, (Z.abs_eq (snd f)) by lia; apply Z.mul_le_mono_nonneg_l; lia).
      assert (Z.abs ((v2 - v1) * e2) <= Z.abs (v2 - v1) * snd f)
        by (rewrite Z.abs_mul; apply Z.mul_le_mono_nonneg_l; lia).
      lia.
Qed.

Lemma mergeSample_ends : forall d f v1 v2, 0 < snd f -> inUnit f = true ->
  (fst f = 0 -> mergeSample d (planeCfg f) v1 v2 = v1) /\
  (fst f = snd f -> mergeSample d (planeCfg f) v1 v2 = v2).
Proof.
  intros d [n k] v1 v2 Hs Hu. cbn [fst snd] in *.
  unfold mergeSample, planeCfg, processOf, weightOf; cbn [pc_process pc_weight fst snd].
  split; intros E; subst n.
  - replace (2 * 0 * 32768 + k) with k by ring.
    rewrite Z.div_small by lia. cbn [Z.min Z.compare Z.eqb]. reflexivity.
  - replace (2 * k * 32768 + k) with (k + 32768 * (2 * k)) by ring.
    rewrite Z.div_add by lia. rewrite Z.div_small by lia.
    change (Z.min (0 + 32768) 32767 =? 0) with false. cbn iota.
    rewrite Z.eqb_refl. reflexivity.
Qed.

Lemma mergeCreate_planes : forall np ok ws cs,
  (forall f, In f ws -> 0 < snd f) ->
  mergeCreate np ok ws = Ok cs ->
  (length ws <= 3)%nat /\ zlength ws <= np /\ ok = true /\
  (forall f, In f ws -> inUnit f = true) /\
  exists a b c, cs = [planeCfg a; planeCfg b; planeCfg c] /\
    nth 0 ws half = a /\ nth 1 ws a = b /\ (nth 2 ws b = c) /\
    (forall f, In f [a; b; c] -> 0 < snd f /\ inUnit f = true).
Proof.
  intros np ok ws cs Hp H. unfold mergeCreate in H.
  destruct (fillWeights ws) as [[[a b] c]| |] eqn:F; try discriminate. cbn [obind] in H.
  destruct (inUnit a && inUnit b && inUnit c) eqn:U; cbn [negb] in H; try discriminate.
  destruct ok; cbn [negb] in H; try discriminate.
  match type of H with (if ?t then _ else _) = _ => destruct t eqn:LT end; try discriminate.
  assert (HLE : zlength ws <= np) by (apply Z.ltb_ge; exact LT).
  assert (cs = [planeCfg a; planeCfg b; planeCfg c]) by congruence.
  apply andb_true_iff in U; destruct U as [U Uc]. apply andb_true_iff in U; destruct U as [Ua Ub].
  assert (X : 0 < snd half) by (cbn; lia).
  destruct ws as [|f1 [|f2 [|f3 [|f4 ws]]]]; cbn [fillWeights] in F; try discriminate.
  - assert (a = half /\ b = half /\ c = half) as (-> & -> & ->) by (injection F as -> -> ->; auto).
    split; [cbn [length]; lia|]. split; [exact HLE|]. split; [reflexivity|].
    split; [intros f []|].
    exists half, half, half. cbn [nth]. split; [assumption|]. do 3 (split; [reflexivity|]).
    intros f HF; cbn [In] in HF; intuition (subst; auto).
  - assert (a = f1 /\ b = f1 /\ c = f1) as (-> & -> & ->) by (injection F as -> -> ->; auto).
    pose proof (Hp f1 (or_introl eq_refl)).
    split; [cbn [length]; lia|]. split; [exact HLE|]. split; [reflexivity|].
    split; [intros f [<-|[]]; assumption|].
    exists f1, f1, f1. cbn [nth]. split; [assumption|]. do 3 (split; [reflexivity|]).
    intros f HF; cbn [In] in HF; intuition (subst; auto).
  - assert (a = f1 /\ b = f2 /\ c = f2) as (-> & -> & ->) by (injection F as -> -> ->; auto).
    pose proof (Hp f1 (or_introl eq_refl)). pose proof (Hp f2 (or_intror (or_introl eq_refl))).
    split; [cbn [length]; lia|]. split; [exact HLE|]. split; [reflexivity|].
    split; [intros f [<-|[<-|[]]]; assumption|].
    exists f1, f2, f2. cbn [nth]. split; [assumption|]. do 3 (split; [reflexivity|]).
    intros f HF; cbn [In] in HF; intuition (subst; auto).
  - assert (a = f1 /\ b = f2 /\ c = f3) as (-> & -> & ->) by (injection F as -> -> ->; auto).
    pose proof (Hp f1 (or_introl eq_refl)). pose proof (Hp f2 (or_intror (or_introl eq_refl))).
    pose proof (Hp f3 (or_intror (or_intror (or_introl eq_refl)))).
    split; [cbn [length]; lia|]. split; [exact HLE|]. split; [reflexivity|].
    split; [intros f [<-|[<-|[<-|[]]]]; assumption|].
    exists f1, f2, f3. cbn [nth]. split; [assumption|]. do 3 (split; [reflexivity|]).
    intros f HF; cbn [In] in HF; intuition (subst; auto).
Qed.

(** ** Exact division *)

Lemma div255_exact : forall x, 0 <= x < 65536 -> x * 32897 / 8388608 = x / 255.
Proof.
  intros x H. symmetry. pose proof (Z.div_mod x 255 ltac:(lia)).
  pose proof (Z.mod_pos_bound x 255 ltac:(lia)).
  apply (Z.div_unique _ _ _ (x * 32897 - 8388608 * (x / 255))); lia.
Qed.

Lemma divX_exact : forall d x, 9 <= d <= 16 ->
  0 <= x <= (2 ^ d - 1) * (2 ^ d - 1) + 2 ^ (d - 1) ->
  x * div_table d / 2 ^ (32 + shift_table d) = x / (2 ^ d - 1).
Proof.
  intros d x Hd Hx. symmetry.
  depths d; unfold div_table, shift_table; cbn [Z.eqb Pos.eqb] in *;
  match goal with
  | |- x / ?m = _ => change m with (Z.pos (Z.to_pos m))
  end; cbn in Hx |- *;
  match goal with
  | |- x / ?m = x * ?k / ?p =>
      pose proof (Z.div_mod x m ltac:(lia)); pose proof (Z.mod_pos_bound x m ltac:(lia));
      apply (Z.div_unique _ _ _ (x * k - p * (x / m))); lia
  end.
Qed.

Lemma nearest_floor : forall n d, 0 < d -> d mod 2 = 1 -> nearest n d ((n + d / 2) / d).
Proof.
  intros n d Hd Ho. unfold nearest.
  pose proof (Z.div_mod d 2 ltac:(lia)) as E. rewrite Ho in E.
  pose proof (Z.div_mod (n + d / 2) d ltac:(lia)).
  pose proof (Z.mod_pos_bound (n + d / 2) d ltac:(lia)).
  set (q := (n + d / 2) / d) in *. set (k := d / 2) in *. set (r := (n + k) mod d) in *.
  replace (q * d) with (n + k - r) by lia. lia.
Qed.

Lemma maxOf_odd : forall d, 1 <= d -> maxOf d mod 2 = 1.
Proof.
  intros d H. unfold maxOf. replace (2 ^ d) with (2 ^ (d - 1) * 2)
    by (replace d with (d - 1 + 1) at 2 by lia; rewrite Z.pow_add_r by lia; reflexivity).
  rewrite <- (Z.mod_add _ 1) by lia. replace (2 ^ (d - 1) * 2 - 1 + 1 * 2) with (1 + 2 ^ (d - 1) * 2) by ring.
  rewrite Z.mod_add by lia. reflexivity.
Qed.

Lemma maxOf_half : forall d, 1 <= d -> maxOf d / 2 = 2 ^ (d - 1) - 1.
Proof.
  intros d H. unfold maxOf. replace (2 ^ d) with (2 ^ (d - 1) * 2)
    by (replace d with (d - 1 + 1) at 2 by lia; rewrite Z.pow_add_r by lia; reflexivity).
  symmetry. apply (Z.div_unique _ _ _ 1); lia.
Qed.

(** ** MaskedMerge *)

Definition maskVal (d v1 v2 m : Z) : Z :=
  ((maxOf d - m) * v1 + m * v2 + maxOf d / 2) / maxOf d.

Lemma mask_byte_exact : forall v1 v2 m, sample 8 v1 -> sample 8 v2 -> sample 8 m ->
  mask_merge_byte_c v1 v2 m = maskVal 8 v1 v2 m.
Proof.
  unfold sample, mask_merge_byte_c, maskVal, maxOf. change (2 ^ 8) with 256.
  intros v1 v2 m H1 H2 H3. cbv zeta. change (256 - 1) with 255. change (255 / 2) with 127.
  unfold wrapu8 at 2. rewrite (Z.mod_small (255 - m)) by lia.
  assert (0 <= (255 - m) * v1 + m * v2 <= 255 * 255) by nia.
  set (p := (255 - m) * v1 + m * v2) in *.
  unfold wrapu16. rewrite (Z.mod_small (p + 127)) by lia.
  unfold wrapu8. apply Z.mod_small.
  split; [apply Z.div_pos; lia|]. apply Z.div_lt_upper_bound; lia.
Qed.

Lemma mask_word_exact : forall d v1 v2 m, 9 <= d <= 16 ->
  sample d v1 -> sample d v2 -> sample d m ->
  mask_merge_word_c d v1 v2 m = maskVal d v1 v2 m.
Proof.
  intros d v1 v2 m Hd H1 H2 H3. unfold sample, mask_merge_word_c, maskVal in *. cbv zeta.
  pose proof (pow_word d Hd) as HP. pose proof (maxOf_half d ltac:(lia)) as HH.
  change (2 ^ d - 1) with (maxOf d). unfold wrapu16 at 2 3 4.
  assert (HM : maxOf d = 2 ^ d - 1) by reflexivity.
  assert (H2d : 2 ^ d = 2 * 2 ^ (d - 1))
    by (replace d with (d - 1 + 1) at 1 by lia; rewrite Z.pow_add_r by lia; ring).
  rewrite !(Z.mod_small (maxOf d)) by lia. rewrite (Z.mod_small (maxOf d - m)) by lia.
  assert (A : 0 <= (maxOf d - m) * v1 <= 65535 * 65535) by nia.
  assert (B : 0 <= m * v2 <= 65535 * 65535) by nia.
  assert (C : 0 <= (maxOf d - m) * v1 + m * v2 <= maxOf d * maxOf d) by nia.
  assert (D : maxOf d * maxOf d <= 65535 * maxOf d) by nia.
  rewrite (wrapu32_small ((maxOf d - m) * v1)) by lia.
  rewrite (wrapu32_small (m * v2)) by lia.
  set (p := (maxOf d - m) * v1 + m * v2) in *.
  rewrite HH in *. rewrite (wrapu32_small (p + _)) by lia.
  assert (W : wrapu64 ((p + (2 ^ (d - 1) - 1)) * div_table d) = (p + (2 ^ (d - 1) - 1)) * div_table d).
  { unfold wrapu64. apply Z.mod_small. 
    assert (0 < div_table d < 4294967296) by (unfold div_table; repeat destruct (_ =? _); lia).
    nia. }
  rewrite W. rewrite divX_exact; [|exact Hd|fold (maxOf d); lia].
  change (2 ^ d - 1) with (maxOf d).
  unfold wrapu16. apply Z.mod_small.
  split; [apply Z.div_pos; lia|]. apply Z.div_lt_upper_bound; lia.
Qed.

Lemma maskKernel_exact : forall d v1 v2 m, 8 <= d <= 16 ->
  sample d v1 -> sample d v2 -> sample d m ->
  maskMergeKernel d v1 v2 m = maskVal d v1 v2 m.
Proof.
  intros d v1 v2 m Hd H1 H2 H3. unfold maskMergeKernel, bytesOf.
  destruct (Z.leb_spec d 8) as [L|L]; cbn [Z.eqb Pos.eqb].
  - assert (d = 8) by lia; subst d. apply mask_byte_exact; auto.
  - apply mask_word_exact; auto; lia.
Qed.

Lemma maxOf_pos : forall d, 8 <= d -> 255 <= maxOf d.
Proof.
  intros d H. unfold maxOf. assert (2 ^ 8 <= 2 ^ d) by (apply Z.pow_le_mono_r; lia).
  change (2 ^ 8) with 256 in *. lia.
Qed.

Lemma mask_rounds : forall d v1 v2 m, 8 <= d <= 16 ->
  sample d v1 -> sample d v2 -> sample d m ->
  nearest ((maxOf d - m) * v1 + m * v2) (maxOf d) (maskMergeKernel d v1 v2 m)
  /\ between v1 v2 (maskMergeKernel d v1 v2 m) /\ sample d (maskMergeKernel d v1 v2 m).
Proof.
  intros d v1 v2 m Hd H1 H2 H3. rewrite maskKernel_exact by assumption.
  pose proof (maxOf_pos d ltac:(lia)) as HM.
  split; [apply nearest_floor; [lia|apply maxOf_odd; lia]|].
  assert (B : between v1 v2 (maskVal d v1 v2 m)).
  { unfold between, maskVal. pose proof (maxOf_half d ltac:(lia)).
    unfold sample in *. assert (0 <= m <= maxOf d) by (unfold maxOf; lia).
    assert (Z.min v1 v2 * maxOf d <= (maxOf d - m) * v1 + m * v2 <= Z.max v1 v2 * maxOf d) by nia.
    assert (0 <= maxOf d / 2) by (apply Z.div_pos; lia).
    assert (maxOf d / 2 < maxOf d) by (apply Z.div_lt; lia).
    split; [apply Z.div_le_lower_bound; lia|].
    apply Z.lt_succ_r. apply Z.div_lt_upper_bound; lia. }
  split; [exact B|]. unfold between, sample in *; lia.
Qed.

Lemma mask_ends : forall d v1 v2, 8 <= d <= 16 -> sample d v1 -> sample d v2 ->
  maskMergeKernel d v1 v2 0 = v1 /\ maskMergeKernel d v1 v2 (maxOf d) = v2.
Proof.
  intros d v1 v2 Hd H1 H2. pose proof (maxOf_pos d ltac:(lia)) as HM.
  assert (S0 : sample d 0) by (unfold sample, maxOf in *; lia).
  assert (SM : sample d (maxOf d)) by (unfold sample, maxOf in *; lia).
  rewrite !maskKernel_exact by assumption. unfold maskVal.
  assert (0 <= maxOf d / 2) by (apply Z.div_pos; lia).
  assert (maxOf d / 2 < maxOf d) by (apply Z.div_lt; lia).
  split.
  - replace ((maxOf d - 0) * v1 + 0 * v2 + maxOf d / 2) with (maxOf d / 2 + v1 * maxOf d) by ring.
    rewrite Z.div_add by lia. rewrite Z.div_small by lia. lia.
  - replace ((maxOf d - maxOf d) * v1 + maxOf d * v2 + maxOf d / 2)
      with (maxOf d / 2 + v2 * maxOf d) by ring.
    rewrite Z.div_add by lia. rewrite Z.div_small by lia. lia.
Qed.

(** ** Premultiplied *)

(* signed rounding of a product: the magnitude is rounded, then the sign restored *)
Definition premulVal (d x a o : Z) : Z :=
  Z.sgn (x - o) * ((Z.abs (x - o) * a + maxOf d / 2) / maxOf d).

Lemma premulVal_nearest : forall d x a o, 8 <= d -> 0 <= a ->
  nearest ((x - o) * a) (maxOf d) (premulVal d x a o).
Proof.
  intros d x a o Hd Ha. pose proof (maxOf_pos d Hd) as HM. unfold premulVal.
  pose proof (nearest_floor (Z.abs (x - o) * a) (maxOf d) ltac:(lia) (maxOf_odd d ltac:(lia))) as N.
  set (q := (Z.abs (x - o) * a + maxOf d / 2) / maxOf d) in *. unfold nearest in *.
  assert (T : Z.sgn (x - o) * Z.abs (x - o) = x - o) by (destruct (x - o); cbn; lia).
  replace ((x - o) * a) with (Z.sgn (x - o) * (Z.abs (x - o) * a))
    by (rewrite Z.mul_assoc, T; reflexivity).
  replace (Z.sgn (x - o) * q * maxOf d - Z.sgn (x - o) * (Z.abs (x - o) * a))
    with (Z.sgn (x - o) * (q * maxOf d - Z.abs (x - o) * a)) by ring.
  rewrite Z.abs_mul. assert (0 <= Z.abs (Z.sgn (x - o)) <= 1) by (destruct (x - o); cbn; lia). nia.
Qed.
